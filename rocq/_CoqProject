-Q theories Verif
theories/PyBase.v
theories/DocGraph.v
theories/Relabel.v
theories/SpecGraph.v
theories/DocGraphFacts.v
theories/History.v
theories/Effects.v
theories/RelabelFacts.v
theories/MergeFacts.v
theories/AllHist.v
theories/MergeAll.v
theories/GraphThms.v
theories/Witness.v
theories/PropGraph.v
theories/StrNum.v
theories/Query.v
theories/SpecQuery.v
theories/NatSort.v
theories/SpanFacts.v
theories/OffsetFacts.v
theories/ChainFacts.v
theories/SelectFacts.v
theories/WitQuery.v
theories/QueryThms.v
theories/PropQuery.v
theories/Text.v
theories/SpecText.v
theories/TextFacts.v
theories/LabelFacts.v
theories/PropText.v
theories/Tree.v
theories/SpecTree.v
theories/BfsFacts.v
theories/TreeFacts.v
theories/TravFacts.v
theories/RenderFacts.v
theories/OrderFacts.v
theories/WitTree.v
theories/PropTree.v
theories/Rst.v
theories/SpecRst.v
theories/RstLayout.v
theories/RstWrite.v
theories/RstRead.v
theories/RstRound.v
theories/RstBack.v
theories/RstThms.v
theories/PropRst.v
theories/Nltk.v
theories/Dis.v
theories/SpecDis.v
theories/NltkFacts.v
theories/DisText.v
theories/DisEscape.v
theories/DisTree.v
theories/DisThms.v
theories/WitDis.v
theories/PropDis.v
theories/Parsers.v
theories/SpecParse.v
theories/ParseFacts.v
theories/DplpFacts.v
theories/HsFacts.v
theories/PropParse.v
theories/Brackets.v
theories/SpecBrackets.v
theories/BracketFacts.v
theories/WitBrackets.v
theories/PropBrackets.v
theories/SpecImport.v
theories/ImportFacts.v
theories/Anaphora.v
theories/SpecAnaphora.v
theories/AnaphoraFacts.v
theories/PropAnaphora.v
theories/SpecOutline.v
theories/OutlineFacts.v
theories/OutlineSpan.v
theories/Conano.v
theories/SpecConano.v
theories/ConanoFacts.v
theories/PropConano.v
theories/Decour.v
theories/SpecDecour.v
theories/DecourFacts.v
theories/PropDecour.v
theories/PathFacts.v
theories/Ptb.v
theories/SpecPtb.v
theories/PtbFacts.v
theories/PtbSpan.v
theories/PropPtb.v
theories/Convert.v
theories/SpecConvert.v
theories/ConvertFacts.v
theories/PropConvert.v
theories/Geoff.v
theories/SpecGeoff.v
theories/GeoffFacts.v
theories/PropGeoff.v
theories/Brat.v
theories/SpecBrat.v
theories/BratFacts.v
theories/PropBrat.v
theories/Conll.v
theories/SpecConll.v
theories/ConllFacts.v
theories/PropConll.v
theories/ConllRead.v
theories/SpecConllRead.v
theories/ConllReadText.v
theories/ConllReadFacts.v
theories/ConllReadSpan.v
theories/ConllReadWalk.v
theories/ConllReadBack.v
theories/PropConllRead.v
theories/Alias.v
theories/SpecAlias.v
theories/AliasFacts.v
theories/AliasOps.v
theories/AliasEdges.v
theories/AliasEdges2.v
theories/AliasStep.v
theories/AliasProg.v
theories/PropAlias.v
theories/AliasMerge.v
theories/SpecAliasMerge.v
theories/AliasFrame.v
theories/AliasMergeFacts.v
theories/AliasMergeRoot.v
theories/AliasMergeProg.v
theories/PropAliasMerge.v
theories/Tiger.v
theories/SpecTiger.v
theories/TigerFacts.v
theories/TigerWalk.v
theories/TigerSent.v
theories/TigerReject.v
theories/BuiltFrom.v
theories/TigerDoc.v
theories/TigerSpan.v
theories/TigerTree.v
theories/TigerDocSpan.v
theories/TigerQuery.v
theories/WitTiger.v
theories/PropTiger.v
theories/Mmax.v
theories/SpecMmax.v
theories/MmaxFacts.v
theories/MmaxDoc.v
theories/MmaxSpan.v
theories/MmaxQuery.v
theories/WitMmax.v
theories/PropMmax.v
theories/Latex.v
theories/SpecLatex.v
theories/LatexFacts.v
theories/LatexTree.v
theories/LatexRead.v
theories/LatexAccept.v
theories/PropLatex.v
theories/Rs3Graph.v
theories/ViewFacts.v
theories/SpecRs3Graph.v
theories/Rs3Facts.v
theories/Rs3Desc.v
theories/Rs3Read.v
theories/Rs3Doc.v
theories/Rs3Span.v
theories/Rs3Rel.v
theories/Rs3Spans.v
theories/Rs3Accept.v
theories/WitRs3.v
theories/PropRs3.v
theories/Urml.v
theories/SpecUrml.v
theories/UrmlPath.v
theories/UrmlFacts.v
theories/UrmlDoc.v
theories/UrmlRead.v
theories/UrmlSpan.v
theories/WitUrml.v
theories/PropUrml.v
theories/Exb.v
theories/SpecExb.v
theories/ExbRead.v
theories/ExbDoc.v
theories/ExbSpan.v
theories/SpecExbWrite.v
theories/ExbWrite.v
theories/ExbBack.v
theories/ExbTrip.v
theories/WitExb.v
theories/PropExb.v
theories/Paula.v
theories/SpecPaula.v
theories/PaulaFacts.v
theories/PaulaDoc.v
theories/PaulaAll.v
theories/PaulaLost.v
theories/PaulaValues.v
theories/WitPaula.v
theories/PropPaula.v
theories/Exportxml.v
theories/SpecExportxml.v
theories/ExportxmlFacts.v
theories/ExportxmlStep.v
theories/ExportxmlElem.v
theories/ExportxmlDoc.v
theories/ExportxmlSpan.v
theories/ExportxmlMore.v
theories/WitExportxml.v
theories/PropExportxml.v
theories/Disgraph.v
theories/SpecDisgraph.v
theories/DisgraphFacts.v
theories/DisgraphDoc.v
theories/DisgraphMore.v
theories/DisgraphSpan.v
theories/DisgraphRst.v
theories/PropDisgraph.v
theories/Statistics.v
theories/SpecStatistics.v
theories/StatisticsFacts.v
theories/PropStatistics.v
theories/Salt.v
theories/SpecSalt.v
theories/SaltFacts.v
theories/SaltDoc.v
theories/SaltBack.v
theories/SaltLing.v
theories/SaltDone.v
theories/PropSalt.v
theories/Dot.v
theories/SpecDot.v
theories/DotFacts.v
theories/PropDot.v
theories/PropLayers.v
theories/Export.v
theories/SpecExport.v
theories/ExportFacts.v
theories/ExportThm.v
theories/PropExport.v
theories/Merging.v
theories/SpecMerging.v
theories/MergingFacts.v
theories/MergingThm.v
theories/MergingEmpty.v
theories/PropMerging.v
theories/Pcc.v
theories/SpecPcc.v
theories/PccFacts.v
theories/PccThm.v
theories/PropPcc.v
theories/Codra.v
theories/SpecCodra.v
theories/CodraFacts.v
theories/PropCodra.v
theories/UrmlCorpus.v
theories/SpecUrmlCorpus.v
theories/UrmlCorpusFacts.v
theories/PropUrmlCorpus.v
