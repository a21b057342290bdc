(** * Salt: SaltXMI documents

    Model of readwrite/salt/ (util.py, labels.py, elements.py, nodes.py, edges.py, layers.py,
    saltxmi.py).  Simplifications: as in Conano.v and Decour.v (element trees without comments
    and processing instructions); attribute values are bytes, as lxml gives for ASCII text;
    the attribute [xml] of the objects, which refers to the tree, is left out, as are the
    methods and functions that print ([__str__], element_statistics, tree_statistics).
    The constructors that build elements from scratch are not modelled. *)
From Verif Require Import PyBase DocGraph Relabel StrNum Query Text Rst Nltk ConllRead Conano Decour Conll.

(** ** Attributes *)
(** util.py:10-13, '{http://www.w3.org/2001/XMLSchema-instance}type' *)
Definition xsi_type : string := "{http://www.w3.org/2001/XMLSchema-instance}type".
(** util.py:16-28: the ValueError has no method format, so that an AttributeError is raised *)
Definition get_xsi_type (x : xml) : res string := of_option AttributeError (dget xsi_type (x_attrib x)).
(** util.py:31-42 *)
Definition hex_digit (n : nat) : ascii :=
  default "0"%char (["0"; "1"; "2"; "3"; "4"; "5"; "6"; "7"; "8"; "9"; "A"; "B"; "C"; "D"; "E"; "F"]%char !! n).
Definition string2xmihex (s : string) : string :=
  str (concat ((λ c, [hex_digit (nat_of_ascii c / 16); hex_digit (nat_of_ascii c mod 16)]) <$> chs s)).

(** ** Labels (labels.py) *)
Record slabel := SLabel { sl_type : string; sl_namespace : option string; sl_name : string; sl_value : string; sl_hex : string }.
(** labels.py:26-51, the constructor *)
Definition new_label (name value type : string) (namespace hexvalue : option string) : slabel :=
  SLabel type (match namespace with Some n => if decide (n = "") then None else Some n | None => None end) name value
    (match hexvalue with Some h => if decide (h = "") then string2xmihex value else h | None => string2xmihex value end).
(** labels.py:53-74 *)
Definition label_from_etree (x : xml) : res slabel :=
  let! n := x_get (x_attrib x) "name" in
  let! v := x_get (x_attrib x) "valueString" in
  let! t := get_xsi_type x in
  let! h := x_get (x_attrib x) "value" in
  Ok (new_label n v t (dget "namespace" (x_attrib x)) (Some h)).
(** labels.py:76-88; a new element has no text *)
Definition label_to_etree (l : slabel) : xml :=
  XElem "labels" ((xsi_type, sl_type l) :: match sl_namespace l with Some n => [("namespace", n)] | None => [] end ++
    [("name", sl_name l); ("value", sl_hex l); ("valueString", sl_value l)]) None [] None.

(** ** Elements (elements.py) *)
(** the classes of instances *)
Inductive sclass := CNode | CPrimaryText | CToken | CSpan | CStructure | CEdge | CSpanning | CTextual | CDominance | CLayer.
Global Instance sclass_eq_dec : EqDecision sclass.
Proof. solve_decision. Defined.
(** the values of further attributes of an instance *)
Inductive sfield := FInt (z : Z) | FInts (l : list Z) | FStr (s : string) | FDict (d : dict string string).
Global Instance sfield_eq_dec : EqDecision sfield.
Proof. solve_decision. Defined.
(** an instance of a subclass of SaltElement: the attributes of SaltElement (elements.py:37-71)
    and the others, by their names *)
Record selem := SElem { se_class : sclass; se_name : string; se_id : option string; se_type : string; se_labels : list slabel; se_fields : dict string sfield }.
Definition set_field (k : string) (v : sfield) (e : selem) : selem :=
  SElem (se_class e) (se_name e) (se_id e) (se_type e) (se_labels e) (dset k v (se_fields e)).
Definition set_class (c : sclass) (e : selem) : selem :=
  SElem c (se_name e) (se_id e) (se_type e) (se_labels e) (se_fields e).
(** element.find('labels[@name="..."]') *)
Definition find_label (name : string) (x : xml) : option xml :=
  head (filter (λ k, dget "name" (x_attrib k) = Some name) (x_findall "labels" x)).
(** label.xpath('@valueString')[0]; label may be None *)
Definition value_string (l : option xml) : res string :=
  match l with None => Err AttributeError | Some l => of_option IndexError (dget "valueString" (x_attrib l)) end.
(** elements.py:147-150, get_element_name *)
Definition get_element_name (x : xml) : res string := value_string (find_label "SNAME" x).
(** elements.py:153-163, get_graph_element_id *)
Definition get_graph_element_id (x : xml) : res (option string) :=
  match find_label "id" x with
  | Some l => let! v := x_get (x_attrib l) "valueString" in Ok (Some v)
  | None => Ok None
  end.
(** elements.py:73-85, SaltElement.from_etree; the class is replaced by the callers *)
Definition element_from_etree (x : xml) : res selem :=
  let! ls := rmap label_from_etree (x_findall "labels" x) in
  let! n := get_element_name x in
  let! i := get_graph_element_id x in
  let! t := get_xsi_type x in
  Ok (SElem CNode n i t ls []).
(** [_, n = s.split('.'); int(n)] *)
Definition index_of (s : string) : res Z :=
  match split_char "."%char (chs s) with [_; n] => int_of n | _ => Err ValueError end.
(** elements.py:166-186, get_layer_ids *)
Definition get_layer_ids (x : xml) : res (list Z) :=
  match dget "layers" (x_attrib x) with
  | Some s => rmap (λ w, index_of (str w)) (split_blanks (chs s))
  | None => Ok []
  end.
(** elements.py:111-121, get_annotations; labels.py:102-108 *)
Definition annotation (x : xml) : res (list (string * string)) :=
  let! t := get_xsi_type x in
  if decide (t = "saltCore:SAnnotation")
  then let! n := x_get (x_attrib x) "name" in let! v := x_get (x_attrib x) "valueString" in Ok [(n, v)]
  else Ok [].
Definition get_annotations (x : xml) : res (dict string string) :=
  let! ps := rconcat annotation (x_kids x) in Ok (foldl (λ d p, dset p.1 p.2 d) [] ps).

(** ** Nodes (nodes.py) *)
(** nodes.py:38-49; inherited by TokenNode, SpanNode and StructureNode, and makes a SaltNode *)
Definition node_from_etree (x : xml) : res selem :=
  let! e := element_from_etree x in
  let! ls := get_layer_ids x in
  let! fs := get_annotations x in
  Ok (set_field "features" (FDict fs) (set_field "layers" (FInts ls) (set_class CNode e))).
(** nodes.py:106-117 and 205-213 *)
Definition primary_text_from_etree (x : xml) : res selem :=
  let! e := node_from_etree x in
  let! t := value_string (find_label "SDATA" x) in
  Ok (set_field "text" (FStr t) (set_class CPrimaryText e)).

(** ** Edges (edges.py) *)
(** edges.py:196-203, get_node_id *)
Definition get_node_id (x : xml) (node_type : string) : res Z :=
  let! s := x_get (x_attrib x) node_type in index_of s.
(** edges.py:42-54; inherited by SpanningRelation, and makes a SaltEdge *)
Definition edge_from_etree (x : xml) : res selem :=
  let! e := element_from_etree x in
  let! ls := get_layer_ids x in
  let! s := get_node_id x "source" in
  let! t := get_node_id x "target" in
  Ok (set_field "target" (FInt t) (set_field "source" (FInt s) (set_field "layers" (FInts ls) (set_class CEdge e)))).
(** edges.py:206-217 *)
Definition get_position (name : string) (x : xml) : res Z :=
  let! s := value_string (find_label name x) in int_of (chs s).
(** edges.py:135-148 *)
Definition textual_from_etree (x : xml) : res selem :=
  let! e := edge_from_etree x in
  let e := set_class CTextual e in
  let! on := get_position "SSTART" x in
  let! off := get_position "SEND" x in
  Ok (set_field "offset" (FInt off) (set_field "onset" (FInt on) e)).
(** edges.py:181-193 *)
Definition dominance_from_etree (x : xml) : res selem :=
  let! e := edge_from_etree x in
  let! fs := get_annotations x in
  Ok (set_field "features" (FDict fs) (set_class CDominance e)).

(** ** Layers (layers.py) *)
(** layers.py:14, DIGITS.findall *)
Fixpoint find_digits (run : chars) (s : chars) : list chars :=
  match s with
  | [] => if decide (run = []) then [] else [run]
  | c :: s' =>
    if is_digit c then find_digits (run ++ [c]) s'
    else (if decide (run = []) then [] else [run]) ++ find_digits [] s'
  end.
Definition index_list (key : string) (x : xml) : res (list Z) :=
  match dget key (x_attrib x) with Some s => rmap int_of (find_digits [] (chs s)) | None => Ok [] end.
(** layers.py:62-82 *)
Definition layer_from_etree (x : xml) : res selem :=
  let! e := element_from_etree x in
  let! ns := index_list "nodes" x in
  let! es := index_list "edges" x in
  Ok (set_field "edges" (FInts es) (set_field "nodes" (FInts ns) (set_class CLayer e))).

(** ** Documents (saltxmi.py) *)
(** saltxmi.py:43-51, XSI_TYPE_CLASSES, with the from_etree of the class *)
Definition class_reader (type : string) : option (xml → res selem) :=
  if decide (type = "sDocumentStructure:SStructure") then Some node_from_etree
  else if decide (type = "sDocumentStructure:SSpan") then Some node_from_etree
  else if decide (type = "sDocumentStructure:SToken") then Some node_from_etree
  else if decide (type = "sDocumentStructure:STextualDS") then Some primary_text_from_etree
  else if decide (type = "sDocumentStructure:SSpanningRelation") then Some edge_from_etree
  else if decide (type = "sDocumentStructure:STextualRelation") then Some textual_from_etree
  else if decide (type = "sDocumentStructure:SDominanceRelation") then Some dominance_from_etree
  else if decide (type = "saltCore:SLayer") then Some layer_from_etree
  else None.
(** saltxmi.py:343-367 *)
Definition create_class_instance (x : xml) : res selem :=
  let! t := get_xsi_type x in
  let! f := of_option KeyError (class_reader t) in
  f x.
(** tree.findall('//tag'): all elements with this tag below the root, in document order *)
Fixpoint below (x : xml) : list xml := concat ((λ k, k :: below k) <$> x_kids x).
(** elements.py:124-136 *)
Definition get_elements (t : xml) (tag : string) : list xml := filter (λ k, x_tag k = tag) (below t).
(** saltxmi.py:370-378 *)
Definition get_doc_id (t : xml) : res string :=
  match find_label "id" t with Some l => x_get (x_attrib l) "valueString" | None => Err IndexError end.
Record sdoc := SDoc { sd_id : string; sd_nodes : list selem; sd_edges : list selem; sd_layers : list selem }.
(** saltxmi.py:87-166, SaltDocument *)
Definition salt_document (t : xml) : res sdoc :=
  let! i := get_doc_id t in
  let! ns := rmap create_class_instance (get_elements t "nodes") in
  let! es := rmap create_class_instance (get_elements t "edges") in
  let! ls := rmap create_class_instance (get_elements t "layers") in
  Ok (SDoc i ns es ls).

(** ** Writing (nodes.py:51-67, edges.py:56-77, layers.py:84-105) *)
Definition refs (kind : string) (l : list Z) : string := str (join_with [" "%char] ((λ z, chs ("//@" +:+ kind +:+ "." +:+ str_Z z)) <$> l)).
Definition get_ints (k : string) (e : selem) : res (list Z) := match dget k (se_fields e) with Some (FInts l) => Ok l | _ => Err AttributeError end.
Definition get_int (k : string) (e : selem) : res Z := match dget k (se_fields e) with Some (FInt z) => Ok z | _ => Err AttributeError end.
Definition node_to_etree (e : selem) : res xml :=
  let! ls := get_ints "layers" e in
  Ok (XElem "nodes" [(xsi_type, se_type e); ("layers", refs "layers" ls)] None (label_to_etree <$> se_labels e) None).
Definition edge_to_etree (e : selem) : res xml :=
  let! ls := get_ints "layers" e in
  let! s := get_int "source" e in
  let! t := get_int "target" e in
  Ok (XElem "edges" [(xsi_type, se_type e); ("source", "//@nodes." +:+ str_Z s); ("target", "//@nodes." +:+ str_Z t); ("layers", refs "layers" ls)] None (label_to_etree <$> se_labels e) None).
Definition layer_to_etree (e : selem) : res xml :=
  let! ns := get_ints "nodes" e in
  let! es := get_ints "edges" e in
  Ok (XElem "layers" [(xsi_type, se_type e); ("nodes", refs "nodes" ns); ("edges", refs "edges" es)] None (label_to_etree <$> se_labels e) None).
(** the method of the class *)
Definition to_etree (e : selem) : res xml :=
  match se_class e with
  | CNode | CPrimaryText | CToken | CSpan | CStructure => node_to_etree e
  | CEdge | CSpanning | CTextual | CDominance => edge_to_etree e
  | CLayer => layer_to_etree e
  end.

(** ** LinguisticDocument (saltxmi.py:169-340) *)
(** a list index, negative ones counting from the end *)
Definition py_index {A} (l : list A) (z : Z) : option nat :=
  if decide (0 ≤ z < Z.of_nat (length l))%Z then Some (Z.to_nat z)
  else if decide (- Z.of_nat (length l) ≤ z < 0)%Z then Some (Z.to_nat (z + Z.of_nat (length l))) else None.
Record ldoc := LDoc { ld_id : string; ld_nodes : list selem; ld_edges : list selem; ld_layers : list selem; ld_text : string; ld_sentences : list (list Z) }.
(** saltxmi.py:381-387, subtype_ids; no class is a proper subclass of the classes asked for *)
Definition subtype_ids (es : list selem) (c : sclass) : list Z :=
  omap (λ p : nat * selem, if decide (se_class p.2 = c) then Some (Z.of_nat p.1) else None) (imap pair es).
(** [self.edges[i]] for an [i] of subtype_ids *)
Definition elem_at (es : list selem) (z : Z) : res selem := of_option IndexError (py_index es z ≫= λ i, es !! i).
(** [self.nodes[z].k = v] *)
Definition set_node_field (z : Z) (k : string) (v : sfield) (ns : list selem) : res (list selem) :=
  let! i := of_option IndexError (py_index ns z) in Ok (alter (set_field k v) i ns).
(** loops that stop at the first exception *)
Definition rfold {A S} (f : A → S → res S) (l : list A) (s : S) : res S := foldl (λ r a, let! s := r in f a s) (Ok s) l.
(** saltxmi.py:272-281 *)
Definition add_offsets (es : list selem) (ids : list Z) (ns : list selem) : res (list selem) :=
  rfold (λ i ns,
    let! e := elem_at es i in
    let! n := get_int "source" e in
    let! on := get_int "onset" e in
    let! ns := set_node_field n "onset" (FInt on) ns in
    let! off := get_int "offset" e in
    set_node_field n "offset" (FInt off) ns) ids ns.
(** nodes.py:187-202, extract_sentences *)
Definition tiger_pos (e : selem) : res string :=
  match dget "features" (se_fields e) with Some (FDict d) => of_option KeyError (dget "tiger.pos" d) | _ => Err AttributeError end.
Definition extract_sentences (ns : list selem) (token_ids : list Z) : res (list (list Z)) :=
  let! r := rfold (λ (p : nat * selem) (st : list (list Z) * list Z),
    if decide (Z.of_nat p.1 ∈ token_ids) then
      let! pos := tiger_pos p.2 in
      if decide (pos = "$.") then Ok (st.1 ++ [st.2 ++ [Z.of_nat p.1]], []) else Ok (st.1, st.2 ++ [Z.of_nat p.1])
    else Ok st) (imap pair ns) ([], []) in
  Ok r.1.
(** a defaultdict(list): keys with the values appended, over the edges with these ids *)
Definition group_edges (es : list selem) (ids : list Z) (key val : string) : res (dict Z (list Z)) :=
  rfold (λ i d,
    let! e := elem_at es i in
    let! k := get_int key e in
    let! v := get_int val e in
    Ok (dset k (default [] (dget k d) ++ [v]) d)) ids [].
(** [for n in d: self.nodes[n].k = d[n]]; the order of the dictionary is [ord] *)
Definition set_groups (ord : list (Z * list Z) → list (Z * list Z)) (k : string) (d : dict Z (list Z)) (ns : list selem) : res (list selem) :=
  rfold (λ (p : Z * list Z) ns, set_node_field p.1 k (FInts p.2) ns) (ord d) ns.
(** saltxmi.py:176-229; the nodes are those of the SaltDocument, which are changed *)
Definition linguistic_document (ord : list (Z * list Z) → list (Z * list Z)) (d : sdoc) : res ldoc :=
  let ns := sd_nodes d in
  let es := sd_edges d in
  let! n := of_option IndexError (head ns) in
  let! text := match dget "text" (se_fields n) with Some (FStr t) => Ok t | _ => Err AttributeError end in
  let tokens := subtype_ids ns CToken in
  let textual := subtype_ids es CTextual in
  let spanning := subtype_ids es CSpanning in
  let dominance := subtype_ids es CDominance in
  let! ns := add_offsets es textual ns in
  let! sents := extract_sentences ns tokens in
  (* saltxmi.py:283-297 *)
  let! g := group_edges es spanning "source" "target" in
  let! ns := set_groups ord "tokens" g ns in
  (* saltxmi.py:299-313 *)
  let! g := group_edges es spanning "target" "source" in
  let! ns := set_groups ord "spans" g ns in
  (* saltxmi.py:315-340 *)
  let! g1 := group_edges es dominance "source" "target" in
  let! g2 := group_edges es dominance "target" "source" in
  let! ns := set_groups ord "dominates" g1 ns in
  let! ns := set_groups ord "dominated_by" g2 ns in
  Ok (LDoc (sd_id d) ns es (sd_layers d) text sents).
(** a slice [s[i:j]] *)
Definition slice_bound (len : nat) (z : Z) : nat := Z.to_nat (Z.max 0 (Z.min (Z.of_nat len) (if decide (z < 0)%Z then z + Z.of_nat len else z)%Z)).
Definition slice (s : chars) (i j : Z) : chars :=
  let a := slice_bound (length s) i in let b := slice_bound (length s) j in drop a (take b s).
(** saltxmi.py:264-270 *)
Definition print_token (d : ldoc) (i : Z) : res string :=
  let! n := elem_at (ld_nodes d) i in
  if decide (se_class n = CToken) then
    let! on := get_int "onset" n in
    let! off := get_int "offset" n in
    Ok (str (slice (chs (ld_text d)) on off))
  else Err AssertionError.
(** saltxmi.py:251-262 *)
Definition print_sentence (d : ldoc) (i : Z) : res string :=
  let! s := of_option IndexError (py_index (ld_sentences d) i ≫= λ k, ld_sentences d !! k) in
  let! ts := rmap (print_token d) s in
  Ok (join_sp ts).
