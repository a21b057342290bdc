(** * PropLatex: properties C69, C70 (RST trees in LaTeX; see SpecLatex.v) *)
From Verif Require Import PyBase DocGraph Relabel StrNum Query Text Rst Nltk Parsers Latex SpecLatex LatexFacts LatexTree LatexRead LatexAccept.

(** ** C69: the figure of a tree *)
Theorem C69_figure : ∀ r, is_relation r → drawable r → ∃ out, write_rstlatex (to_tree r) = Ok out ∧ solid out = solid (tex (figure r)).
Proof. exact write_ok. Qed.
Print Assumptions C69_figure.
Definition lx_tree : rtree :=
  RMulti "contrast" [RMono "cause" true (REdu "we stay") (REdu "it  rains");
    RBundle (REdu "go") [("S", "condition", true, REdu "if you can"); ("N", "purpose", false, REdu "to win"); ("S", "time", true, REdu "when asked")]].
Ltac nocmd := split; intros H%found_iff; vm_compute in H; discriminate H.
Lemma lx_drawable : drawable lx_tree.
Proof.
  unfold lx_tree. cbn [drawable]. split; [split; done|]. split; [done|]. split; [split; [split; done|]; split; [done|]; split; nocmd|]. split; [|done].
  split; [cbn; lia|]. split; [left|]. split; [done|]. split; [nocmd|].
  split; [split; [by right|]; split; [split; done|]; split; [done|nocmd]|]. split; [split; [by left|]; split; [split; done|]; split; [done|nocmd]|].
  split; [split; [by right|]; split; [split; done|]; split; [done|nocmd]|]. done.
Qed.
Example C69_figure_hyp : is_relation lx_tree ∧ drawable lx_tree.
Proof. split; [done|exact lx_drawable]. Qed.
Example C69_figure_tex : tex (figure lx_tree) = chs
  "\multirel{contrast}{\dirrel{cause}{\rstsegment{it rains}}{}{\rstsegment{we stay}}}{\dirrel{condition}{\rstsegment{if you can}}{time}{\rstsegment{when asked}}{}{\rstsegment{go}}{purpose}{\rstsegment{to win}}}".
Proof. vm_compute. reflexivity. Qed.
(** the text determines the figure *)
Theorem C69_unique : ∀ r1 r2 out, is_relation r1 → is_relation r2 → drawable r1 → drawable r2 → plain_fig (figure r1) → plain_fig (figure r2) →
  write_rstlatex (to_tree r1) = Ok out → write_rstlatex (to_tree r2) = Ok out → figure r1 = figure r2.
Proof. exact write_same. Qed.
Print Assumptions C69_unique.
(** ... and the tree *)
Theorem C69_unique_tree : ∀ r1 r2 out, is_relation r1 → is_relation r2 → drawable r1 → drawable r2 → plain_fig (figure r1) → plain_fig (figure r2) →
  no_bundles r1 → no_bundles r2 → write_rstlatex (to_tree r1) = Ok out → write_rstlatex (to_tree r2) = Ok out → normalised r1 = normalised r2.
Proof. intros r1 r2 out H1 H2 H3 H4 H5 H6 H7 H8 E1 E2. apply figure_tree; [done|done|]. exact (write_same r1 r2 out H1 H2 H3 H4 H5 H6 E1 E2). Qed.
Print Assumptions C69_unique_tree.
Ltac plaintext := split; [split|split]; intros H%elem_of_list_In; vm_compute in H; repeat (destruct H as [H|H]; [discriminate H|]); exact H.
Example C69_unique_hyp : let r := RMono "cause" true (REdu "we stay") (RMulti "joint" [REdu "it  rains"; REdu "it snows"]) in
  is_relation r ∧ drawable r ∧ plain_fig (figure r) ∧ no_bundles r.
Proof.
  cbv zeta. split; [done|]. split.
  - cbn [drawable]. split; [split; done|]. split; [done|]. split; [nocmd|]. split; [split; done|]. split; [done|]. split; [nocmd|]. split; [nocmd|done].
  - split; [|done]. cbn [figure map plain_fig fst snd]. split; [|split; [plaintext|done]]. split; [|done]. split; [done|]. split; [plaintext|]. split; [plaintext|]. split; [plaintext|]. split; [plaintext|done].
Qed.
(** braces are balanced *)
Theorem C69_braces : ∀ r out, is_relation r → drawable r → balanced_parts r → write_rstlatex (to_tree r) = Ok out → balanced out.
Proof.
  intros r out HR HD HB E. destruct (write_ok r HR HD) as (o & E' & S). rewrite E in E'. injection E' as <-. unfold balanced. rewrite <-depth_solid, S, depth_solid. by apply figure_balanced.
Qed.
Print Assumptions C69_braces.
Example C69_braces_hyp : is_relation lx_tree ∧ drawable lx_tree ∧ balanced_parts lx_tree.
Proof. split; [done|]. split; [exact lx_drawable|]. unfold lx_tree. cbn [balanced_parts]. repeat split. Qed.
(** a document of one unit starts with a carriage return, not with \rstsegment *)
Theorem C69_single_refuted : ∀ l s, l = "N" ∨ l = "S" → write_rstlatex (NTree l [NLeaf s]) = Ok ("013"%char :: chs "stsegment" ++ braces (chs s)).
Proof. intros l s Hl. unfold write_rstlatex. cbn [rsttree2rstlatex]. rewrite decide_True by exact Hl. by rewrite indent_0. Qed.
Print Assumptions C69_single_refuted.
Example C69_single_hyp : "N" = "N" ∨ "N" = "S".
Proof. by left. Qed.
(** a unit that mentions a command is not a segment *)
Theorem C69_command_refuted : ∃ r out, is_relation r ∧ write_rstlatex (to_tree r) = Ok out ∧ solid out = chs "\dirrel{}{write \dirrel}{cause}{\rstsegment{b}}" ∧
  solid (tex (figure r)) = chs "\dirrel{}{\rstsegment{write \dirrel}}{cause}{\rstsegment{b}}".
Proof. exists (RMono "cause" false (REdu "write \dirrel") (REdu "b")). eexists. split; [done|]. split; [vm_compute; reflexivity|]. split; vm_compute; reflexivity. Qed.
Print Assumptions C69_command_refuted.
(** a bundle whose first satellite follows the nucleus: all others are put after it, too *)
Theorem C69_order_refuted : ∃ r out, r = RBundle (REdu "go") [("S", "purpose", false, REdu "to win"); ("S", "condition", true, REdu "if you can")] ∧
  write_rstlatex (to_tree r) = Ok out ∧ solid out = chs "\dirrel{}{\rstsegment{go}}{purpose}{\rstsegment{to win}}{condition}{\rstsegment{if you can}}".
Proof. eexists _, _. split; [reflexivity|]. split; vm_compute; reflexivity. Qed.
Print Assumptions C69_order_refuted.
(** a bundle of relations labelled N is drawn as one multinuclear relation *)
Theorem C69_nuclei_refuted : ∃ r out, r = RBundle (REdu "go") [("N", "condition", true, REdu "if you can"); ("N", "purpose", false, REdu "to win")] ∧
  write_rstlatex (to_tree r) = Ok out ∧
  solid out = chs "\multirel{MONONUC-MULTISAT}{\dirrel{condition}{\rstsegment{if you can}}{}{\rstsegment{go}}}{\dirrel{}{\rstsegment{go}}{purpose}{\rstsegment{to win}}}".
Proof. eexists _, _. split; [reflexivity|]. split; vm_compute; reflexivity. Qed.
Print Assumptions C69_nuclei_refuted.
(** with an empty relation name nucleus and satellite cannot be told apart *)
Theorem C69_no_name_refuted : ∃ r1 r2 out, drawable r1 ∧ drawable r2 ∧ write_rstlatex (to_tree r1) = Ok out ∧ write_rstlatex (to_tree r2) = Ok out ∧ figure r1 ≠ figure r2.
Proof.
  exists (RMono "" true (REdu "a") (REdu "b")), (RMono "" false (REdu "b") (REdu "a")). eexists.
  split; [split; [split; done|]; split; [done|]; split; nocmd|]. split; [split; [split; done|]; split; [done|]; split; nocmd|].
  split; [vm_compute; reflexivity|]. split; [vm_compute; reflexivity|]. done.
Qed.
Print Assumptions C69_no_name_refuted.
(** braces in texts are not escaped *)
Theorem C69_escape_refuted : ∃ r out, is_relation r ∧ drawable r ∧ write_rstlatex (to_tree r) = Ok out ∧ ¬ balanced out.
Proof.
  exists (RMono "cause" true (REdu "a :-}") (REdu "b")). eexists. split; [done|]. split; [split; [split; done|]; split; [done|]; split; nocmd|]. split; [vm_compute; reflexivity|].
  intros H. vm_compute in H. discriminate H.
Qed.
Print Assumptions C69_escape_refuted.

(** ** C70: which trees are accepted *)
Theorem C70_accepted : ∀ t, (∃ out, write_rstlatex t = Ok out) ↔ accepted t.
Proof. intros t. exact (accepts_iff t 0). Qed.
Print Assumptions C70_accepted.
(** an accepted tree of which a nucleus is drawn as the satellite *)
Theorem C70_misread_refuted : ∃ out, let t := NTree "cause" [NTree "N" [NLeaf "a"; NLeaf "b"]; NTree "S" []] in
  write_rstlatex t = Ok out ∧ solid out = solid (tex (figure (RMono "cause" false (REdu "a") (REdu "b")))).
Proof. eexists. cbv zeta. split; vm_compute; reflexivity. Qed.
Print Assumptions C70_misread_refuted.
