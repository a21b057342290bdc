(** * PropPaula: export to PAULA (C83-C86) *)
From Verif Require Import PyBase DocGraph Relabel StrNum Query Text Paula.
From Verif Require Import SpecGraph SpecQuery WitQuery Witness SpecExbWrite SpecPaula PaulaLost PaulaValues WitPaula.

(** ** C83 Text and tokens *)
(** the text file has the words; the i-th mark has the name of the i-th token and points to the i-th word *)
Theorem C83_words : ∀ order salt corpus g n ss r, any_order order → exportable_as corpus g n ss → paula order salt corpus g r →
  ∃ files ms, r = Ok files ∧ dget (n +:+ ".text") files = Some (PText (str (joined ss))) ∧ dget (n +:+ ".tok") files = Some (PMarks "tok" (n +:+ ".text.xml") ms) ∧ marks_words g ss ms.
Proof. intros order salt corpus g n ss r HO HE HP. destruct (paula_all _ _ _ _ _ _ _ HO HE HP) as (files & layers & ms & anno & E & _ & _ & _ & _ & H1 & H2 & H3 & _). exists files, ms. done. Qed.
Print Assumptions C83_words.
Theorem C83_ends : ∀ order salt corpus g n ss, exportable_as corpus g n ss → ∃ r, paula order salt corpus g r.
Proof. exact paula_ends. Qed.
Print Assumptions C83_ends.
Example C83_words_hyp : any_order pa_same ∧ exportable_as "c" pa_graph "c.doc" ["Time"; "flies"; "fast"] ∧ paula pa_same false "c" pa_graph (pa_out pa_graph) ∧
  pa_file pa_graph "c.doc.tok" = Some (PMarks "tok" "c.doc.text.xml" [(Some "A_1", "#xpointer(string-range(//body,'',1,4))"); (Some "A_2", "#xpointer(string-range(//body,'',6,5))"); (Some "A_3", "#xpointer(string-range(//body,'',12,4))")]).
Proof. split; [apply pa_order|]. split; [apply pa_ok|]. split; [apply pa_run_ok|]. vm_compute. reflexivity. Qed.
(** a token whose id is not changed, because it has no colon: the export always fails *)
Theorem C83_no_colon : ∀ order salt corpus g t r, reachable no_bare_layers g → t ∈ g_tokens g → (∀ s, t = NStr s → ":"%char ∉ chs s) → (∀ m, m ∈ nodes g → m ≠ t → xid m ≠ t) →
  paula order salt corpus g r → ∃ e, r = Err e.
Proof. intros order salt corpus g t r HR Ht Hc Hm HP. eapply colonless_fails; [exact HR|exact Ht| |exact Hm|exact HP]. by apply xid_same. Qed.
Print Assumptions C83_no_colon.
Theorem C83_common_ids_refuted : reachable plain wit_a ∧ text_tokens wit_a ["Time"; "flies"; "fast"] ∧ typed wit_a ∧ values_text wit_a ∧ ∀ order salt corpus r, paula order salt corpus wit_a r → ∃ e, r = Err e.
Proof.
  split; [apply wit_plain|]. split; [apply check_text; vm_compute; reflexivity|]. split; [apply wit_typed|]. split; [apply check_values; [apply (AllHist.reach_NInv _ (wit_plain "a" "A"))|vm_compute; reflexivity]|].
  intros order salt corpus r HP. eapply (C83_no_colon order salt corpus wit_a (NStr "a1")); [apply wit_no_bare|left|intros s [= <-]; vdec| |exact HP]. intros m Hm Hne. assert (HF : Forall (λ m, m ≠ NStr "a1" → xid m ≠ NStr "a1") (nodes wit_a)) by vdec. rewrite Forall_forall in HF. by apply HF.
Qed.
Print Assumptions C83_common_ids_refuted.

(** ** C84 Spans, hierarchies and features *)
(** the features of tokens *)
Theorem C84_tokens : ∀ order salt corpus g n ss r l, any_order order → exportable_as corpus g n ss → paula order salt corpus g r → top_layer g l →
  ∃ files x, r = Ok files ∧ dget (l +:+ "." +:+ n +:+ ".tok_multiFeat") files = Some (PFeats (n +:+ ".tok.xml") x) ∧ says_tokens g l x.
Proof. intros order salt corpus g n ss r l HO HE HP Hl. destruct (paula_said _ _ _ _ _ _ _ _ HO HE HP Hl) as (files & E & (x & H) & _). exists files, x. split; [done|exact H]. Qed.
Print Assumptions C84_tokens.
(** spans: the targets of each source, or the first and the last one *)
Theorem C84_spans : ∀ order salt corpus g n ss r l, any_order order → exportable_as corpus g n ss → paula order salt corpus g r → top_layer g l →
  ∃ files x, r = Ok files ∧ dget (file_of n l "_seg") files = Some (PMarks l (n +:+ ".tok.xml") x) ∧ marks_spans salt g l x.
Proof. intros order salt corpus g n ss r l HO HE HP Hl. destruct (paula_said _ _ _ _ _ _ _ _ HO HE HP Hl) as (files & E & _ & (x & H) & _). exists files, x. split; [done|exact H]. Qed.
Print Assumptions C84_spans.
(** hierarchies: each source of a part-whole edge with its targets *)
Theorem C84_structs : ∀ order salt corpus g n ss r l, any_order order → exportable_as corpus g n ss → paula order salt corpus g r → top_layer g l →
  ∃ files x, r = Ok files ∧ dget (file_of n l "") files = Some (PStructs l x) ∧ says_structs g (n +:+ ".tok.xml") l x.
Proof. intros order salt corpus g n ss r l HO HE HP Hl. destruct (paula_said _ _ _ _ _ _ _ _ HO HE HP Hl) as (files & E & _ & _ & (x & H) & _). exists files, x. split; [done|exact H]. Qed.
Print Assumptions C84_structs.
(** the features of the other nodes of the layer *)
Theorem C84_nodes : ∀ order salt corpus g n ss r l, any_order order → exportable_as corpus g n ss → paula order salt corpus g r → top_layer g l →
  ∃ files x, r = Ok files ∧ dget (file_of n l "_struct") files = Some (PFeats (file_of n l "" +:+ ".xml") x) ∧ says_nodes g l x.
Proof. intros order salt corpus g n ss r l HO HE HP Hl. destruct (paula_said _ _ _ _ _ _ _ _ HO HE HP Hl) as (files & E & _ & _ & _ & (x & H) & _). exists files, x. split; [done|exact H]. Qed.
Print Assumptions C84_nodes.
Example C84_hyp : exportable_as "c" pa_graph "c.doc" ["Time"; "flies"; "fast"] ∧ top_layer pa_graph "A" ∧ paula pa_same false "c" pa_graph (pa_out pa_graph) ∧
  pa_file pa_graph "A.c.doc_A_seg" = Some (PMarks "A" "c.doc.tok.xml" [(None, "#xpointer(id(A_1)/range-to(id(A_2)))")]) ∧
  pa_file pa_graph "A.c.doc.tok_multiFeat" = Some (PFeats "c.doc.tok.xml" [("#A_1", [("A:token", "Time")]); ("#A_2", [("A:token", "flies")]); ("#A_3", [("A:token", "fast")])]).
Proof. split; [apply pa_ok|]. split; [apply pa_top|]. split; [apply pa_run_ok|]. split; vm_compute; reflexivity. Qed.
(** an export means that the values are texts *)
Theorem C84_values : ∀ order salt corpus g files l, any_order order → reachable (λ o, no_bare_layers o ∧ no_empty_tuple o) g → apart_ids g → paula order salt corpus g (Ok files) → top_layer g l →
  (∀ n a k v, node_attrs g n = Some a → has_layer a l → ¬ is_token g n → of_node k → dget k a = Some v → ∃ s, v = VStr s) ∧
  ∀ t a k v, t ∈ g_tokens g → node_attrs g t = Some a → of_token l k → dget k a = Some v → ∃ s, v = VStr s.
Proof. exact accepted_values. Qed.
Print Assumptions C84_values.
(** offsets are numbers: after get_offsets there is no export *)
Theorem C84_number_refuted : apart_ids pa_number ∧ text_tokens pa_number ["Time"; "flies"; "fast"] ∧ ∀ order salt corpus r, any_order order → paula order salt corpus pa_number r → ∃ e, r = Err e.
Proof.
  split; [apply check_apart; vm_compute; reflexivity|]. split; [apply check_text; vm_compute; reflexivity|]. intros order salt corpus [files|e] HO HP; [exfalso|by exists e].
  assert (HN := AllHist.reach_NInv _ pa_number_plain). destruct (C84_values order salt corpus pa_number files "A" HO pa_number_plain) as [_ H]; [apply check_apart; vm_compute; reflexivity|exact HP|apply check_top; [apply HN|apply HN|vm_compute; reflexivity]|].
  destruct (H (NStr "A:1") _ "A:onset" (VInt 0) ltac:(vdec) eq_refl) as [s Hs]; [|vm_compute; reflexivity|discriminate Hs]. split; [vdec|]. split; [vdec|]. exists ":onset". reflexivity.
Qed.
Print Assumptions C84_number_refuted.
(** a layer also takes the features of layers whose name starts with its name *)
Theorem C84_prefix_refuted : paula pa_same false "c" pa_graph2 (pa_out pa_graph2) ∧ ∃ l, pa_file pa_graph2 "A.c.doc.tok_multiFeat" = Some (PFeats "c.doc.tok.xml" l) ∧ ("#A_1", [("A:token", "Time"); ("AB:pos", "N")]) ∈ l.
Proof. split; [apply pa_run2|]. eexists. split; [vm_compute; reflexivity|]. left. Qed.
Print Assumptions C84_prefix_refuted.
(** the root node is exported, although the code looks for it to leave it out *)
Theorem C84_root_refuted : paula pa_same false "c" pa_graph (pa_out pa_graph) ∧ g_root pa_graph = NStr "A:root_node" ∧
  ∃ l, pa_file pa_graph "A.c.doc_A" = Some (PStructs "A" l) ∧ ("A_root_node", [("rel_A_root_node_A_p", Some "dominates", "#A_p")]) ∈ l.
Proof. split; [apply pa_run_ok|]. split; [vm_compute; reflexivity|]. eexists. split; [vm_compute; reflexivity|]. left. Qed.
Print Assumptions C84_root_refuted.

(** ** C85 Edges *)
(** features of the dominance edges *)
Theorem C85_dominance : ∀ order salt corpus g n ss r l, any_order order → exportable_as corpus g n ss → paula order salt corpus g r → top_layer g l →
  ∃ files x, r = Ok files ∧ dget (file_of n l "_rel") files = Some (PFeats (file_of n l "" +:+ ".xml") x) ∧ says_edges g l "dominates" x.
Proof. intros order salt corpus g n ss r l HO HE HP Hl. destruct (paula_said _ _ _ _ _ _ _ _ HO HE HP Hl) as (files & E & _ & _ & _ & _ & (x & H) & _). exists files, x. split; [done|exact H]. Qed.
Print Assumptions C85_dominance.
(** pointing relations and their features *)
Theorem C85_pointers : ∀ order salt corpus g n ss r l, any_order order → exportable_as corpus g n ss → paula order salt corpus g r → top_layer g l →
  ∃ files x y, r = Ok files ∧ dget (file_of n l "_pointing") files = Some (PRels x) ∧ says_pointers g (n +:+ ".tok.xml") (file_of n l "" +:+ ".xml") l x ∧
    dget (file_of n l "_pointing_multiFeat") files = Some (PFeats (file_of n l "_pointing" +:+ ".xml") y) ∧ says_edges g l "points_to" y.
Proof. intros order salt corpus g n ss r l HO HE HP Hl. destruct (paula_said _ _ _ _ _ _ _ _ HO HE HP Hl) as (files & E & _ & _ & _ & _ & _ & (x & H1 & H2) & (y & H3 & H4)). exists files, x, y. done. Qed.
Print Assumptions C85_pointers.
Example C85_hyp : exportable_as "c" pa_graph "c.doc" ["Time"; "flies"; "fast"] ∧ top_layer pa_graph "x" ∧ paula pa_same false "c" pa_graph (pa_out pa_graph) ∧
  pa_file pa_graph "A.c.doc_A_pointing" = Some (PRels [("rel_A_p_A_2", "A.c.doc_A.xml#A_p", "c.doc.tok.xml#A_2")]).
Proof. split; [apply pa_ok|]. split; [apply pa_top|]. split; [apply pa_run_ok|]. vm_compute; reflexivity. Qed.
(** a pointer may refer to a structure that is not in the file *)
Theorem C85_dangling_refuted : paula pa_same false "c" pa_graph (pa_out pa_graph) ∧
  pa_file pa_graph "x.c.doc_x_pointing" = Some (PRels [("rel_A_p_A_2", "x.c.doc_x.xml#A_p", "c.doc.tok.xml#A_2")]) ∧ pa_file pa_graph "x.c.doc_x" = Some (PStructs "x" []).
Proof. split; [apply pa_run_ok|]. split; vm_compute; reflexivity. Qed.
Print Assumptions C85_dangling_refuted.
(** two edges may get the same name *)
Theorem C85_names_refuted : paula pa_same false "c" pa_graph2 (pa_out pa_graph2) ∧ ∃ l a b c d, pa_file pa_graph2 "A.c.doc_A_pointing" = Some (PRels l) ∧ ("rel_p_q_r_s_t", a, b) ∈ l ∧ ("rel_p_q_r_s_t", c, d) ∈ l ∧ a ≠ c.
Proof. split; [apply pa_run2|]. eexists _, _, _, _, _. split; [vm_compute; reflexivity|]. split; [right; left|]. split; [right; right; left|]. discriminate. Qed.
Print Assumptions C85_names_refuted.

(** ** C86 The set of files *)
(** text, tokens and seven files for each layer, and a list of all of them; no name is used twice *)
Theorem C86_files : ∀ order salt corpus g n ss r, any_order order → exportable_as corpus g n ss → paula order salt corpus g r →
  ∃ files layers anno, r = Ok files ∧ NoDup layers ∧ (∀ l, l ∈ layers ↔ top_layer g l) ∧ dkeys files = names_of n layers ++ [n +:+ ".anno"] ∧ NoDup (dkeys files) ∧
    dget (n +:+ ".anno") files = Some anno ∧ lists_files (names_of n layers) anno.
Proof. intros order salt corpus g n ss r HO HE HP. destruct (paula_all _ _ _ _ _ _ _ HO HE HP) as (files & layers & ms & anno & E & H1 & H2 & H3 & H4 & _ & _ & _ & _ & H5 & H6). exists files, layers, anno. done. Qed.
Print Assumptions C86_files.
Example C86_hyp : exportable_as "c" pa_graph "c.doc" ["Time"; "flies"; "fast"] ∧ paula pa_same false "c" pa_graph (pa_out pa_graph) ∧ ∃ files, pa_out pa_graph = Ok files ∧ length files = 38.
Proof. split; [apply pa_ok|]. split; [apply pa_run_ok|]. eexists. split; vm_compute; reflexivity. Qed.
