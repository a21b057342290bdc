(** * WitPaula: concrete PAULA exports (C83-C86) *)
From Verif Require Import PyBase DocGraph Relabel StrNum Query Text Paula.
From Verif Require Import SpecGraph DocGraphFacts Effects AllHist SpecQuery SpanFacts WitQuery Witness SpecExbWrite ExbWrite SpecPaula PaulaFacts PaulaDoc PaulaAll PaulaLost PaulaValues.

Definition pa_same (A : Type) (l : list A) : list A := l.
Lemma pa_order : any_order pa_same. Proof. by intros A l. Qed.
(** ** Checks *)
Definition apart_b (g : graph) : bool :=
  forallb (λ n, match n with NStr s => bool_decide (":"%char ∈ chs s) | _ => false end) (nodes g) && bool_decide (NoDup (xid <$> nodes g)).
Lemma check_apart g : apart_b g = true → apart_ids g.
Proof.
  unfold apart_b. rewrite andb_true_iff, forallb_forall, bool_decide_eq_true. intros [H1 H2]. split.
  - intros n Hn. apply elem_of_list_In, H1 in Hn. destruct n as [|s]; [done|]. apply bool_decide_eq_true in Hn. by exists s.
  - intros m n Hm Hn E. apply elem_of_list_lookup in Hm as [i Hi]. apply elem_of_list_lookup in Hn as [j Hj]. assert (i = j) as ->. { eapply NoDup_lookup; [exact H2| |]; rewrite list_lookup_fmap; [rewrite Hi|rewrite Hj]; cbn; by rewrite ?E. } congruence.
Qed.
Definition text_b (ignored : list string) (a : attrs) : bool := forallb (λ p : string * pyval, bool_decide (p.1 ∈ ignored) || match p.2 with VStr _ => true | _ => false end) a.
Lemma text_b_ok ignored a k v : text_b ignored a = true → dget k a = Some v → k ∉ ignored → ∃ s, v = VStr s.
Proof.
  unfold text_b. rewrite forallb_forall. intros H Hk Hi. apply dget_Some_elem, elem_of_list_In, H in Hk. cbn [fst snd] in Hk. rewrite bool_decide_eq_false_2 in Hk by done. destruct v; try done. eauto.
Qed.
Definition values_b (g : graph) : bool := forallb (λ p : nid * attrs, text_b ignored_node_attribs p.2) (g_node g) && forallb (λ e : edge, text_b ignored_edge_attribs e.2) (edges g).
Lemma check_values g : Consistent g → values_b g = true → values_text g.
Proof.
  unfold values_b. rewrite andb_true_iff, !forallb_forall. intros C [H1 H2]. split.
  - intros n a k v Ha Hk Ho. apply dget_Some_elem, elem_of_list_In, H1 in Ha. by eapply text_b_ok.
  - intros u v k a key x Ha Hk Ho. apply (elem_edges g u v k a) in Ha; [|done]. apply elem_of_list_In, H2 in Ha. by eapply text_b_ok.
Qed.
Definition names_b (corpus : string) (g : graph) : bool :=
  bool_decide ("."%char ∉ chs corpus) && match get_top_level_layers g with Ok ls => forallb (λ l, plain_lit l && bool_decide ("."%char ∉ chs l)) ls | Err _ => false end.
Lemma check_names corpus g : Consistent g → Layered g → names_b corpus g = true → plain_names corpus g.
Proof.
  intros C L. unfold names_b. destruct (top_layers_ok g C L) as (ls & -> & HL). rewrite andb_true_iff, bool_decide_eq_true, forallb_forall. intros [H1 H2]. split; [done|]. intros l Hl. apply HL, elem_of_list_In, H2 in Hl. apply andb_true_iff in Hl as [Hl1 Hl2]. apply bool_decide_eq_true in Hl2. split; [by apply plain_str_check|done].
Qed.
Lemma check_exportable corpus g n ss : reachable plain g → apart_b g = true → typed_b g = true → values_b g = true → rmap (token_str g) (g_tokens g) = Ok ss → n = corpus +:+ "." +:+ g_name g → "."%char ∉ chs (g_name g) → names_b corpus g = true →
  exportable_as corpus g n ss.
Proof.
  intros HR H1 H2 H3 H4 -> H5 H6. assert (HN : Effects.NInv g) by (by apply reach_NInv). split; [exact HR|]. split; [by apply check_apart|]. split; [by eapply check_typed|]. split; [apply check_values; [apply HN|done]|]. split; [by apply check_text|]. split; [exists (g_name g); split; [done|]; split; [done|by left]|]. apply check_names; [apply HN|apply HN|done].
Qed.
Lemma check_top g l : Consistent g → Layered g → match get_top_level_layers g with Ok ls => bool_decide (l ∈ ls) | _ => false end = true → top_layer g l.
Proof. intros C L. destruct (top_layers_ok g C L) as (ls & -> & HL). rewrite bool_decide_eq_true. apply HL. Qed.

(** ** "Time flies fast" *)
Definition pa_graph : graph := wit "A:" "A".
Lemma pa_ok : exportable_as "c" pa_graph "c.doc" ["Time"; "flies"; "fast"].
Proof. apply check_exportable; [apply wit_plain|vm_compute; reflexivity..|vdec|vm_compute; reflexivity]. Qed.
Lemma pa_inv : Effects.NInv pa_graph. Proof. apply reach_NInv, wit_plain. Qed.
Lemma pa_top : top_layer pa_graph "A" ∧ top_layer pa_graph "x".
Proof. split; (apply check_top; [apply pa_inv|apply pa_inv|vm_compute; reflexivity]). Qed.
(** one export *)
Definition pa_out (g : graph) : res (dict string pbody) :=
  match relabel_loop g (xpointer_map g) (nodes g), get_top_level_layers g with
  | (g', None), Ok ls => paula_files pa_same false ("c." +:+ g_name g) (remove_dups ls) (set_tokens (xid <$> g_tokens g) g')
  | _, _ => Err OutOfFuel
  end.
Lemma pa_run g : reachable plain g → apart_ids g → short_name (g_name g) = g_name g → (relabel_loop g (xpointer_map g) (nodes g)).2 = None → rmap (λ t, of_option KeyError (dget t (xpointer_map g))) (g_tokens g) = Ok (xid <$> g_tokens g) → paula pa_same false "c" g (pa_out g).
Proof.
  intros HR HA Hs E HM. assert (HN : Effects.NInv g) by (by apply reach_NInv).
  destruct (relabel_loop g (xpointer_map g) (nodes g)) as [g' e] eqn:El. cbn [snd] in E. subst e.
  assert (HL : relabel_inplace g (xpointer_map g) (g', None)).
  { rewrite <-El. apply RI_disjoint.
    - intros (x & H1 & H2). apply elem_of_list_fmap in H1 as (p & -> & H1). apply elem_of_list_fmap in H1 as (y & -> & Hy). apply elem_of_list_fmap in H2 as (q & E & H2). apply elem_of_list_fmap in H2 as (z & -> & Hz). cbn [fst snd] in E. destruct (colon_new z) as (Hc & _); [by apply HA|]. apply Hc. change (ensure_xpointer_compatibility z) with (xid z) in E. rewrite <-E. by apply HA.
    - unfold xpointer_map. rewrite <-list_fmap_compose. change (fst ∘ _) with (@id nid). by rewrite list_fmap_id. }
  pose proof (P_files pa_same false "c" g g' _ HL HM) as HP. unfold pa_out. rewrite El. destruct (top_layers_ok g (proj1 (proj1 HN)) (proj2 (proj1 HN))) as (ls & Els & _). rewrite Els in HP |- *. cbn [rbind] in HP. rewrite Hs in HP. exact HP.
Qed.
Lemma pa_run_ok : paula pa_same false "c" pa_graph (pa_out pa_graph).
Proof. apply pa_run; [apply wit_plain|apply check_apart; vm_compute; reflexivity|vm_compute; reflexivity..]. Qed.
(** attributes of another layer with the same beginning, an edge name that is not clear, a number *)
Definition pa_more : list op :=
  [OAddNode (NStr "A:1") (VSet ["AB"]) None [("AB:pos", VStr "N")]; OAddNode (NStr "p:q") (VSet ["A"]) None []; OAddNode (NStr "p:q:r") (VSet ["A"]) None []; OAddNode (NStr "r:s:t") (VSet ["A"]) None []; OAddNode (NStr "s:t") (VSet ["A"]) None [];
   OAddEdge (NStr "p:q") (NStr "r:s:t") (VSet ["A"]) None None [("edge_type", VStr points_to)]; OAddEdge (NStr "p:q:r") (NStr "s:t") (VSet ["A"]) None None [("edge_type", VStr points_to)]].
Definition pa_graph2 : graph := run pa_graph pa_more.
Lemma pa_plain2 : reachable plain pa_graph2.
Proof. apply reachable_run; [apply wit_plain|]. unfold pa_more. repeat constructor; done. Qed.
Lemma pa_run2 : paula pa_same false "c" pa_graph2 (pa_out pa_graph2).
Proof. apply pa_run; [apply pa_plain2|apply check_apart; vm_compute; reflexivity|vm_compute; reflexivity..]. Qed.
Definition pa_number : graph := run pa_graph [OAddNode (NStr "A:1") (VSet ["A"]) None [("A:onset", VInt 0)]].
Lemma pa_number_plain : reachable plain pa_number.
Proof. apply reachable_run; [apply wit_plain|]. repeat constructor; done. Qed.
(** the file [k] of an export *)
Definition pa_file (g : graph) (k : string) : option pbody := match pa_out g with Ok d => dget k d | Err _ => None end.
