(** * WitExb: concrete Exmaralda documents, and checks of hypotheses *)
From Verif Require Import PyBase DocGraph Relabel StrNum Query Text Rst SpecGraph DocGraphFacts AllHist SpecImport SpecQuery SpanFacts SpecExb SpecExbWrite Exb ExbWrite ExbBack ExbTrip Witness WitQuery.

(** "Der Hund bellt", the times not in order *)
Definition x_doc : exb := Exb [("T1", 1%Z); ("T0", 0%Z); ("T3", 5%Z); ("T2", 2%Z)]
  [Tier "TIE0" "tok" "t" "[tok]" [Ev "T0" "T1" (Some "Der"); Ev "T1" "T2" (Some "Hund"); Ev "T2" "T3" (Some "bellt")];
   Tier "TIE1" "pos" "t" "[pos]" [Ev "T0" "T1" (Some "ART"); Ev "T2" "T3" None];
   Tier "TIE2" "np" "t" "[np]" [Ev "T0" "T2" (Some "NP"); Ev "T2" "T3" (Some "V")];
   Tier "TIE3" "x" "t" "[x]" [Ev "T0" "T9" (Some "beyond")]].
(** the same with three points only: all have words *)
Definition x_full : exb := Exb [("T0", 0%Z); ("T1", 1%Z)] [Tier "TIE0" "tok" "t" "[tok]" [Ev "T0" "T1" (Some "Der"); Ev "T1" "T2" (Some "Hund")]].
(** words that last two points, and words nowhere *)
Definition x_long : exb := Exb [("T0", 0%Z); ("T1", 1%Z); ("T2", 2%Z)] [Tier "TIE0" "tok" "t" "[tok]" [Ev "T0" "T2" (Some "Der")]].
Definition x_where : exb := Exb [("T0", 0%Z); ("T1", 1%Z)] [Tier "TIE0" "tok" "t" "[tok]" [Ev "T7" "T8" (Some "Der")]].

(** a graph to export *)
Definition x_ops : list op :=
  [ OAddNode (NStr "t1") (VSet ["x"]) None [("x:token", VStr "Der"); ("x:pos", VStr "ART")];
    OAddNode (NStr "t2") (VSet ["x"]) None [("x:token", VStr "Hund"); ("x:lemma", VStr "hund")];
    OAddNode (NStr "t3") (VSet ["x"]) None [("x:token", VStr "bellt"); ("x:pos", VStr "V")];
    OSetTokens [NStr "t1"; NStr "t2"; NStr "t3"];
    OAddNode (NStr "p") (VSet ["x"; "x:np"]) (Some [("label", VStr "NP")]) [];
    OAddEdge (NStr "p") (NStr "t1") (VSet ["x"]) None None [("edge_type", VStr spans)];
    OAddEdge (NStr "p") (NStr "t2") (VSet ["x"]) None None [("edge_type", VStr spans)];
    OAddNode (NStr "q") (VSet ["x"; "x:mark"]) (Some [("label", VStr "M")]) [];
    OAddEdge (NStr "q") (NStr "t3") (VSet ["x"]) None None [("edge_type", VStr spans)];
    OAddNode (NStr "r") (VSet ["x"; "x:np"]) (Some [("label", VStr "gap")]) [];
    OAddEdge (NStr "r") (NStr "t1") (VSet ["x"]) None None [("edge_type", VStr spans)];
    OAddEdge (NStr "r") (NStr "t3") (VSet ["x"]) None None [("edge_type", VStr spans)] ].
Definition x_graph : graph := run (init_graph "doc" "x" None) x_ops.
Definition x_chains : list (list nid) := [[NStr "p"; NStr "q"]; [NStr "r"; NStr "q"; NStr "p"]].
Definition x_same : ∀ A, list A → list A := λ _ l, l.
Definition x_out : exb := match write_exb 5 x_same (Ok x_chains) false x_graph with Ok d => d | Err _ => Exb [] [] end.
Lemma x_plain : reachable plain x_graph.
Proof. apply reachable_run; [constructor|]. unfold x_ops. repeat constructor; done. Qed.
Lemma x_inv : GInv x_graph.
Proof. eapply reach_GInv. apply reachable_run; [constructor|]. unfold x_ops. repeat constructor; done. Qed.
Lemma x_order : any_order x_same.
Proof. by intros A l. Qed.
Lemma x_written : write_exb 5 x_same (Ok x_chains) false x_graph = Ok x_out.
Proof. vm_compute. reflexivity. Qed.
Lemma x_exported : exported_as 5 x_graph false x_chains x_out.
Proof. apply (write_ok 5 x_same x_order false x_graph); [apply x_inv|apply x_inv|vdec|apply x_written]. Qed.
(** ** Checks *)
Section Check.
  Context (fuel : nat) (g : graph) (redundant : bool) (chains : list (list nid)) (d : exb) (HX : exported_as fuel g redundant chains d).
  Lemma check_tail k : exported_attribute g k ∨ exported_layer g redundant k → ∃ c es, nth_tier c (last_part k) k es ∈ tail (ex_tiers d).
  Proof.
    destruct HX as (ss & ks & ls & t1 & t2 & t3 & H1 & [_ H2] & [_ H3] & H4 & H5 & H6 & _ & H8). rewrite H8. cbn [tail]. intros [Hk|Hk].
    - apply H2 in Hk. apply elem_of_list_lookup in Hk as [i Hi]. assert (Hi' : imap pair ks !! i = Some (i, k)) by (by rewrite list_lookup_imap, Hi). destruct (Forall2_lookup_l _ _ _ _ _ H4 Hi') as (t & Ht & es & -> & _). eexists _, es. apply elem_of_app. left. by eapply elem_of_list_lookup_2.
    - apply H3 in Hk. apply elem_of_list_lookup in Hk as [i Hi]. assert (Hi' : imap pair ls !! i = Some (i, k)) by (by rewrite list_lookup_imap, Hi). destruct (Forall2_lookup_l _ _ _ _ _ H5 Hi') as (t & Ht & es & -> & _). eexists _, es. apply elem_of_app. right. apply elem_of_app. left. by eapply elem_of_list_lookup_2.
  Qed.
  Lemma check_words : Forall (λ t, ti_category t ∉ ["tok"; "token"]) (tail (ex_tiers d)) → no_other_words g redundant.
  Proof. rewrite Forall_forall. intros HF k Hk. destruct (check_tail k Hk) as (c & es & Ht). apply (HF _ Ht). Qed.
  Lemma display_inj a b : "[" +:+ a +:+ "]" = "[" +:+ b +:+ "]" → a = b.
  Proof. intros H%(f_equal chs). rewrite !chs_app in H. cbn [chs app] in H. apply app_inv_head in H. apply app_inv_tail in H. by apply LatexRead.chs_inj. Qed.
  Lemma check_alone k : Forall (λ t, ti_category t = last_part k → ti_display t = "[" +:+ k +:+ "]") (tail (ex_tiers d)) → last_part k ≠ "chain" → alone g redundant k.
  Proof. rewrite Forall_forall. intros HF Hc. split; [|done]. intros k' Hk' E. destruct (check_tail k' Hk') as (c & es & Ht). apply display_inj. apply (HF _ Ht). exact E. Qed.
End Check.
Lemma x_words : no_other_words x_graph false.
Proof. apply (check_words _ _ _ _ _ x_exported). vdec. Qed.
(** words that are exported twice *)
Definition x_twice : graph := run x_graph [OAddLayerNode (NStr "t1") "x:token"].
Definition x_twice_out : exb := match write_exb 5 x_same (Ok []) false x_twice with Ok d => d | Err _ => Exb [] [] end.
(** a number, a label that is no text *)
Definition x_number : graph := run x_graph [OAddNode (NStr "t2") (VSet ["x"]) None [("x:freq", VInt 3)]].
(** no node and no edge carries the layer *)
Definition says_layer (l : string) (a : attrs) : bool := match dget "layers" a with Some (VSet L) => bool_decide (l ∈ L) | _ => false end.
Lemma check_no_layer g redundant l : forallb (λ p : nid * attrs, negb (says_layer l p.2)) (g_node g) = true → forallb (λ e : edge, negb (says_layer l e.2)) (edges g) = true → ¬ exported_layer g redundant l.
Proof.
  rewrite !forallb_forall. intros H1 H2 [[(n & a & Hn & L & Hl & Hin)|(e & He & L & Hl & Hin)] _].
  - specialize (H1 (n, a)). unfold node_attrs in Hn. apply dget_Some_elem in Hn. apply elem_of_list_In in Hn. specialize (H1 Hn). cbn [snd] in H1. unfold says_layer in H1. rewrite Hl in H1. rewrite bool_decide_eq_true_2 in H1 by exact Hin. discriminate H1.
  - apply elem_of_list_In in He. specialize (H2 e He). unfold says_layer in H2. rewrite Hl in H2. rewrite bool_decide_eq_true_2 in H2 by exact Hin. discriminate H2.
Qed.
Lemma x_no_layer : ¬ exported_layer x_graph false "x:pos".
Proof. apply check_no_layer; vm_compute; reflexivity. Qed.
