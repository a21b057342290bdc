(** * Rs3Facts: reading the elements of an RS3 file *)
From Verif Require Import PyBase DocGraph Relabel StrNum Query Text Rst Nltk Parsers Anaphora Conano Decour Ptb Convert Tiger Rs3Graph.
From Verif Require Import SpecGraph DocGraphFacts History Effects RelabelFacts MergeFacts AllHist MergeAll GraphThms SpecImport ImportFacts PtbFacts TextFacts AnaphoraFacts TigerFacts BuiltFrom ViewFacts SpecQuery SpecRs3Graph.

(** ** Model and specification of elements *)
Lemma x_id_el x : x_id x = el_id x.
Proof. by destruct x. Qed.
Lemma x_parent_el x : x_parent x = el_parent x.
Proof. by destruct x. Qed.
Lemma x_relname_el x : x_relname x = el_relname x.
Proof. by destruct x. Qed.
Lemma is_seg_iff x : is_seg x = true ↔ segment x.
Proof. by destruct x. Qed.
Lemma segments_eq d : filter (λ x, is_seg x = true) (d_body d) = segments d.
Proof. apply list_filter_iff. intros x. apply is_seg_iff. Qed.
Lemma groups_eq d : filter (λ x, is_seg x = false) (d_body d) = groups d.
Proof. apply list_filter_iff. intros x. rewrite <-is_seg_iff. destruct (is_seg x); naive_solver. Qed.
Lemma declared_ok d rel : default "" (dget rel (extract_relationtypes d)) = declared d rel.
Proof.
  unfold declared, extract_relationtypes. f_equal. rewrite <-(reverse_involutive (d_rels d)). generalize (reverse (d_rels d)) as l. clear d.
  induction l as [|[a b] l IH]; [done|]. rewrite reverse_cons, foldl_app, filter_app, fmap_app. cbn [foldl fst snd]. rewrite dget_dset.
  destruct (decide (rel = a)) as [->|Hn].
  - rewrite filter_cons_True by done. rewrite filter_nil. cbn. by rewrite last_snoc.
  - rewrite filter_cons_False by (cbn; congruence). rewrite filter_nil. cbn. by rewrite app_nil_r.
Qed.
Definition parent_type (l : link) : option string := match l with Satellite => Some "nucleus" | Nucleus => None | Plain => Some "span" end.
Lemma types_eq d x : segment_types (extract_relationtypes d) x = (own_type d x, match el_parent x with Some _ => parent_type (link_of d x) | None => None end).
Proof.
  unfold segment_types, own_type, link_of, parent_type, relation_of. rewrite x_parent_el, x_relname_el. destruct (el_parent x) as [p|].
  - rewrite declared_ok. repeat case_decide; done.
  - destruct x; done.
Qed.
Lemma own_span d x p : el_parent x = Some p → own_type d x = "span" ↔ link_of d x = Plain.
Proof. intros E. unfold own_type. rewrite E. by destruct (link_of d x). Qed.

(** ** Splitting *)
Lemma from_nil i l : i ∉ el_id <$> l → from i l = [].
Proof.
  induction l as [|x l IH]; [done|]. rewrite fmap_cons, not_elem_of_cons. intros [H1 H2]. unfold from in *. cbn. rewrite decide_False by congruence. by apply IH.
Qed.
Lemma before_all i l : i ∉ el_id <$> l → before i l = l.
Proof.
  induction l as [|x l IH]; [done|]. rewrite fmap_cons, not_elem_of_cons. intros [H1 H2]. unfold before in *. cbn. rewrite decide_False by congruence. cbn. f_equal. by apply IH.
Qed.
Lemma split_in i l l' : i ∈ el_id <$> l → before i (l ++ l') = before i l ∧ from i (l ++ l') = from i l ++ l'.
Proof.
  induction l as [|x l IH]; [by intros ?%elem_of_nil|]. rewrite fmap_cons, elem_of_cons. unfold before, from in *. cbn. intros H.
  destruct (decide (el_id x = i)) as [E|E]; [done|]. cbn. destruct IH as [I1 I2]; [naive_solver|]. by rewrite I1, I2.
Qed.
Lemma split_out i l l' : i ∉ el_id <$> l → before i (l ++ l') = l ++ before i l' ∧ from i (l ++ l') = from i l'.
Proof.
  induction l as [|x l IH]; [done|]. rewrite fmap_cons, not_elem_of_cons. unfold before, from in *. cbn. intros [H1 H2]. rewrite decide_False by congruence. cbn.
  destruct IH as [I1 I2]; [done|]. by rewrite I1, I2.
Qed.
Lemma from_head i l : i ∈ el_id <$> l → ∃ x l', from i l = x :: l' ∧ el_id x = i ∧ x ∈ l.
Proof.
  induction l as [|x l IH]; [by intros ?%elem_of_nil|]. rewrite fmap_cons, elem_of_cons. unfold from in *. cbn. intros H.
  destruct (decide (el_id x = i)) as [E|E]; [exists x, l; by repeat split; [|left]|]. destruct IH as (y & l' & I1 & I2 & I3); [naive_solver|].
  exists y, l'. split; [done|]. split; [done|by right].
Qed.
Lemma split_app i l : before i l ++ from i l = l.
Proof.
  induction l as [|x l IH]; [done|]. unfold before, from in *. cbn. destruct (decide _); [done|]. cbn. by rewrite IH.
Qed.
Lemma kids_app l l' i : kids_in (l ++ l') i = kids_in l i ++ kids_in l' i.
Proof. apply filter_app. Qed.
Lemma kids_one x i : kids_in [x] i = if decide (el_parent x = Some i) then [x] else [].
Proof. unfold kids_in. rewrite filter_cons, filter_nil. done. Qed.

(** ** Names *)
Definition name_of (ns : string) (n : nid) : option string :=
  match n with
  | NStr s => let p := chs (ns +:+ ":") in if is_prefix p (chs s) then Some (str (drop (length p) (chs s))) else None
  | NInt _ => None
  end.
Lemma name_of_named ns i : name_of ns (node_named ns i) = Some i.
Proof.
  unfold name_of, node_named. set (p := chs (ns +:+ ":")). assert (E : chs (ns +:+ ":" +:+ i) = p ++ chs i).
  { unfold p. rewrite !chs_app. by rewrite <-app_assoc. }
  rewrite E. assert (Hp : is_prefix p (p ++ chs i) = true) by (apply is_prefix_spec; by eexists). rewrite Hp, drop_app, str_chs. done.
Qed.
Lemma name_of_is ns n i : name_of ns n = Some i → n = node_named ns i.
Proof.
  unfold name_of, node_named. destruct n as [|s]; [done|]. destruct (is_prefix _ _) eqn:E; [|done]. intros [= <-]. apply is_prefix_spec in E as [r E].
  f_equal. rewrite E, drop_app. rewrite <-(str_chs s), E, chs_app, <-app_assoc, !str_app, str_chs. done.
Qed.
Lemma named_inj ns i j : node_named ns i = node_named ns j → i = j.
Proof. intros E. pose proof (name_of_named ns i) as H. rewrite E, name_of_named in H. congruence. Qed.

(** ** Descriptions *)
Definition dinfo (ns : string) (D : node_desc) : list string * attrs := (nd_layers D, desc_attrs ns D).
Lemma dget_entry k key v : dget k (entry key v) = if decide (k = key) then VStr <$> v else None.
Proof. destruct v; cbn; by destruct (decide (k = key)). Qed.
Lemma key_ne' ns a b : a ≠ b → ns +:+ a ≠ ns +:+ b.
Proof. intros H E. by apply append_inj_l in E. Qed.
Lemma label_ne ns k : "label" ≠ ns +:+ String ":" k.
Proof.
  intros E. apply (f_equal chs) in E. rewrite chs_app in E. assert (H : ":"%char ∈ chs "label").
  { rewrite E, elem_of_app. right. cbn. left. }
  cbn in H. repeat (apply elem_of_cons in H as [H|H]; [done|]). by apply elem_of_nil in H.
Qed.
Lemma dget_desc ns D k : dget k (desc_attrs ns D) =
  if decide (k = "label") then VStr <$> nd_label D
  else if decide (k = ns +:+ ":text") then VStr <$> nd_text D
  else if decide (k = ns +:+ ":group_type") then VStr <$> nd_group D
  else if decide (k = ns +:+ ":segment_type") then VStr <$> nd_type D
  else if decide (k = ns +:+ ":rel_name") then VStr <$> nd_rel D else None.
Proof.
  unfold desc_attrs. rewrite !dget_app, !dget_entry.
  pose proof (label_ne ns "text"). pose proof (label_ne ns "group_type"). pose proof (label_ne ns "segment_type"). pose proof (label_ne ns "rel_name").
  pose proof (key_ne' ns ":text" ":group_type" ltac:(done)). pose proof (key_ne' ns ":text" ":segment_type" ltac:(done)). pose proof (key_ne' ns ":text" ":rel_name" ltac:(done)).
  pose proof (key_ne' ns ":group_type" ":segment_type" ltac:(done)). pose proof (key_ne' ns ":group_type" ":rel_name" ltac:(done)). pose proof (key_ne' ns ":segment_type" ":rel_name" ltac:(done)).
  generalize dependent (ns +:+ ":text"). generalize dependent (ns +:+ ":group_type"). generalize dependent (ns +:+ ":segment_type"). generalize dependent (ns +:+ ":rel_name").
  intros k1 ? k2 ? ? k3 ? ? ? k4 ? ? ? ?. repeat case_decide; subst; try congruence; repeat case_match; try congruence.
Qed.
(** attributes given as a list of entries with these keys *)
Ltac keys ns :=
  pose proof (label_ne ns "text"); pose proof (label_ne ns "group_type"); pose proof (label_ne ns "segment_type"); pose proof (label_ne ns "rel_name");
  pose proof (key_ne' ns ":text" ":group_type" ltac:(done)); pose proof (key_ne' ns ":text" ":segment_type" ltac:(done)); pose proof (key_ne' ns ":text" ":rel_name" ltac:(done));
  pose proof (key_ne' ns ":group_type" ":segment_type" ltac:(done)); pose proof (key_ne' ns ":group_type" ":rel_name" ltac:(done)); pose proof (key_ne' ns ":segment_type" ":rel_name" ltac:(done)).
Section Steps.
  Context (ns : string) (d : rs3doc).
  Local Notation rels := (extract_relationtypes d).
  Definition parent_desc (o : option node_desc) (x : xelem) : node_desc :=
    match o with
    | Some D => if decide (link_of d x = Plain) then D
                else NodeDesc (nd_layers D) (nd_label D) (nd_text D) (nd_group D) (match link_of d x with Satellite => Some "nucleus" | _ => nd_type D end) (Some (relation_of x))
    | None => NodeDesc [ns] None None None (parent_type (link_of d x)) (Some (relation_of x))
    end.
  Lemma parent_step g V E x p o : viewed g V E → g_ns g = ns → el_parent x = Some p → is_Some (el_relname x) →
    V (node_named ns p) = dinfo ns <$> o → is_Some (V (node_of_el ns x)) →
    ∃ g', add_parent_relation rels g x p = (g', None) ∧
      viewed g' (λ n, if decide (n = node_named ns p) then Some (dinfo ns (parent_desc o x)) else V n) (E ++ link_edge ns d x) ∧ same_doc g g'.
  Proof.
    intros HV Hns Hp [rel Hrel] Ho Hx. unfold add_parent_relation. rewrite x_relname_el, Hrel, types_eq, x_id_el, Hns, Hp, declared_ok.
    assert (Hrr : relation_of x = rel) by (unfold relation_of; by rewrite Hrel).
    assert (Hmem : dmem (NStr (ns +:+ ":" +:+ p)) (g_succ g) = bool_decide (is_Some o)).
    { change (NStr (ns +:+ ":" +:+ p)) with (node_named ns p). destruct (dmem _ (g_succ g)) eqn:Em; symmetry.
      - apply bool_decide_eq_true. apply succ_mem_nodes in Em; [|apply HV]. apply (view_in _ _ _ _ HV) in Em. rewrite Ho in Em. destruct o; [by eexists|by destruct Em].
      - apply bool_decide_eq_false. intros [D ->]. assert (Hin : node_named ns p ∈ nodes g) by (apply (view_in _ _ _ _ HV); rewrite Ho; by eexists).
        apply succ_mem_nodes in Hin; [|apply HV]. congruence. }
    rewrite Hmem. change (NStr (ns +:+ ":" +:+ p)) with (node_named ns p).
    enough (∃ g1, (if bool_decide (is_Some o) then if decide (own_type d x = "span") then (g, None) else node_update g (node_named ns p)
        ((ns +:+ ":rel_name", VStr rel) :: match parent_type (link_of d x) with Some t => [(ns +:+ ":segment_type", VStr t)] | None => [] end)
      else add_node g (node_named ns p) (VSet [ns]) (Some ((ns +:+ ":rel_name", VStr rel) :: match parent_type (link_of d x) with Some t => [(ns +:+ ":segment_type", VStr t)] | None => [] end)) []) = (g1, None)
      ∧ viewed g1 (λ n, if decide (n = node_named ns p) then Some (dinfo ns (parent_desc o x)) else V n) E ∧ same_doc g g1) as (g1 & E1 & V1 & D1).
    { rewrite E1. change (NStr (ns +:+ ":" +:+ el_id x)) with (node_of_el ns x).
      destruct (view_edge_as g1 _ E (node_named ns p) (node_of_el ns x) (VSet [ns])
        (Some [(ns +:+ ":rel_name", VStr rel); (ns +:+ ":rel_type", VStr (declared d rel)); ("label", VStr (ns +:+ ":" +:+ rel))])
        [("edge_type", VStr (if decide (own_type d x = "span") then spans else dominates))] [ns]
        [(ns +:+ ":rel_name", VStr (relation_of x)); (ns +:+ ":rel_type", VStr (declared d (relation_of x))); ("label", VStr (ns +:+ ":" +:+ relation_of x));
         ("edge_type", VStr (if decide (link_of d x = Plain) then "spans" else "dominates"))] V1) as (g2 & E2 & V2 & D2).
      - rewrite decide_True by done. by eexists.
      - destruct (decide (node_of_el ns x = node_named ns p)); [by eexists|exact Hx].
      - by left.
      - intros k Hk. unfold given_attrs. rewrite dget_dupdate. cbn [default dget]. rewrite Hrr.
        assert (Hns' : ∀ s, "edge_type" ≠ ns +:+ String ":" s).
        { intros s Es. apply (f_equal chs) in Es. rewrite chs_app in Es. assert (H : ":"%char ∈ chs "edge_type") by (rewrite Es, elem_of_app; right; cbn; left).
          cbn in H. repeat (apply elem_of_cons in H as [H|H]; [done|]). by apply elem_of_nil in H. }
        unfold id. destruct (decide (k = "edge_type")) as [->|].
        + rewrite (decide_False (P := "edge_type" = ns +:+ ":rel_name")) by apply Hns'. rewrite (decide_False (P := "edge_type" = ns +:+ ":rel_type")) by apply Hns'.
          rewrite (decide_ext (own_type d x = "span") (link_of d x = Plain)) by (by apply (own_span d x p)). done.
        + reflexivity.
      - exists g2. split; [exact E2|]. split; [|by eapply same_doc_trans]. unfold link_edge. rewrite Hp. exact V2. }
    destruct o as [D|]; cbn [parent_desc].
    - rewrite bool_decide_eq_true_2 by (by eexists). rewrite (decide_ext (own_type d x = "span") (link_of d x = Plain)) by (by apply (own_span d x p)).
      destruct (decide (link_of d x = Plain)) as [Hpl|Hpl].
      + exists g. split; [done|]. split; [|apply same_doc_refl]. eapply view_same; [exact HV|]. intros n. destruct (decide _) as [->|]; [|apply same_at_refl]. rewrite Ho. apply same_at_refl.
      + destruct (view_update g V E (node_named ns p) ((ns +:+ ":rel_name", VStr rel) :: match parent_type (link_of d x) with Some t => [(ns +:+ ":segment_type", VStr t)] | None => [] end) (dinfo ns D) HV Ho) as (g1 & E1 & V1 & D1).
        { cbn [dget]. rewrite decide_False by (apply not_eq_sym, key_layers). destruct (parent_type _); cbn [dget]; [|done]. by rewrite decide_False by (apply not_eq_sym, key_layers). }
        exists g1. split; [exact E1|]. split; [|done]. eapply view_same; [exact V1|]. intros n. unfold vset. destruct (decide _); [|apply same_at_refl].
        cbn [same_at dinfo fst snd]. split; cbn [fst snd].
        * cbn [dget]. rewrite decide_False by (apply not_eq_sym, key_layers). destruct (parent_type _); cbn [dget]; [|done]. by rewrite decide_False by (apply not_eq_sym, key_layers).
        * intros k Hk. unfold dinfo. cbn [fst snd]. rewrite dget_dupdate, !dget_desc. cbn [nd_label nd_text nd_group nd_type nd_rel]. rewrite Hrr. keys ns.
          destruct (link_of d x); [..|done]; cbn [parent_type dget]; repeat case_decide; subst; try congruence; reflexivity.
    - rewrite bool_decide_eq_false_2 by (by intros [? ?]).
      destruct (view_new g V E (node_named ns p) (VSet [ns]) (Some ((ns +:+ ":rel_name", VStr rel) :: match parent_type (link_of d x) with Some t => [(ns +:+ ":segment_type", VStr t)] | None => [] end)) [] [ns] HV) as (g1 & E1 & V1 & D1); [by left|done|].
      exists g1. split; [exact E1|]. split; [|done]. eapply view_same; [exact V1|]. intros n. unfold vset. destruct (decide _); [|apply same_at_refl].
      cbn [same_at dinfo fst snd]. split; cbn [fst snd]; [done|]. intros k Hk. unfold dinfo. cbn [fst snd]. rewrite dget_desc. cbn [nd_label nd_text nd_group nd_type nd_rel]. rewrite Hrr.
      unfold given_attrs. rewrite dget_dupdate. keys ns. destruct (link_of d x); cbn [parent_type dget default]; unfold id; cbn [dget]; repeat case_decide; subst; try congruence; reflexivity.
  Qed.
End Steps.
