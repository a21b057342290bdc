(** * RelabelFacts: relabelling is an isomorphism (proofs) *)
From Verif Require Import PyBase DocGraph DocGraphFacts History Effects Relabel.

(** Same attributes and same set of layers. *)
Section relabel.
  Implicit Types (g : graph) (n u v k : nid) (a : attrs).

  Lemma attr_eqv_refl a : attr_eqv a a.
  Proof. split; done. Qed.
  Lemma attr_eqv_sym a b : attr_eqv a b → attr_eqv b a.
  Proof. intros [H1 H2]. split; [naive_solver|]. intros. symmetry. by apply H2. Qed.
  Lemma attr_eqv_trans a b c : attr_eqv a b → attr_eqv b c → attr_eqv a c.
  Proof.
    intros [H1 H2] [H3 H4]. split.
    - intros x. by rewrite H1.
    - intros key Hk. by rewrite H2, H4.
  Qed.
  (** merging an attribute dict into itself or into nothing *)
  Lemma attr_merge_eqv old l given a :
    layered given → (∀ x, x ∈ l ↔ has_layer given x) →
    (∀ o, old = Some o → attr_eqv o given) →
    attr_merge old l given a → attr_eqv given a.
  Proof.
    intros Hg Hl Ho Hm. split.
    - intros x. rewrite (attr_merge_has_layer _ _ _ _ x Hm). rewrite Hl. split; [by left|].
      intros [?|(o & -> & Hx)]; [done|]. by apply (Ho o eq_refl).
    - intros key Hk. destruct Hm as [_ Hm]. rewrite Hm by done.
      destruct (dget key given) eqn:E; [done|]. destruct old as [o|]; [|done]. simpl.
      destruct (Ho o eq_refl) as [_ H]. by rewrite H.
  Qed.
  Lemma has_layer_elem a l x : dget "layers" a = Some (VSet l) → has_layer a x ↔ x ∈ l.
  Proof. intros H. unfold has_layer. naive_solver. Qed.

  Lemma elem_out_edges g n u v k a :
    Consistent g → (u, v, k, a) ∈ out_edges g n ↔ u = n ∧ edge_attrs g n v k = Some a.
  Proof.
    intros C. unfold out_edges. rewrite elem_of_list_bind. split.
    - intros ([v' kd] & Hin & Hq). apply elem_of_list_bind in Hin as ([k' a'] & Hin & Hr).
      apply elem_of_list_singleton in Hin as [= -> -> -> ->]. split; [done|].
      destruct (dget n (g_succ g)) as [nb|] eqn:Hu; simpl in *; [|by apply elem_of_nil in Hq].
      destruct (c_adj g C _ _ Hu) as [H1 H2]. apply elem_dget in Hq; [|done].
      destruct (H2 _ _ Hq) as [_ H3].
      unfold edge_attrs, keydict_of. rewrite Hu. simpl. rewrite Hq. simpl. by apply elem_dget.
    - intros [-> Ha]. unfold edge_attrs, keydict_of in Ha.
      destruct (dget n (g_succ g)) as [nb|] eqn:Hu; [|done]. simpl in Ha.
      destruct (dget v nb) as [kd|] eqn:Hv; [|done]. simpl in Ha.
      exists (v, kd). split; [|by apply dget_Some_elem]. apply elem_of_list_bind.
      exists (k, a). split; [by apply elem_of_list_singleton|by apply dget_Some_elem].
  Qed.
  Lemma keydict_NoDup g u v : Consistent g → NoDup (dkeys (keydict_of g u v)).
  Proof.
    intros C. unfold keydict_of. destruct (dget u (g_succ g)) as [nb|] eqn:Hu; simpl; [|constructor].
    destruct (dget v nb) as [kd|] eqn:Hv; simpl; [|constructor].
    destruct (c_adj g C _ _ Hu) as [_ H]. by destruct (H _ _ Hv).
  Qed.
  Lemma elem_in_edges g n u v k a :
    Consistent g → (u, v, k, a) ∈ in_edges g n ↔ v = n ∧ edge_attrs g u n k = Some a.
  Proof.
    intros C. unfold in_edges. rewrite elem_of_list_bind. split.
    - intros (u' & Hin & Hq). apply elem_of_list_bind in Hin as ([k' a'] & Hin & Hr).
      apply elem_of_list_singleton in Hin as [= -> -> -> ->]. split; [done|].
      apply elem_dget; [|done]. by apply keydict_NoDup.
    - intros [-> Ha]. exists u. split.
      + apply elem_of_list_bind. exists (k, a). split; [by apply elem_of_list_singleton|].
        by apply dget_Some_elem.
      + apply (c_sp g C). by eapply edge_succ.
  Qed.

  (** Adding keyed edges that agree with a target edge map [E]. *)
  Definition edge_map := nid → nid → nid → option attrs.
  Definition respects (E : edge_map) g : Prop :=
    ∀ u v k a, edge_attrs g u v k = Some a → ∃ b, E u v k = Some b ∧ attr_eqv b a.
  Lemma add_keyed_edges (E : edge_map) es : ∀ g,
    GInv g → respects E g →
    Forall (λ e, e_u e ∈ nodes g ∧ e_v e ∈ nodes g ∧ nlayered (e_d e) ∧
        ∃ k b, e_key e = Some k ∧ E (e_u e) (e_v e) k = Some b ∧ attr_eqv b (e_d e)) es →
    ∃ g', add_edges_from g es None [] = (g', None) ∧ GInv g' ∧ respects E g' ∧
      (∀ n, node_attrs g' n = node_attrs g n) ∧ same_doc g g' ∧
      (∀ u v k, is_Some (edge_attrs g u v k) → is_Some (edge_attrs g' u v k)) ∧
      (∀ u v k, is_Some (edge_attrs g' u v k) → is_Some (edge_attrs g u v k) ∨
          ∃ e, e ∈ es ∧ e_u e = u ∧ e_v e = v ∧ e_key e = Some k) ∧
      (∀ e k, e ∈ es → e_key e = Some k → is_Some (edge_attrs g' (e_u e) (e_v e) k)).
  Proof.
    unfold add_edges_from. induction es as [|e es IH]; intros g H HE Hall; cbn [for_each].
    { exists g. split_and!; try done.
      - intros u v k Hs. by left.
      - intros e k Hin. by apply elem_of_nil in Hin. }
    apply Forall_cons in Hall as [(Hu & Hv & Hnl & k & b & Hk & Hb & Hbe) Hall].
    pose proof (add_edges_from1_eff g [] e H) as He.
    destruct Hnl as (x0 & l0 & Hl0).
    assert (Htl : tup_layers (g_ns g) (e_d e) = VSet (x0 :: l0)) by (unfold tup_layers; by rewrite Hl0).
    rewrite Htl in He. simpl in He.
    destruct He as (k' & a & g1 & Heq & Hg1 & Hkk & L & HL & Hm). rewrite Hk in Hkk. subst k'.
    change (λ (g0 : graph) (e0 : espec), add_edges_from1 g0 [] e0) with (λ g0 e0, add_edges_from1 g0 [] e0).
    rewrite Heq.
    destruct (edges_from1_cases g e k g1 H Hg1) as (H1 & Hu1 & Hv1 & Hna & Hea & Hdoc).
    assert (Hwn : ∀ n, node_attrs g1 n = node_attrs g n).
    { intros n. rewrite Hna. rewrite (with_node_in g (e_u e) Hu). by rewrite (with_node_in g (e_v e) Hv). }
    assert (Hae : attr_eqv (e_d e) a).
    { eapply (attr_merge_eqv (edge_attrs g (e_u e) (e_v e) k) L); [by eexists| | |].
      - intros x. rewrite HL. rewrite (has_layer_elem _ _ _ Hl0).
        rewrite elem_of_nil. naive_solver.
      - intros o Ho. destruct (HE _ _ _ _ Ho) as (b' & Hb' & Hbo).
        rewrite Hb in Hb'. injection Hb' as <-.
        eapply attr_eqv_trans; [by apply attr_eqv_sym|done].
      - destruct Hm as [Hm1 Hm2]. split; [done|]. intros key Hkey. rewrite Hm2 by done.
        rewrite dget_dupdate. simpl. by destruct (dget key (e_d e)). }
    set (g2 := put_edge g1 (e_u e) (e_v e) k a).
    assert (H2 : GInv g2).
    { apply GInv_put_edge; try done. by eapply attr_merge_layered. }
    assert (He2 : ∀ u v k', edge_attrs g2 u v k' =
       if decide (u = e_u e ∧ v = e_v e ∧ k' = k) then Some a else edge_attrs g u v k').
    { intros u v k'. unfold g2. rewrite edge_attrs_put_edge; [|apply H1|done].
      case_decide as Hd; [done|]. apply Hea. naive_solver. }
    assert (Hn2 : ∀ n, node_attrs g2 n = node_attrs g n).
    { intros n. unfold g2. by rewrite node_attrs_put_edge. }
    destruct (IH g2) as (g' & -> & Hg' & HE' & Hn' & Hdoc' & Hmono & Hinv & Hes).
    - done.
    - intros u v k' a'. rewrite He2. case_decide as Hd; [|apply HE].
      destruct Hd as (-> & -> & ->). intros [= <-]. exists b. split; [done|].
      by eapply attr_eqv_trans.
    - eapply Forall_impl; [done|]. intros e' (Hu' & Hv' & Hrest).
      rewrite node_mem in Hu', Hv' |- *. rewrite node_mem. rewrite !Hn2. done.
    - exists g'. split_and!; try done.
      + intros n. by rewrite Hn', Hn2.
      + pose proof (put_edge_other g1 (e_u e) (e_v e) k a) as Hpo. unfold same_doc in *.
        change (put_edge g1 (e_u e) (e_v e) k a) with g2 in Hpo.
        destruct Hpo as (P1&P2&P3&P4&P5&P6&P7). destruct Hdoc as (D1&D2&D3&D4&D5&D6).
        destruct Hdoc' as (E1&E2&E3&E4&E5&E6).
        split_and!; congruence.
      + intros u v k' Hs. apply Hmono. rewrite He2. case_decide; [by eexists|done].
      + intros u v k' Hs. apply Hinv in Hs as [Hs|(e' & ? & ?)].
        * rewrite He2 in Hs. case_decide as Hd; [|by left].
          destruct Hd as (-> & -> & ->). right. exists e. split_and!; try done. left.
        * right. exists e'. split; [by right|done].
      + intros e' k' Hin Hk'. apply elem_of_cons in Hin as [->|Hin].
        * rewrite Hk in Hk'. injection Hk' as <-. apply Hmono. rewrite He2.
          rewrite decide_True by done. by eexists.
        * by apply Hes.
  Qed.

  (** One iteration of the loop with a fresh, truthy-or-loop-free new label. *)
  Definition ren (old new x : nid) : nid := if decide (x = old) then new else x.

  Lemma and_or_ren old new x :
    (nid_truthy new = true ∨ x ≠ old) → and_or old new x = ren old new x.
  Proof.
    intros H. unfold and_or, ren.
    destruct (decide (old = x)), (decide (x = old)); try congruence.
    destruct H as [->|]; [done|congruence].
  Qed.

  Lemma relabel1_iso g old new :
    NInv g → old ∈ nodes g → new ∉ nodes g →
    (nid_truthy new = true ∨ ∀ k, edge_attrs g old old k = None) →
    ∃ g', relabel1 g old new = (g', None) ∧ NInv g' ∧ iso (ren old new) g g' ∧ same_doc g g'.
  Proof.
    intros [H N] Ho Hn Ht. unfold relabel1.
    pose proof Ho as Ho'. apply node_mem in Ho' as [a Ha]. rewrite Ha.
    destruct (proj1 N _ _ Ha) as (x0 & l0 & Hl0). rewrite Hl0.
    assert (Hne : old ≠ new) by (intros ->; done).
    pose proof (add_node_eff g new (VSet (x0 :: l0)) (Some a) [] (proj1 H) (proj2 H)) as He.
    simpl in He. destruct He as (a' & -> & Hm).
    assert (Haa : attr_eqv a a').
    { apply node_nmem in Hn. rewrite Hn in Hm.
      eapply (attr_merge_eqv None (x0 :: l0)); [by eexists| | |].
      - intros x. by rewrite (has_layer_elem _ _ _ Hl0).
      - done.
      - destruct Hm as [Hm1 Hm2]. split; [done|]. intros key Hk. rewrite Hm2 by done.
        unfold given_attrs. simpl. done. }
    set (g1 := put_node g new a').
    assert (H1 : GInv g1) by (apply GInv_put_node; [done|by eapply attr_merge_layered]).
    assert (He1 : ∀ u v k, edge_attrs g1 u v k = edge_attrs g u v k).
    { intros. apply edge_attrs_put_node, H. }
    assert (Hn1 : ∀ m, node_attrs g1 m = if decide (m = new) then Some a' else node_attrs g m).
    { intros. apply node_attrs_put_node. }
    match goal with |- context [add_edges_from _ ?L None []] => set (es := L) end.
    pose proof (remove_node_eff g1 old (proj1 H1)) as Hr.
    rewrite decide_True in Hr.
    2:{ apply node_mem. rewrite Hn1. rewrite decide_False by done. by apply node_mem. }
    destruct Hr as (g2 & -> & C2 & Hn2 & Hk2 & _ & Hd2).
    assert (He2 : ∀ u v k, edge_attrs g2 u v k =
                if decide (u = old ∨ v = old) then None else edge_attrs g u v k).
    { intros u v k. unfold edge_attrs at 1. rewrite Hk2. case_decide; [done|].
      fold (edge_attrs g1 u v k). apply He1. }
    assert (H2 : GInv g2).
    { split; [done|]. split.
      - intros m b. rewrite Hn2, Hn1. case_decide; [done|]. case_decide; [|apply H].
        intros [= <-]. by eapply attr_merge_layered.
      - intros u v k b. rewrite He2. case_decide; [done|]. apply (proj2 (proj2 H)). }
    assert (Hnew : ∀ u v k b, edge_attrs g u v k = Some b → u ≠ new ∧ v ≠ new).
    { intros u v k b Hb. apply edge_succ in Hb. apply succ_nodes in Hb; [|apply H].
      split; intros ->; naive_solver. }
    assert (Hloop : ∀ k b, edge_attrs g old old k = Some b → nid_truthy new = true).
    { intros k b Hb. destruct Ht as [?|Ht]; [done|]. rewrite Ht in Hb. done. }
    (* the target edge map: image of the edges of g *)
    set (inv := λ x : nid, if decide (x = new) then old else x).
    set (E := λ u v k, if decide (u = old ∨ v = old) then None
                       else edge_attrs g (inv u) (inv v) k).
    assert (Hinv : ∀ x, x ≠ new → inv (ren old new x) = x).
    { intros x Hx. unfold inv, ren. repeat case_decide; congruence. }
    assert (Hren_old : ∀ x, ren old new x ≠ old).
    { intros x. unfold ren. case_decide; congruence. }
    assert (HEren : ∀ u v k b, edge_attrs g u v k = Some b →
              E (ren old new u) (ren old new v) k = Some b).
    { intros u v k b Hb. destruct (Hnew _ _ _ _ Hb). unfold E.
      rewrite decide_False by (intros [?|?]; by eapply Hren_old).
      by rewrite !Hinv. }
    assert (Hes : ∀ e, e ∈ es → ∃ u v k b, edge_attrs g u v k = Some b ∧ (u = old ∨ v = old) ∧
              e = ESpec (ren old new u) (ren old new v) (Some k) b).
    { intros e. unfold es. rewrite elem_of_app, !elem_of_list_fmap.
      intros [([[[u v] k] b] & -> & Hin)|([[[u v] k] b] & -> & Hin)].
      - apply elem_out_edges in Hin as [-> Hin]; [|apply H1]. rewrite He1 in Hin.
        exists old, v, k, b. split_and!; [done|by left|]. simpl. f_equal.
        + unfold ren. by rewrite decide_True.
        + apply and_or_ren. destruct (decide (v = old)) as [->|]; [|by right]. left. eauto.
      - apply elem_in_edges in Hin as [-> Hin]; [|apply H1]. rewrite He1 in Hin.
        exists u, old, k, b. split_and!; [done|by right|]. simpl. f_equal.
        + apply and_or_ren. destruct (decide (u = old)) as [->|]; [|by right]. left. eauto.
        + unfold ren. by rewrite decide_True. }
    assert (Hren_nodes : ∀ u, u ∈ nodes g → ren old new u ∈ nodes g2).
    { intros u Hu. apply node_mem. rewrite Hn2. rewrite decide_False by done. rewrite Hn1.
      case_decide; [by eexists|]. unfold ren in *. apply node_mem. case_decide; [congruence|done]. }
    destruct (add_keyed_edges E es g2) as (g3 & -> & H3 & HE3 & Hn3 & Hd3 & Hmono & Hinv3 & Hes3).
    { done. }
    { intros u v k b. rewrite He2. case_decide as Hd; [done|]. intros Hb. exists b.
      split; [|apply attr_eqv_refl]. destruct (Hnew _ _ _ _ Hb) as [Hun Hvn].
      unfold E, inv. by rewrite !decide_False. }
    { apply Forall_forall. intros e Hin. destruct (Hes e Hin) as (u & v & k & b & Hb & _ & ->).
      simpl. pose proof (succ_nodes _ _ _ (proj1 H) (edge_succ _ _ _ _ _ Hb)) as [Hu Hv].
      split_and!; [by apply Hren_nodes|by apply Hren_nodes|by eapply (proj2 N)|].
      exists k, b. split_and!; [done|by apply HEren|apply attr_eqv_refl]. }
    assert (Hedge : ∀ u v k b, edge_attrs g u v k = Some b →
        ∃ b', edge_attrs g3 (ren old new u) (ren old new v) k = Some b' ∧ attr_eqv b b').
    { intros u v k b Hb.
      assert (is_Some (edge_attrs g3 (ren old new u) (ren old new v) k)) as [b' Hb'].
      { destruct (decide (u = old ∨ v = old)) as [Hd|Hd].
        - assert (∃ e, e ∈ es ∧ e = ESpec (ren old new u) (ren old new v) (Some k) b) as (e & Hin & Hee).
          { destruct (decide (u = old)) as [->|Hu].
            - eexists; split; [|reflexivity]. unfold es. apply elem_of_app. left.
              apply elem_of_list_fmap. exists (old, v, k, b). split.
              + simpl. f_equal; [unfold ren; by rewrite decide_True|].
                symmetry. apply and_or_ren. destruct (decide (v = old)) as [->|]; [|by right]. left; eauto.
              + apply elem_out_edges; [apply H1|]. by rewrite He1.
            - destruct Hd as [?| ->]; [done|]. eexists; split; [|reflexivity]. unfold es.
              apply elem_of_app. right. apply elem_of_list_fmap. exists (u, old, k, b). split.
              + simpl. f_equal; [symmetry; apply and_or_ren; by right|unfold ren; by rewrite decide_True].
              + apply elem_in_edges; [apply H1|]. by rewrite He1. }
          pose proof (Hes3 e k Hin) as Hs. rewrite Hee in Hs. simpl in Hs. by apply Hs.
        - apply Hmono. rewrite He2. unfold ren. destruct (Hnew _ _ _ _ Hb).
          rewrite !decide_False by naive_solver. by eexists. }
      exists b'. split; [done|]. destruct (HE3 _ _ _ _ Hb') as (c & Hc & Hcb).
      rewrite (HEren _ _ _ _ Hb) in Hc. by injection Hc as <-. }
    exists g3. split; [done|]. split; [|split].
    - split; [done|]. split.
      + intros m b. rewrite Hn3, Hn2, Hn1. case_decide; [done|]. case_decide; [|apply N].
        intros [= <-]. eapply attr_merge_nlayered; [|exact Hm]. done.
      + intros u v k b Hb. destruct (HE3 _ _ _ _ Hb) as (c & Hc & Hcb).
        apply nlayered_has_layer; [by eapply (proj2 (proj2 H3))|].
        unfold E in Hc. case_decide; [done|]. pose proof (proj2 N _ _ _ _ Hc) as Hnl.
        pose proof (proj2 (proj2 H) _ _ _ _ Hc) as Hly.
        apply nlayered_has_layer in Hnl as [x Hx]; [|done]. exists x. by apply Hcb.
    - split.
      + intros x y Hx Hy. unfold ren. repeat case_decide; congruence.
      + intros m b Hb. rewrite Hn3, Hn2, Hn1. rewrite decide_False by done. unfold ren.
        destruct (decide (m = old)) as [->|Hd].
        * rewrite decide_True by done. rewrite Ha in Hb. injection Hb as <-. eauto.
        * rewrite decide_False; [exists b; split; [done|apply attr_eqv_refl]|].
          intros ->. apply Hn, node_mem. eauto.
      + intros m Hm3. apply node_mem in Hm3 as [b Hb]. rewrite Hn3, Hn2, Hn1 in Hb.
        case_decide as Hd1; [done|]. case_decide as Hd.
        * exists old. split; [done|]. unfold ren. by rewrite decide_True.
        * exists m. split; [apply node_mem; eauto|]. unfold ren. by rewrite decide_False.
      + done.
      + intros u v k b Hb. destruct (HE3 _ _ _ _ Hb) as (c & Hc & _). unfold E in Hc.
        case_decide as Hd; [done|]. exists (inv u), (inv v), c.
        assert (Hri : ∀ x, x ≠ old → x = ren old new (inv x)).
        { intros x Hx. unfold inv, ren. repeat case_decide; congruence. }
        split_and!; [apply Hri; naive_solver|apply Hri; naive_solver|done].
    - pose proof (put_node_other g new a') as Hpo. unfold same_doc in *.
      change (put_node g new a') with g1 in Hpo. destruct_and!. split_and!; congruence.
  Qed.

  Lemma iso_refl g : iso id g g.
  Proof.
    split.
    - done.
    - intros n a ?. exists a. split; [done|apply attr_eqv_refl].
    - intros m ?. eauto.
    - intros u v k a ?. exists a. split; [done|apply attr_eqv_refl].
    - intros u v k a ?. exists u, v, a. done.
  Qed.
  Lemma iso_nodes f g g' m : iso f g g' → m ∈ nodes g' ↔ ∃ n, n ∈ nodes g ∧ m = f n.
  Proof.
    intros I. split; [apply I|]. intros (n & Hn & ->). apply node_mem in Hn as [a Ha].
    destruct (iso_node _ _ _ I _ _ Ha) as (a' & Ha' & _). apply node_mem. eauto.
  Qed.
  Lemma iso_comp f f' g g' g'' : iso f g g' → iso f' g' g'' → iso (f' ∘ f) g g''.
  Proof.
    intros I J. split.
    - intros x y Hx Hy Hf. apply (iso_inj _ _ _ I); try done. apply (iso_inj _ _ _ J); try done.
      + apply (iso_nodes _ _ _ _ I). eauto.
      + apply (iso_nodes _ _ _ _ I). eauto.
    - intros n a Ha. destruct (iso_node _ _ _ I _ _ Ha) as (b & Hb & ?).
      destruct (iso_node _ _ _ J _ _ Hb) as (c & Hc & ?). exists c. split; [done|].
      by eapply attr_eqv_trans.
    - intros m Hm. apply (iso_node_inv _ _ _ J) in Hm as (n & Hn & ->).
      apply (iso_node_inv _ _ _ I) in Hn as (n' & Hn' & ->). eauto.
    - intros u v k a Ha. destruct (iso_edge _ _ _ I _ _ _ _ Ha) as (b & Hb & ?).
      destruct (iso_edge _ _ _ J _ _ _ _ Hb) as (c & Hc & ?). exists c. split; [done|].
      by eapply attr_eqv_trans.
    - intros u' v' k a Ha. apply (iso_edge_inv _ _ _ J) in Ha as (u & v & b & -> & -> & Hb).
      apply (iso_edge_inv _ _ _ I) in Hb as (x & y & c & -> & -> & Hc). exists x, y, c. done.
  Qed.
  Lemma iso_ext f f' g g' : (∀ n, n ∈ nodes g → f n = f' n) → Consistent g → iso f g g' → iso f' g g'.
  Proof.
    intros Hf C I.
    assert (Hend : ∀ u v k a, edge_attrs g u v k = Some a → u ∈ nodes g ∧ v ∈ nodes g).
    { intros u v k a Ha. apply (succ_nodes _ _ _ C). by eapply edge_succ. }
    split.
    - intros x y Hx Hy He. apply I; try done. by rewrite !Hf.
    - intros n a Ha. rewrite <-Hf by (apply node_mem; eauto). by apply I.
    - intros m Hm. apply I in Hm as (n & Hn & ->). exists n. split; [done|by apply Hf].
    - intros u v k a Ha. destruct (Hend _ _ _ _ Ha). rewrite <-!Hf by done. by apply I.
    - intros u' v' k a Ha. apply (iso_edge_inv _ _ _ I) in Ha as (u & v & b & -> & -> & Hb).
      destruct (Hend _ _ _ _ Hb). exists u, v, b. split_and!; [by apply Hf|by apply Hf|done].
  Qed.

  (** The renaming of a mapping. *)
  (** a self loop must not be renamed to a falsy label *)
  Definition loops_ok (m : dict nid nid) (order : list nid) g : Prop :=
    ∀ o n, o ∈ order → dget o m = Some n → nid_truthy n = false → ∀ k, edge_attrs g o o k = None.

  (** Renaming along a list of pairs in which a new label is either fresh or
      has been renamed away before. *)
  Lemma relabel_loop_iso m order : ∀ g,
    NInv g → NoDup order →
    (∀ o, o ∈ order → is_Some (dget o m) → o ∈ nodes g) →
    (∀ o o' n, o ∈ order → o' ∈ order → dget o m = Some n → dget o' m = Some n → o = o') →
    (∀ i o n, order !! i = Some o → dget o m = Some n →
       n ∉ nodes g ∨ (∃ j, j < i ∧ order !! j = Some n ∧ is_Some (dget n m))) →
    loops_ok m order g →
    ∃ g', relabel_loop g m order = (g', None) ∧ NInv g' ∧ same_doc g g' ∧
      iso (λ x, if decide (x ∈ order) then mapped m x else x) g g'.
  Proof.
    induction order as [|o order IH]; intros g H Hnd Hin Hinj Hfresh Hloops; unfold relabel_loop; cbn [for_each].
    { exists g. split_and!; try done.
      eapply iso_ext; [|apply H|apply iso_refl].
      intros n _. rewrite decide_False; [done|apply not_elem_of_nil]. }
    unfold relabel_loop in IH.
    apply NoDup_cons in Hnd as [Hno Hnd].
    destruct (dget o m) as [n|] eqn:Em.
    - assert (Hon : o ∈ nodes g) by (apply Hin; [left|by rewrite Em]).
      assert (Hn : n ∉ nodes g).
      { destruct (Hfresh 0 o n eq_refl Em) as [?|(j & ? & _)]; [done|lia]. }
      assert (Ht : nid_truthy n = true ∨ ∀ k, edge_attrs g o o k = None).
      { destruct (nid_truthy n) eqn:E; [by left|]. right. eapply Hloops; [left|done|done]. }
      destruct (relabel1_iso g o n H Hon Hn Ht) as (g1 & -> & H1 & I1 & D1).
      assert (Hnodes1 : ∀ x, x ∈ nodes g1 ↔ x = n ∨ (x ∈ nodes g ∧ x ≠ o)).
      { intros x. rewrite (iso_nodes _ _ _ x I1). unfold ren. split.
        - intros (y & Hy & ->). case_decide; [by left|by right].
        - intros [->|[Hx Hxo]].
          + exists o. split; [done|]. by rewrite decide_True.
          + exists x. split; [done|]. by rewrite decide_False. }
      destruct (IH g1 H1 Hnd) as (g' & -> & H' & D' & I').
      + intros x Hx Hs. apply Hnodes1. right. split; [apply Hin; [by right|done]|]. by intros ->.
      + intros x y z Hx Hy. apply Hinj; by right.
      + intros i x z Hi Hz. destruct (Hfresh (S i) x z Hi Hz) as [Hzn|(j & Hj & Hjz & Hs)].
        * left. rewrite Hnodes1. intros [->|[? _]]; [|done].
          assert (o = x) as ->.
          { eapply Hinj; [left| |exact Em|exact Hz]. right. by eapply elem_of_list_lookup_2. }
          apply Hno. by eapply elem_of_list_lookup_2.
        * destruct j as [|j].
          -- simpl in Hjz. injection Hjz as ->. left. rewrite Hnodes1. intros [->|[_ ?]]; [|done].
             apply Hn. done.
          -- right. exists j. split; [lia|]. done.
      + intros x z Hxo Hz Htz k. destruct (edge_attrs g1 x x k) as [b|] eqn:Eb; [|done].
        apply (iso_edge_inv _ _ _ I1) in Eb as (u & v & c & Hu & Hv & Hc).
        destruct (succ_nodes _ _ _ (proj1 (proj1 H)) (edge_succ _ _ _ _ _ Hc)) as [Hun Hvn].
        assert (u = v) as <-. { apply (iso_inj _ _ _ I1); [done|done|]. by rewrite <-Hu, <-Hv. }
        unfold ren in Hu. case_decide as Hd; subst.
        * destruct Hn. apply Hin; [by right|by rewrite Hz].
        * rewrite (Hloops u z) in Hc; [done|by right|done|done].
      + exists g'. split_and!; [done|done| |].
        * unfold same_doc in *. destruct_and!. split_and!; congruence.
        * eapply iso_ext; [|apply H|eapply iso_comp; [exact I1|exact I']].
          intros x Hx. simpl. unfold ren. destruct (decide (x = o)) as [->|Hd].
          -- rewrite (decide_True (P := o ∈ o :: order)) by left.
             assert (Hmo : mapped m o = n) by (unfold mapped; by rewrite Em). rewrite Hmo.
             case_decide as Hd; [|done]. unfold mapped.
             destruct (dget n m) as [z|] eqn:Ez; [|done].
             destruct Hn. apply Hin; [by right|by rewrite Ez].
          -- destruct (decide (x ∈ order)).
             ++ by rewrite decide_True by (by right).
             ++ rewrite decide_False; [done|]. rewrite not_elem_of_cons. done.
    - destruct (IH g H Hnd) as (g' & -> & H' & D' & I').
      + intros x Hx. apply Hin. by right.
      + intros x y z Hx Hy. apply Hinj; by right.
      + intros i x z Hi Hz. destruct (Hfresh (S i) x z Hi Hz) as [Hzn|(j & Hj & Hjz & Hs)]; [by left|].
        destruct j as [|j].
        * simpl in Hjz. injection Hjz as ->. rewrite Em in Hs. by destruct Hs.
        * right. exists j. split; [lia|]. done.
      + intros x z Hx. apply Hloops. by right.
      + exists g'. split_and!; [done|done|done|].
        eapply iso_ext; [|apply H|exact I']. intros x Hx. simpl.
        destruct (decide (x = o)) as [->|Hd].
        * rewrite (decide_True (P := o ∈ o :: order)) by left.
          rewrite decide_False by done. unfold mapped. by rewrite Em.
        * destruct (decide (x ∈ order)).
          -- by rewrite decide_True by (by right).
          -- rewrite decide_False; [done|]. rewrite not_elem_of_cons. done.
  Qed.
End relabel.
