(** * SaltBack: writing and reading SaltXMI elements (proofs) *)
From Verif Require DisText.
From Verif Require Import PyBase DocGraph Relabel StrNum Query Text TextFacts SpanFacts Rst Nltk ConllRead Conano Decour Conll SpecAnaphora SpecRst SpecConllRead ConllReadText Salt SpecSalt SaltFacts SaltDoc.

(** ** Labels *)
Definition formed (l : slabel) : Prop := sl_namespace l ≠ Some "" ∧ (sl_hex l = "" → sl_value l = "").
Lemma reads_formed x l : label_reads x l → formed l.
Proof.
  intros [_ _ _ Hns Hh]. split; [intros E; apply Hns in E as [? _]; done|]. intros E. destruct Hh as [[_ Hne]|[_ HO]]; [done|]. rewrite E in HO. change (chs "") with ([] : chars) in HO. inversion HO as [Ev|]. apply chs_inj. by rewrite <-Ev.
Qed.
Lemma label_back l : formed l → label_from_etree (label_to_etree l) = Ok l.
Proof.
  intros [H1 H2]. destruct l as [t ns n v h]. cbn [sl_namespace sl_hex sl_value] in *. unfold label_from_etree, label_to_etree, get_xsi_type, x_get. cbn [x_attrib sl_type sl_namespace sl_name sl_value sl_hex].
  assert (HH : (if decide (h = "") then string2xmihex v else h) = h). { destruct (decide (h = "")) as [->|]; [|reflexivity]. by rewrite (H2 eq_refl). }
  destruct ns as [m|]; cbn [app].
  - change (dget "name" _) with (Some n). change (dget "valueString" _) with (Some v). change (dget xsi_type _) with (Some t). change (dget "value" _) with (Some h). change (dget "namespace" _) with (Some m). cbn [of_option rbind]. unfold new_label. rewrite decide_False by congruence. by rewrite HH.
  - change (dget "name" _) with (Some n). change (dget "valueString" _) with (Some v). change (dget xsi_type _) with (Some t). change (dget "value" _) with (Some h). change (dget "namespace" _) with (@None string). cbn [of_option rbind]. unfold new_label. by rewrite HH.
Qed.
Definition written (tag : string) (a : dict string string) (ls : list slabel) : xml := XElem tag a None (label_to_etree <$> ls) None.
Lemma written_labels tag a ls : labels_of (written tag a ls) = label_to_etree <$> ls.
Proof. unfold labels_of, written. cbn [x_kids]. induction ls as [|l ls IH]; [reflexivity|]. rewrite fmap_cons, filter_cons. rewrite decide_True by reflexivity. by rewrite IH. Qed.
Lemma written_reads tag a ls xs : Forall2 label_reads xs ls → Forall2 label_reads (labels_of (written tag a ls)) ls.
Proof.
  rewrite written_labels. induction 1 as [|x l xs ls H HF IH]; [exact (List.Forall2_nil _)|]. rewrite fmap_cons. apply List.Forall2_cons; [|exact IH]. apply label_iff, label_back. by eapply reads_formed.
Qed.
Lemma written_base x n i t ls tag a : base x n i t ls → dget type_attribute a = Some t → base (written tag a ls) n i t ls.
Proof. intros (H1 & H2 & H3 & H4) Ha. split; [exact Ha|]. split; [by eapply written_reads|]. done. Qed.
Lemma annotation_same k l : label_reads k l → annotation (label_to_etree l) = annotation k.
Proof.
  intros H. pose proof (label_back l (reads_formed _ _ H)) as HB. apply label_iff in HB. unfold annotation, get_xsi_type, x_get. destruct H as [T N V _ _], HB as [T' N' V' _ _]. unfold has in *. change type_attribute with xsi_type in *. by rewrite T, T', N, N', V, V'.
Qed.
Lemma written_annotations x ls tag a : Forall2 label_reads (labels_of x) ls → only_labels x → get_annotations (written tag a ls) = get_annotations x.
Proof.
  intros H HO. assert (labels_of x = x_kids x) as E. { unfold labels_of. clear H. unfold only_labels in HO. induction HO as [|k ks Hk HO IH]; [reflexivity|]. rewrite filter_cons. rewrite decide_True by exact Hk. by rewrite IH. }
  rewrite E in H. unfold get_annotations, written. cbn [x_kids]. f_equal. clear E HO. induction H as [|k l ks ls H HF IH]; [reflexivity|]. rewrite fmap_cons. cbn [rconcat]. by rewrite (annotation_same _ _ H), IH.
Qed.

(** ** References *)
Lemma number_word z : is_integer (chs (str_Z z)) z.
Proof.
  apply is_integer_int. unfold int_of. rewrite DisText.strip_word; [apply py_int_str_Z|]. split.
  - unfold str_Z. destruct z as [|p|p]; [done|apply str_N_nonempty|]. rewrite chs_app. done.
  - apply Forall_forall. intros c Hc. destruct (Rst.is_space c) eqn:E; [|reflexivity]. exfalso. revert Hc. apply str_Z_free.
    + destruct (is_digit c) eqn:D; [|reflexivity]. destruct c as [[] [] [] [] [] [] [] []]; done.
    + intros ->. done.
Qed.
Definition ref (kind : string) (z : Z) : chars := chs ("//@" +:+ kind +:+ "." +:+ str_Z z).
Lemma ref_chs kind z : ref kind z = chs ("//@" +:+ kind) ++ "."%char :: chs (str_Z z).
Proof. unfold ref. rewrite !chs_app. change (chs ".") with ["."%char]. by rewrite <-!app_assoc. Qed.
Lemma no_char c z : is_digit c = false → c ≠ "-"%char → c ∉ chs (str_Z z).
Proof. apply str_Z_free. Qed.
Lemma ref_refers kind z : "."%char ∉ chs kind → refers (ref kind z) z.
Proof.
  intros H. exists (chs ("//@" +:+ kind)), (chs (str_Z z)). split; [apply ref_chs|]. split; [|split; [by apply no_char|apply number_word]]. rewrite chs_app. intros [Hi|Hi]%elem_of_app; [|by apply H]. revert Hi. apply (bool_decide_unpack _). vm_compute. exact I.
Qed.
Lemma ref_word kind z : Forall (λ c, Rst.is_space c = false) (chs kind) → is_word (ref kind z).
Proof.
  intros H. rewrite ref_chs. split; [rewrite chs_app; done|]. rewrite chs_app, !Forall_app. split; [split; [by repeat constructor|exact H]|]. apply List.Forall_cons; [reflexivity|]. apply Forall_forall. intros c Hc. destruct (Rst.is_space c) eqn:E; [|reflexivity]. exfalso. revert Hc. apply str_Z_free.
  + destruct (is_digit c) eqn:D; [|reflexivity]. destruct c as [[] [] [] [] [] [] [] []]; done.
  + intros ->. done.
Qed.
Lemma join_words_in ws : Forall is_word ws → words_in (join_with [" "%char] ws) ws.
Proof.
  induction 1 as [|w ws Hw HF IH]; [apply WI_nil|]. destruct ws as [|v ws]; [by apply WI_last|]. change (join_with [" "%char] (w :: v :: ws)) with (w ++ " "%char :: join_with [" "%char] (v :: ws)). apply WI_word; [exact Hw|reflexivity|exact IH].
Qed.
Lemma refs_words kind l : Forall (λ c, Rst.is_space c = false) (chs kind) → words_in (chs (refs kind l)) (ref kind <$> l).
Proof. intros H. unfold refs. rewrite chs_str. apply join_words_in. apply Forall_fmap, Forall_forall. intros z _. by apply ref_word. Qed.
Lemma refs_refers kind l : "."%char ∉ chs kind → Forall2 refers (ref kind <$> l) l.
Proof. intros H. induction l as [|z l IH]; [exact (List.Forall2_nil _)|]. rewrite fmap_cons. apply List.Forall2_cons; [by apply ref_refers|exact IH]. Qed.
Lemma written_layers tag a ls l : dget "layers" a = Some (refs "layers" l) → layer_list (written tag a ls) l.
Proof.
  intros H. unfold layer_list, written. cbn [x_attrib]. rewrite H. exists (ref "layers" <$> l). split; [apply refs_words; by repeat constructor|]. apply refs_refers. apply (bool_decide_unpack _). vm_compute. exact I.
Qed.
Lemma written_end tag a ls k z : dget k a = Some ("//@nodes." +:+ str_Z z) → ∃ s, has k (written tag a ls) s ∧ refers (chs s) z.
Proof. intros H. exists ("//@nodes." +:+ str_Z z). split; [exact H|]. apply (ref_refers "nodes" z). apply (bool_decide_unpack _). vm_compute. exact I. Qed.
(** indices of layers *)
Lemma number_digits n : chs (str_Z (Z.of_N n)) ≠ [] ∧ Forall (λ c, is_digit c = true) (chs (str_Z (Z.of_N n))) ∧ dec_val (chs (str_Z (Z.of_N n))) = n.
Proof.
  assert (E : str_Z (Z.of_N n) = str_N n) by (destruct n as [|p]; reflexivity). rewrite E. split; [apply str_N_nonempty|]. split; [apply str_N_digits|apply dec_val_str_N].
Qed.
Lemma refs_runs kind (ns : list N) : Forall (λ c, is_digit c = false) (chs kind) → runs_in (chs (refs kind (Z.of_N <$> ns))) ((λ n, chs (str_Z (Z.of_N n))) <$> ns).
Proof.
  intros Hk. unfold refs. rewrite chs_str. assert (HP : Forall (λ c, is_digit c = false) (chs ("//@" +:+ kind) ++ ["."%char])). { rewrite chs_app, !Forall_app. split; [split; [by repeat constructor|exact Hk]|by repeat constructor]. }
  assert (HR : ∀ n, ref kind (Z.of_N n) = (chs ("//@" +:+ kind) ++ ["."%char]) ++ chs (str_Z (Z.of_N n))). { intros n. rewrite ref_chs. by rewrite <-app_assoc. }
  change (λ z, chs ("//@" +:+ kind +:+ "." +:+ str_Z z)) with (ref kind). induction ns as [|n ns IH]; [apply RI_none, List.Forall_nil|]. destruct (number_digits n) as (D1 & D2 & _). destruct ns as [|m ns].
  - cbn [fmap list_fmap join_with]. rewrite HR. by apply RI_last.
  - rewrite !fmap_cons in *. change (join_with [" "%char] (ref kind (Z.of_N n) :: ref kind (Z.of_N m) :: (ref kind <$> (Z.of_N <$> ns)))) with (ref kind (Z.of_N n) ++ " "%char :: join_with [" "%char] (ref kind (Z.of_N m) :: (ref kind <$> (Z.of_N <$> ns)))). rewrite HR, <-app_assoc. apply RI_run; [exact HP|exact D1|exact D2|reflexivity|exact IH].
Qed.
Lemma written_indices x tag a ls k zs : Forall (λ c, is_digit c = false) (chs k) → index_values x k zs → dget k a = Some (refs k zs) → index_values (written tag a ls) k zs.
Proof.
  intros Hk Hx Ha. assert (∃ ns, zs = Z.of_N <$> ns) as [ns ->]. { unfold index_values in Hx. destruct (dget k (x_attrib x)); [destruct Hx as (ws & _ & ->); exists (dec_val <$> ws); by rewrite <-list_fmap_compose|subst zs; by exists []]. }
  unfold index_values, written. cbn [x_attrib]. rewrite Ha. eexists. split; [by apply refs_runs|]. rewrite <-list_fmap_compose. apply list_fmap_ext. intros i n _. destruct (number_digits n) as (_ & _ & E). unfold compose. rewrite E. reflexivity.
Qed.

(** ** Elements *)
Lemma write_read x e : create_class_instance x = Ok e → only_labels x → ∃ y, to_etree e = Ok y ∧ create_class_instance y = Ok e ∧ x_tag y = tag_of_class (se_class e) ∧ x_kids y = label_to_etree <$> se_labels e.
Proof.
  intros (t0 & f & Ht0 & Hf & H)%create_iff HO. assert (TT : ∀ n i t ls, base x n i t ls → t = t0). { intros n i t ls (H1 & _). unfold has in *. congruence. }
  assert (BA : ∀ n i t ls tag a, base x n i t ls → get_annotations (written tag a ls) = get_annotations x). { intros n i t ls tag a (_ & H2 & _). by apply written_annotations. }
  destruct Hf as [t0 Hin| | | | |].
  - apply node_iff in H as (n & i & t & ls & l & d & HB & Hl & Hd & ->). pose proof (TT _ _ _ _ HB) as ->. exists (written "nodes" [(xsi_type, t0); ("layers", refs "layers" l)] ls). split; [reflexivity|]. split; [|done].
    apply create_iff. exists t0, node_from_etree. split; [reflexivity|]. split; [by apply R_node|]. apply node_iff. exists n, i, t0, ls, l, d. split; [by eapply written_base|]. split; [by apply written_layers|]. split; [|reflexivity]. by erewrite BA.
  - apply primary_iff in H as (n & i & t & ls & l & d & s & HB & Hl & Hd & Hs & ->). pose proof (TT _ _ _ _ HB) as ->. eexists (written "nodes" [(xsi_type, _); ("layers", refs "layers" l)] ls). split; [reflexivity|]. split; [|done].
    apply create_iff. eexists _, primary_text_from_etree. split; [reflexivity|]. split; [apply R_text|]. apply primary_iff. eexists n, i, _, ls, l, d, s. split; [by eapply written_base|]. split; [by apply written_layers|]. split; [by erewrite BA|]. split; [exact Hs|reflexivity].
  - apply edge_iff in H as (n & i & t & ls & l & a & b & HB & Hl & He & ->). pose proof (TT _ _ _ _ HB) as ->. eexists (written "edges" [(xsi_type, _); ("source", "//@nodes." +:+ str_Z a); ("target", "//@nodes." +:+ str_Z b); ("layers", refs "layers" l)] ls). split; [reflexivity|]. split; [|done].
    apply create_iff. eexists _, edge_from_etree. split; [reflexivity|]. split; [apply R_spanning|]. apply edge_iff. eexists n, i, _, ls, l, a, b. split; [by eapply written_base|]. split; [by apply written_layers|]. split; [split; by apply written_end|reflexivity].
  - apply textual_iff in H as (n & i & t & ls & l & a & b & on & off & HB & Hl & He & Hon & Hoff & ->). pose proof (TT _ _ _ _ HB) as ->. eexists (written "edges" [(xsi_type, _); ("source", "//@nodes." +:+ str_Z a); ("target", "//@nodes." +:+ str_Z b); ("layers", refs "layers" l)] ls). split; [reflexivity|]. split; [|done].
    apply create_iff. eexists _, textual_from_etree. split; [reflexivity|]. split; [apply R_textual|]. apply textual_iff. eexists n, i, _, ls, l, a, b, on, off. split; [by eapply written_base|]. split; [by apply written_layers|]. split; [split; by apply written_end|]. split; [exact Hon|]. split; [exact Hoff|reflexivity].
  - apply dominance_iff in H as (n & i & t & ls & l & a & b & d & HB & Hl & He & Hd & ->). pose proof (TT _ _ _ _ HB) as ->. eexists (written "edges" [(xsi_type, _); ("source", "//@nodes." +:+ str_Z a); ("target", "//@nodes." +:+ str_Z b); ("layers", refs "layers" l)] ls). split; [reflexivity|]. split; [|done].
    apply create_iff. eexists _, dominance_from_etree. split; [reflexivity|]. split; [apply R_dominance|]. apply dominance_iff. eexists n, i, _, ls, l, a, b, d. split; [by eapply written_base|]. split; [by apply written_layers|]. split; [split; by apply written_end|]. split; [by erewrite BA|reflexivity].
  - apply layer_iff in H as (n & i & t & ls & ns & es & HB & Hn & He & ->). pose proof (TT _ _ _ _ HB) as ->. eexists (written "layers" [(xsi_type, _); ("nodes", refs "nodes" ns); ("edges", refs "edges" es)] ls). split; [reflexivity|]. split; [|done].
    apply create_iff. eexists _, layer_from_etree. split; [reflexivity|]. split; [apply R_layer|]. apply layer_iff. eexists n, i, _, ls, ns, es. split; [by eapply written_base|]. split; [eapply written_indices; [by repeat constructor|exact Hn|reflexivity]|]. split; [eapply written_indices; [by repeat constructor|exact He|reflexivity]|reflexivity].
Qed.

(** ** Documents *)
Lemma leaf_below y ls : x_kids y = label_to_etree <$> ls → below y = label_to_etree <$> ls.
Proof.
  destruct y as [t a o ks tl]. cbn [x_kids]. intros ->. cbn [below x_kids]. induction ls as [|l ls IH]; [reflexivity|]. rewrite !fmap_cons. cbn [concat app]. f_equal. exact IH.
Qed.
Lemma below_flat tag (ys : list xml) : Forall (λ y, ∃ ls, x_kids y = label_to_etree <$> ls) ys → tag ≠ "labels" → filter (λ k, x_tag k = tag) (concat ((λ k, k :: below k) <$> ys)) = filter (λ k, x_tag k = tag) ys.
Proof.
  intros HF Ht. induction HF as [|y ys [ls Hy] HF IH]; [reflexivity|]. rewrite fmap_cons. cbn [concat]. rewrite (leaf_below _ _ Hy). rewrite filter_app, IH. change (y :: (label_to_etree <$> ls)) with ([y] ++ (label_to_etree <$> ls)). rewrite filter_app.
  assert (filter (λ k, x_tag k = tag) (label_to_etree <$> ls) = []) as ->. { clear -Ht. induction ls as [|l ls IH]; [reflexivity|]. rewrite fmap_cons, filter_cons. rewrite decide_False by (intros E; apply Ht; by rewrite <-E). exact IH. }
  rewrite app_nil_r. rewrite <-filter_app. reflexivity.
Qed.
Lemma filter_all tag ys : Forall (λ y, x_tag y = tag) ys → filter (λ k, x_tag k = tag) ys = ys.
Proof. induction 1 as [|y ys H HF IH]; [reflexivity|]. rewrite filter_cons. rewrite decide_True by exact H. by rewrite IH. Qed.
Lemma filter_other tag tag' ys : tag ≠ tag' → Forall (λ y, x_tag y = tag') ys → filter (λ k, x_tag k = tag) ys = [].
Proof. intros Hn. induction 1 as [|y ys H HF IH]; [reflexivity|]. rewrite filter_cons. rewrite decide_False by congruence. exact IH. Qed.
Lemma write_all tag xs es : rmap create_class_instance xs = Ok es → Forall only_labels xs → Forall (λ e, tag_of_class (se_class e) = tag) es →
  ∃ ys, rmap to_etree es = Ok ys ∧ rmap create_class_instance ys = Ok es ∧ Forall (λ y, x_tag y = tag) ys ∧ Forall (λ y, ∃ ls, x_kids y = label_to_etree <$> ls) ys.
Proof.
  intros H%rmap_Ok. induction H as [|x e xs es H HF IH]; intros HO HT; [exists []; repeat split; apply List.Forall_nil|]. apply Forall_cons in HO as [Ho HO]. apply Forall_cons in HT as [Ht HT]. destruct (IH HO HT) as (ys & E1 & E2 & E3 & E4). destruct (write_read _ _ H Ho) as (y & Y1 & Y2 & Y3 & Y4).
  exists (y :: ys). cbn [rmap]. rewrite Y1, Y2. cbn [rbind]. rewrite E1, E2. split; [reflexivity|]. split; [reflexivity|]. split; (apply List.Forall_cons; [|assumption]); [by rewrite Y3|by eexists].
Qed.
Lemma labels_below labs : Forall (λ k, x_tag k = "labels" ∧ x_kids k = []) labs → ∀ tag, tag ≠ "labels" → filter (λ k, x_tag k = tag) (concat ((λ k, k :: below k) <$> labs)) = [].
Proof.
  intros HF tag Ht. induction HF as [|k labs [Hk Hk'] HF IH]; [reflexivity|]. rewrite fmap_cons. cbn [concat]. assert (below k = []) as -> by (destruct k as [? ? ? ks ?]; cbn [x_kids] in Hk'; by subst ks). cbn [app]. rewrite filter_cons. rewrite decide_False by congruence. exact IH.
Qed.
Lemma document_back t d : salt_document t = Ok d → Forall only_labels (tagged_below "nodes" t ++ tagged_below "edges" t ++ tagged_below "layers" t) →
  Forall (λ e, tag_of_class (se_class e) = "nodes") (sd_nodes d) → Forall (λ e, tag_of_class (se_class e) = "edges") (sd_edges d) → Forall (λ e, tag_of_class (se_class e) = "layers") (sd_layers d) →
  ∃ ns es ls, rmap to_etree (sd_nodes d) = Ok ns ∧ rmap to_etree (sd_edges d) = Ok es ∧ rmap to_etree (sd_layers d) = Ok ls ∧
  ∀ root labs l, x_kids root = labs ++ ns ++ es ++ ls → Forall (λ k, x_tag k = "labels" ∧ x_kids k = []) labs → first_such (λ k, has "name" k "id") labs l → has "valueString" l (sd_id d) → salt_document root = Ok d.
Proof.
  intros H HO T1 T2 T3. rewrite !Forall_app in HO. destruct HO as (O1 & O2 & O3). pose proof H as HD. unfold salt_document in H. apply bind_ok in H as (i & Hi & H). apply bind_ok in H as (dn & Hns & H). apply bind_ok in H as (de & Hes & H). apply bind_ok in H as (dl & Hls & H). injection H as <-. cbn [sd_id sd_nodes sd_edges sd_layers] in *.
  rewrite elements_below in Hns, Hes, Hls. destruct (write_all _ _ _ Hns O1 T1) as (ns & N1 & N2 & N3 & N4). destruct (write_all _ _ _ Hes O2 T2) as (es & E1 & E2 & E3 & E4). destruct (write_all _ _ _ Hls O3 T3) as (ls & L1 & L2 & L3 & L4).
  exists ns, es, ls. split; [exact N1|]. split; [exact E1|]. split; [exact L1|]. intros root labs l Hk HL Hl Hv. unfold salt_document.
  assert (get_doc_id root = Ok i) as ->. { apply doc_id_iff. exists l. split; [|exact Hv]. destruct Hl as (p & q & -> & Hl & Hp). unfold labels_of. rewrite Hk, filter_app, filter_all by (eapply Forall_impl; [exact HL|]; intros ? []; done). rewrite <-app_assoc. eexists p, _. split; [reflexivity|done]. }
  cbn [rbind]. unfold get_elements. assert (HG : ∀ tag, tag ≠ "labels" → filter (λ k, x_tag k = tag) (below root) = filter (λ k, x_tag k = tag) ns ++ filter (λ k, x_tag k = tag) es ++ filter (λ k, x_tag k = tag) ls).
  { intros tag Ht. assert (below root = concat ((λ k, k :: below k) <$> x_kids root)) as -> by (destruct root; reflexivity). rewrite Hk, fmap_app, concat_app, filter_app. rewrite labels_below by done. cbn [app]. rewrite below_flat; [|by rewrite !Forall_app|exact Ht]. by rewrite !filter_app. }
  rewrite !HG by done. rewrite (filter_all "nodes" ns N3), (filter_other "nodes" "edges" es), (filter_other "nodes" "layers" ls) by done. rewrite (filter_other "edges" "nodes" ns), (filter_all "edges" es E3), (filter_other "edges" "layers" ls) by done. rewrite (filter_other "layers" "nodes" ns), (filter_other "layers" "edges" es), (filter_all "layers" ls L3) by done.
  rewrite !app_nil_r. cbn [app]. rewrite N2. cbn [rbind]. rewrite E2. cbn [rbind]. rewrite L2. reflexivity.
Qed.
