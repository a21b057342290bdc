(** * DisgraphFacts: reading a .dis file into a document graph *)
From Verif Require Import PyBase DocGraph Relabel StrNum Query Text SpecText Rst Nltk Dis Conano Exb Tiger Disgraph.
From Verif Require Import SpecGraph DocGraphFacts History Effects RelabelFacts GraphThms SpecImport ImportFacts TextFacts NltkFacts AnaphoraFacts ViewFacts SpecQuery SpanFacts Rs3Doc.
From Verif Require UrmlFacts UrmlDoc SpecExportxml ExportxmlFacts ExportxmlElem.
From Verif Require Import SpecDisgraph.
Notation mview := ExportxmlFacts.mview.

Lemma disunit_ind' (P : disunit → Prop) : (∀ s r i t, P (Unit s r i t)) → (∀ s r a b us, Forall P us → P (Span s r a b us)) → ∀ u, P u.
Proof.
  intros H1 H2. fix IH 1. intros [s r i t|s r a b us]; [apply H1|]. apply H2. induction us as [|u us IHu]; [exact (List.Forall_nil _)|]. apply List.Forall_cons; [apply IH|exact IHu].
Qed.
Lemma one_by_one_iff {A B} (R : A → B → Prop) l l' : one_by_one R l l' ↔ Forall2 R l l'.
Proof.
  revert l'. induction l as [|a l IH]; intros [|b l']; cbn [one_by_one].
  - split; [intros _; exact (List.Forall2_nil _)|done].
  - split; [done|intros H; inversion H].
  - split; [done|intros H; inversion H].
  - rewrite IH. split; [intros [H1 H2]; by apply List.Forall2_cons|intros H; by inversion H].
Qed.
Lemma combination_dec u : Decision (combination_ok u).
Proof. unfold combination_ok. apply _. Defined.
Global Existing Instance combination_dec.

(** ** The tree of a unit *)
Section Forms.
  Context (ns : string).
  Definition nm (u : disunit) : string := match u with Unit _ _ i _ => ns +:+ ":" +:+ i | Span _ _ a b _ => ns +:+ ":span:" +:+ a +:+ "-" +:+ b end.
  Lemma name_nm u : name_of ns u = NStr (nm u).
  Proof. by destruct u. Qed.
  Lemma form_id u t : unit_form u t → get_node_id ns t = Ok (nm u).
  Proof. destruct u as [s r i x|s r a b us]; [intros (y & _ & ->); done|intros (ts & _ & ->); done]. Qed.
  Lemma form_type u t : unit_form u t → get_tree_type t = Ok (role_name (is_sat u)).
  Proof. destruct u as [[] r i x|[] r a b us]; [intros (y & _ & ->); done|intros (y & _ & ->); done|intros (ts & _ & ->); done|intros (ts & _ & ->); done]. Qed.
  Lemma leaves_text ms : leaves (NTree "text" (NLeaf <$> ms)) = ms.
  Proof. cbn [leaves]. induction ms as [|m ms IH]; [done|]. rewrite fmap_cons. cbn [leaves]. change (list_fmap _ _ NLeaf ms) with (NLeaf <$> ms) in *. rewrite IH. done. Qed.
  Lemma marked_text_read s t : marked_text s t → get_edu_text t = Ok s.
  Proof.
    intros (ms & -> & HJ & HM & HN). unfold get_edu_text. rewrite decide_True by done. rewrite leaves_text, HJ. do 2 f_equal. unfold re_sub.
    change (chs "_!") with mark in *. replace (mark ++ chs s ++ mark) with (mark ++ chs s ++ mark ++ []) by (by rewrite app_nil_r). rewrite region_scan; [|done|done].
    cbn [scan]. rewrite app_nil_r. apply str_chs.
  Qed.
End Forms.

(** ** What a step does *)
Section Steps.
  Context (ns name : string) (tokenize : bool) (root : nid).
  Record seen (g : graph) (F : list node_info) (E : list edge_info) (T : list nid) : Prop := {
    sn_view : viewed g (mview ns root F E) E;
    sn_ns : g_ns g = ns;
    sn_name : g_name g = name;
    sn_root : g_root g = root;
    sn_toks : g_tokens g = T;
    sn_sents : g_sentences g = [];
  }.
  Definition does (p : dgprog) (P : Prop) F' E' T' : Prop := ∀ g F E T, seen g F E T →
    (P ∧ ∃ g', p g = (g', None) ∧ seen g' (F ++ F') (E ++ E') (T ++ T')) ∨ (¬ P ∧ ∃ g' e, p g = (g', Some e)).
  Lemma does_skip : does (λ g, (g, None)) True [] [] [].
  Proof. intros g F E T H. left. split; [done|]. exists g. rewrite !app_nil_r. done. Qed.
  Lemma does_fail e F E T : does (dg_fail e) False F E T.
  Proof. intros g F' E' T' H. right. split; [by intros []|]. by exists g, e. Qed.
  Lemma does_then p q P Q F1 E1 T1 F2 E2 T2 : does p P F1 E1 T1 → does q Q F2 E2 T2 → does (p >;> q) (P ∧ Q) (F1 ++ F2) (E1 ++ E2) (T1 ++ T2).
  Proof.
    intros Hp Hq g F E T H. unfold dg_then. destruct (Hp g F E T H) as [(HP & g1 & -> & H1)|(HP & g1 & e & ->)].
    - destruct (Hq g1 _ _ _ H1) as [(HQ & g2 & -> & H2)|(HQ & g2 & e & ->)].
      + left. split; [done|]. exists g2. split; [done|]. by rewrite <-!app_assoc in H2.
      + right. split; [by intros [? ?]|]. by exists g2, e.
    - right. split; [by intros [? ?]|]. by exists g1, e.
  Qed.
  Lemma does_iff p P Q F E T F' E' T' : does p P F E T → (P ↔ Q) → (P → F = F' ∧ E = E' ∧ T = T') → does p Q F' E' T'.
  Proof.
    intros Hp HI HE g F0 E0 T0 H. destruct (Hp g _ _ _ H) as [(HP & H1)|(HP & H1)]; [|right; by rewrite <-HI].
    left. destruct (HE HP) as (<- & <- & <-). split; [by rewrite <-HI|done].
  Qed.
  Lemma does_need {A} (r : res A) a k P F E T : r = Ok a → does (k a) P F E T → does (dg_need r k) P F E T.
  Proof. intros -> H. exact H. Qed.
  Lemma does_each {A B} (f : A → dgprog) (P : B → Prop) (F : B → list node_info) (E : B → list edge_info) (T : B → list nid) (bs : list B) (l : list A) :
    Forall2 (λ b a, does (f a) (P b) (F b) (E b) (T b)) bs l → does (dg_each f l) (Forall P bs) (bs ≫= F) (bs ≫= E) (bs ≫= T).
  Proof.
    intros HF. induction HF as [|b a bs l H1 HF IH].
    - eapply does_iff; [apply does_skip| |done]. split; [intros; exact (List.Forall_nil _)|done].
    - eapply does_iff; [|symmetry; apply Forall_cons|].
      + intros g F0 E0 T0 H. pose proof (does_then (f a) (dg_each f l) _ _ _ _ _ _ _ _ H1 IH g F0 E0 T0 H) as HH. unfold dg_then in HH. unfold dg_each. cbn [loop]. exact HH.
      + done.
  Qed.
  Lemma does_node n ad a : (∀ k, k ≠ "layers" → dget k (given_attrs ad []) = dget k a) → does (λ g, add_node g n VNone ad []) True [(n, [], a)] [] [].
  Proof.
    intros Ha g F E T [HV H1 H2 H3 H4 H5]. left. split; [done|].
    assert (EQ : add_node g n VNone ad [] = add_node g n (VSet [ns]) ad []). { unfold add_node, check_layers. cbn [truthy]. by rewrite H1. }
    rewrite EQ. destruct (ExportxmlFacts.s_node ns root g F E n [] ad [] a HV Ha) as (g' & E1 & V1 & (P1 & P2 & P3 & P4 & P5 & P6)).
    exists g'. split; [done|]. rewrite !app_nil_r. split; [done|congruence..].
  Qed.
  Lemma does_edge u v ad attr b : (∀ k, k ≠ "layers" → dget k (given_attrs ad attr) = dget k b) → does (dg_edge u v ad attr) True [] [(NStr u, NStr v, [ns], b)] [].
  Proof.
    intros Hb g F E T [HV H1 H2 H3 H4 H5]. left. split; [done|]. unfold dg_edge.
    destruct (ExportxmlFacts.s_edge ns root g F E (NStr u) (NStr v) VNone [ns] ad attr b HV H1) as (g' & E1 & V1 & (P1 & P2 & P3 & P4 & P5 & P6)); [right; by rewrite H1|done|].
    exists g'. split; [done|]. rewrite !app_nil_r. split; [done|congruence..].
  Qed.
  Lemma does_token t : does (λ g, (set_tokens (g_tokens g ++ [t]) g, None)) True [] [] [t].
  Proof.
    intros g F E T [HV H1 H2 H3 H4 H5]. left. split; [done|]. eexists. split; [done|]. rewrite !app_nil_r. split; cbn; [|congruence..].
    by eapply view_ext with (g := g).
  Qed.
End Steps.

Lemma app_assoc_str (a b c : string) : (a +:+ b) +:+ c = a +:+ (b +:+ c).
Proof. induction a as [|x a IH]; [done|]. change (String x a +:+ b) with (String x (a +:+ b)). change (String x (a +:+ b) +:+ c) with (String x ((a +:+ b) +:+ c)). rewrite IH. done. Qed.
Section Units.
  Context (ns name : string) (tokenize : bool) (root : nid).
  Notation Does p P F E T := (does ns name root p P F E T).
  Notation nm := (nm ns).
  Lemma nm_token i k : NStr ((ns +:+ ":" +:+ i) +:+ "_" +:+ str_Z (Z.of_nat k)) = token_name ns i k.
  Proof. unfold token_name. by rewrite !app_assoc_str. Qed.
  Lemma bind_one {A B} (g : A → B) l : l ≫= (λ x, [g x]) = g <$> l.
  Proof. induction l as [|a l IH]; [done|]. rewrite fmap_cons, <-IH. done. Qed.
  Lemma imap_bind {A B} (f : nat → A → B) l : imap pair l ≫= (λ p, [f p.1 p.2]) = imap f l.
  Proof. rewrite (bind_one (λ p, f p.1 p.2)), fmap_imap. apply imap_ext. done. Qed.
  Lemma does_word (i : string) (p : nat * chars) : Does (add_token ns (ns +:+ ":" +:+ i) p) True [(token_name ns i p.1, [], [(ns +:+ ":token", VStr (str p.2)); ("label", VStr (str p.2))])]
    [(NStr (ns +:+ ":" +:+ i), token_name ns i p.1, [ns], [])] [token_name ns i p.1].
  Proof.
    unfold add_token. rewrite <-nm_token. eapply does_iff; [eapply does_then; [apply does_token|eapply does_then; [apply does_node|apply (does_edge ns name root _ _ None [] [])]]| |].
    - intros k Hk. rewrite ExportxmlElem.ga_some. cbn [app]. reflexivity.
    - intros k Hk. apply ExportxmlElem.ga_none.
    - tauto.
    - done.
  Qed.
  Lemma does_leaf s r i x t ts : marked_text x t → last ts = Some t → Does (parse_leaf ns tokenize (ns +:+ ":" +:+ i) ts) True (about_nodes ns tokenize (Unit s r i x)) (about_edges ns tokenize (Unit s r i x)) (unit_tokens ns tokenize (Unit s r i x)).
  Proof.
    intros Hx Hl. unfold parse_leaf. rewrite Hl. eapply does_need; [by apply marked_text_read|]. unfold about_nodes, about_edges, unit_tokens. destruct tokenize.
    - eapply does_iff; [eapply does_then; [apply does_node|]| |].
      + intros k Hk. rewrite ExportxmlElem.ga_some. cbn [app]. reflexivity.
      + eapply (does_each ns name root) with (P := λ _, True) (bs := imap pair (split_blanks (chs x))) (F := λ p : nat * chars, [(token_name ns i p.1, [], [(ns +:+ ":token", VStr (str p.2)); ("label", VStr (str p.2))])])
          (E := λ p : nat * chars, [(NStr (ns +:+ ":" +:+ i), token_name ns i p.1, [ns], [])]) (T := λ p : nat * chars, [token_name ns i p.1]).
        generalize (imap pair (split_blanks (chs x))) as l. intros l. induction l as [|p l IH]; [exact (List.Forall2_nil _)|]. apply List.Forall2_cons; [|exact IH]. apply does_word.
      + split; [done|]. intros _. split; [done|]. apply Forall_forall. done.
      + intros _. rewrite (imap_bind (λ k w, (token_name ns i k, [], [(ns +:+ ":token", VStr (str w)); ("label", VStr (str w))]) : node_info)).
        rewrite (imap_bind (λ k (w : chars), (NStr (ns +:+ ":" +:+ i), token_name ns i k, [ns], []) : edge_info)), (imap_bind (λ k (w : chars), token_name ns i k)).
        unfold words_of. cbn [text_of]. rewrite !imap_fmap, !fmap_imap. split; [unfold name_of, first_20; rewrite !app_assoc_str; reflexivity|]. split; reflexivity.
    - eapply does_iff; [eapply does_then; [apply does_node|apply does_skip]| |].
      + intros k Hk. rewrite ExportxmlElem.ga_some. cbn [app]. reflexivity.
      + tauto.
      + intros _. unfold name_of, first_20. rewrite !app_assoc_str. done.
  Qed.
  (** *** The edges of a span *)
  Notation forms us ts := (Forall2 unit_form us ts).
  Lemma forms_types us ts : forms us ts → rmap get_tree_type ts = Ok (role_name ∘ is_sat <$> us).
  Proof. intros HF. induction HF as [|u t us ts H1 HF IH]; [done|]. cbn [rmap]. rewrite (form_type u t H1). cbn [rbind]. rewrite IH. done. Qed.
  Definition picked (b : bool) (us : list disunit) : list disunit := filter (λ v, is_sat v = b) us.
  Lemma forms_picked us ts b : forms us ts → Forall2 (λ v (p : string * ntree), unit_form v p.2) (picked b us) (filter (λ p : string * ntree, p.1 = role_name b) (zip (role_name ∘ is_sat <$> us) ts)).
  Proof.
    intros HF. unfold picked. induction HF as [|u t us ts H1 HF IH]; [exact (List.Forall2_nil _)|]. rewrite fmap_cons. cbn [zip zip_with]. rewrite !filter_cons. cbn [fst]. unfold compose at 1.
    destruct (decide (is_sat u = b)) as [<-|Hb]; [rewrite decide_True by done|rewrite decide_False by (unfold compose; destruct (is_sat u), b; cbn; congruence)]; [|exact IH]. apply List.Forall2_cons; [exact H1|exact IH].
  Qed.
  Lemma picked_length us : length us = length (picked true us) + length (picked false us).
  Proof. unfold picked. induction us as [|u us IH]; [done|]. rewrite !filter_cons. destruct (is_sat u); repeat case_decide; try congruence; cbn [length]; lia. Qed.
  Lemma picked_all us : picked true us = [] → picked false us = us.
  Proof.
    unfold picked. induction us as [|u us IH]; [done|]. rewrite !filter_cons. destruct (is_sat u) eqn:Eu; repeat case_decide; try congruence. intros H'. by rewrite IH.
  Qed.
  Lemma no_root us : "Root" ∉ (role_name ∘ is_sat <$> us : list string).
  Proof. intros H. apply elem_of_list_fmap in H as (u & Hu & _). unfold compose in Hu. by destruct (is_sat u). Qed.
  Definition span_links (sat : bool) (i rel : string) (us : list disunit) : list edge_info :=
    match picked true us, picked false us with
    | [], nucs => (λ v, related ns (NStr i) (name_of ns v) rel None) <$> nucs
    | s :: _, [] => [related ns (NStr i) (name_of ns s) rel (Some "dominates")]
    | s :: _, n :: _ => [related ns (NStr i) (name_of ns n) "span" (Some "spans"); related ns (name_of ns n) (name_of ns s) rel (Some "dominates")]
    end.
  Definition parts_ok (sat : bool) (us : list disunit) : Prop :=
    length (picked true us) = 0 ∨ (length (picked true us) = 1 ∧ (length (picked false us) = 1 ∨ (length (picked false us) = 0 ∧ sat = false))).
  Lemma does_related u v rel ty : Does (dg_edge u v (Some [(ns +:+ ":rel_type", VStr rel)]) [("edge_type", VStr ty)]) True [] [related ns (NStr u) (NStr v) rel (Some ty)] [].
  Proof.
    apply does_edge. intros k Hk. rewrite ExportxmlElem.ga_some. reflexivity.
  Qed.
  Lemma does_rel u v rel : Does (dg_edge u v (Some [(ns +:+ ":rel_type", VStr rel)]) []) True [] [related ns (NStr u) (NStr v) rel None] [].
  Proof. apply does_edge. intros k Hk. rewrite ExportxmlElem.ga_some. reflexivity. Qed.
  Lemma bind_nil {A B} (l : list A) : (l ≫= λ _, []) = ([] : list B).
  Proof. induction l as [|a l IH]; [done|]. exact IH. Qed.
  Lemma does_span_edges sat i rel us ts : forms us ts → Does (span_edges ns (role_name sat) i (VStr rel) ts) (parts_ok sat us) [] (span_links sat i rel us) [].
  Proof.
    intros HF. unfold span_edges. eapply does_need; [by apply forms_types|]. rewrite (decide_False (P := _ ∈ _)) by apply no_root.
    pose proof (forms_picked us ts true HF) as HS. pose proof (forms_picked us ts false HF) as HN. cbn [role_name] in HS, HN. cbv zeta.
    pose proof (Forall2_length _ _ _ HF) as HL. rewrite picked_length in HL. pose proof (picked_all us) as HA. unfold parts_ok, span_links.
    remember (picked true us) as PS eqn:EPS. destruct HS as [|s [tys st] ss sts Hs HS]; cbn [snd] in *.
    - eapply does_iff.
      + eapply (does_each ns name root) with (P := λ _, True) (bs := us) (F := λ _, []) (E := λ v, [related ns (NStr i) (name_of ns v) rel None]) (T := λ _, []).
        eapply Forall2_impl; [exact HF|]. intros u t Hu. eapply does_need; [by apply form_id|]. rewrite name_nm. apply does_rel.
      + cbn [length]. split; [by left|]. intros _. apply Forall_forall. done.
      + intros _. rewrite !bind_nil, bind_one, HA by done. done.
    - destruct HS as [|s' [tys' st'] ss sts Hs' HS]; cbn [length] in HL; cbn [length].
      + destruct ts as [|t1 [|t2 ts]]; cbn [length] in HL; [lia| |].
        * (* a satellite alone *)
          assert (HN0 : picked false us = []) by (destruct (picked false us); [done|cbn [length] in HL; lia]). rewrite HN0. cbn [length].
          inversion HF as [|u1 t1' us1 ts1 Hu1 HF1]; subst. inversion HF1; subst. clear HF1.
          assert (s = u1) as ->. { unfold picked in EPS. rewrite filter_cons in EPS. case_decide; [by injection EPS|done]. }
          destruct sat; cbn [role_name].
          -- rewrite decide_False by done. eapply does_iff; [apply (does_fail ns name root _ [] [] [])| |done]. split; [done|]. intros [?|[_ [?|[_ ?]]]]; done.
          -- rewrite decide_True by done. eapply does_iff; [eapply does_need; [by apply form_id|]; apply does_related| |].
             ++ split; [|done]. intros _. right. split; [done|]. by right.
             ++ intros _. by rewrite name_nm.
        * destruct HN as [|n [tyn nt] nn nts Hn HN]; [cbn [length] in HL; lia|]. cbn [snd] in *. destruct HN as [|n2 [tyn2 nt2] nn nts Hn2 HN]; cbn [length] in *.
          -- eapply does_iff; [eapply does_need; [by apply form_id|]; eapply does_need; [by apply form_id|]; eapply does_then; apply does_related| |].
             ++ split; [|done]. intros _. right. split; [done|]. by left.
             ++ intros _. by rewrite !name_nm.
          -- eapply does_iff; [apply (does_fail ns name root _ [] [] [])| |done]. split; [done|]. lia.
      + eapply does_iff; [apply (does_fail ns name root _ [] [] [])| |done]. split; [done|]. lia.
  Qed.
  (** *** Units *)
  Lemma bind_bind {A B C} (l : list A) (f : A → list B) (g : B → list C) : (l ≫= f) ≫= g = l ≫= (λ a, f a ≫= g).
  Proof. induction l as [|a l IH]; [done|]. cbn [mbind list_bind]. rewrite <-IH. apply bind_app. Qed.
  Lemma Forall_bind {A B} (P : B → Prop) (l : list A) (f : A → list B) : Forall P (l ≫= f) ↔ Forall (λ a, Forall P (f a)) l.
  Proof. induction l as [|a l IH]; [split; intros; exact (List.Forall_nil _)|]. cbn [mbind list_bind]. rewrite Forall_app, Forall_cons. by rewrite <-IH. Qed.
  Lemma concat_fmap {A B} (f : A → list B) l : concat (f <$> l) = l ≫= f.
  Proof. induction l as [|a l IH]; [done|]. rewrite fmap_cons. cbn [concat mbind list_bind]. by rewrite IH. Qed.
  Lemma read_inside_parts u : read_inside u = u :: (parts_read u ≫= read_inside).
  Proof. destruct u as [s r i x|s r a b [|v us]]; [done|done|]. cbn [read_inside parts_read tail]. rewrite fmap_cons. cbn [tail]. by rewrite concat_fmap. Qed.
  Lemma role_types b : role_name b ∈ tree_types.
  Proof. destruct b; [right; right; left|right; left]. Qed.
  Lemma role_root b : role_name b ≠ "Root".
  Proof. by destruct b. Qed.
  Lemma unit_ok_leaf s r i x : combination_ok (Unit s r i x).
  Proof. by left. Qed.
  Definition all_tokens (us : list disunit) : list nid := u ← us; unit_tokens ns tokenize u.
  Lemma does_parse u : ∀ t, unit_form u t → Does (parse_dis_tree ns tokenize t) (Forall combination_ok (read_inside u)) (facts ns tokenize (read_inside u)) (links ns tokenize (read_inside u)) (all_tokens (read_inside u)).
  Proof.
    induction u as [s r i x|s r a b us IH] using disunit_ind'; intros t Ht.
    - pose proof (form_id ns _ _ Ht) as HI. destruct Ht as (y & Hy & ->). cbn [parse_dis_tree]. rewrite decide_True by apply role_types. eapply does_need; [exact HI|]. rewrite decide_False by apply role_root.
      eapply does_need; [reflexivity|]. eapply does_need; [reflexivity|]. cbv beta iota. eapply does_iff; [by apply (does_leaf s r i x y)| |].
      + split; [|done]. intros _. apply List.Forall_cons; [apply unit_ok_leaf|exact (List.Forall_nil _)].
      + intros _. unfold facts, links, all_tokens. cbn [read_inside mbind list_bind]. by rewrite !app_nil_r.
    - pose proof (form_id ns _ _ Ht) as HI. destruct Ht as (ts & HF & ->). fold (one_by_one unit_form us ts) in HF. apply one_by_one_iff in HF. rewrite read_inside_parts. cbn [parts_read].
      cbn [parse_dis_tree]. rewrite decide_True by apply role_types. eapply does_need; [exact HI|]. rewrite decide_False by apply role_root.
      eapply does_need; [reflexivity|]. eapply does_need; [reflexivity|]. cbv beta iota.
      assert (HN : Does (λ g, add_node g (NStr (nm (Span s r a b us))) VNone (Some [(ns +:+ ":rel_type", VStr r); (ns +:+ ":node_type", VStr "span")]) []) True (about_nodes ns tokenize (Span s r a b us)) [] []).
      { unfold about_nodes. rewrite name_nm. apply does_node. intros k Hk. rewrite ExportxmlElem.ga_some. reflexivity. }
      destruct HF as [|u0 t0 us ts H0 HF].
      + eapply does_iff; [eapply does_then; [exact HN|]; apply (does_span_edges s _ r [] []); exact (List.Forall2_nil _)| |].
        * split; [|intros _; split; [done|by left]]. intros _. apply List.Forall_cons; [by left|exact (List.Forall_nil _)].
        * intros _. unfold facts, links, all_tokens. cbn [tail mbind list_bind unit_tokens]. rewrite !app_nil_r. done.
      + apply Forall_cons in IH as [_ IH]. cbn [tail]. eapply does_iff.
        * eapply does_then; [exact HN|]. eapply does_then; [apply (does_span_edges s _ r us ts HF)|].
          eapply (does_each ns name root) with (P := λ u, Forall combination_ok (read_inside u)) (bs := us) (F := λ u, facts ns tokenize (read_inside u)) (E := λ u, links ns tokenize (read_inside u)) (T := λ u, all_tokens (read_inside u)).
          clear HI HN H0 u0 t0. induction HF as [|u t us ts H1 HF IHF]; [exact (List.Forall2_nil _)|]. apply Forall_cons in IH as [IHu IH]. apply List.Forall2_cons; [by apply IHu|by apply IHF].
        * rewrite Forall_cons, Forall_bind. unfold combination_ok at 2. cbn [parts_read tail is_sat]. unfold parts_ok, picked. tauto.
        * intros _. unfold facts, links, all_tokens. cbn [mbind list_bind]. rewrite !bind_bind. done.
  Qed.
End Units.

