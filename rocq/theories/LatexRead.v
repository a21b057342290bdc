(** * LatexRead: all trees; reading figures *)
From Verif Require Import PyBase DocGraph Relabel StrNum Query Text Rst Nltk Parsers Latex SpecLatex TextFacts SpanFacts LatexFacts LatexTree.

Section rtree_ind.
  Context (P : rtree → Prop).
  Context (H1 : ∀ s, P (REdu s)) (H2 : ∀ rel b n s, P n → P s → P (RMono rel b n s)).
  Context (H3 : ∀ rel l, Forall P l → P (RMulti rel l)) (H4 : ∀ n l, P n → Forall (λ p, P p.2) l → P (RBundle n l)).
  Fixpoint rtree_ind' (r : rtree) : P r :=
    match r with
    | REdu s => H1 s
    | RMono rel b n s => H2 rel b n s (rtree_ind' n) (rtree_ind' s)
    | RMulti rel l => H3 rel l ((fix go l : Forall P l := match l with [] => List.Forall_nil _ | c :: l => List.Forall_cons _ _ _ (rtree_ind' c) (go l) end) l)
    | RBundle n l => H4 n l (rtree_ind' n) ((fix go l : Forall (λ p, P p.2) l := match l with [] => List.Forall_nil _ | p :: l => List.Forall_cons _ _ _ (rtree_ind' p.2) (go l) end) l)
    end.
End rtree_ind.
Section fig_ind.
  Context (P : fig → Prop).
  Context (H1 : ∀ t, P (Seg t)) (H2 : ∀ b n a, Forall (λ p, P p.2) b → P n → Forall (λ p, P p.2) a → P (Dir b n a)) (H3 : ∀ rel l, Forall P l → P (Mul rel l)).
  Fixpoint fig_ind' (f : fig) : P f :=
    let go := fix go l : Forall (λ p, P p.2) l := match l with [] => List.Forall_nil _ | p :: l => List.Forall_cons _ _ _ (fig_ind' p.2) (go l) end in
    match f with
    | Seg t => H1 t
    | Dir b n a => H2 b n a (go b) (fig_ind' n) (go a)
    | Mul rel l => H3 rel l ((fix go l : Forall P l := match l with [] => List.Forall_nil _ | c :: l => List.Forall_cons _ _ _ (fig_ind' c) (go l) end) l)
    end.
End fig_ind.
Lemma go_Forall {A} (Q : A → Prop) l : (fix go l := match l with [] => True | c :: l => Q c ∧ go l end) l ↔ Forall Q l.
Proof. induction l as [|x l IH]; [split; [intros; apply List.Forall_nil|done]|]. rewrite IH. by rewrite Forall_cons. Qed.
Lemma tree_draws r : drawable r → draws (to_tree r) (figure r).
Proof.
  induction r as [s|rel b n s IHn IHs|rel l IH|n l IHn IH] using rtree_ind'; intros HD.
  - intros lvl. exists (words_of s). split; [done|]. unfold drawn. by rewrite element_edu.
  - cbn [drawable] in HD. destruct HD as (Hr & Hm & Hn & Hs). cbn [to_tree figure]. exact (pair_draws rel b _ _ _ _ Hr Hm (IHn Hn) (IHs Hs)).
  - cbn [drawable] in HD. destruct HD as (Hr & Hne & Hl). rewrite (go_Forall drawable l) in Hl.
    pose proof (multi_draws rel (map (λ c, (to_tree c, figure c)) l) Hr) as K. rewrite !map_map in K. apply K; [by destruct l|].
    clear -Hl IH. induction Hl as [|c l Hc _ IH']; [apply List.Forall_nil|]. apply Forall_cons in IH as [IHc IH]. apply List.Forall_cons; [exact (IHc Hc)|exact (IH' IH)].
  - cbn [drawable] in HD. destruct HD as (Hlen & HS & Hf & Hn & Hl). rewrite (go_Forall (λ p, (p.1.1.1 = "N" ∨ p.1.1.1 = "S") ∧ relname_ok p.1.1.2 ∧ p.1.1.2 ≠ "MONONUC-MULTISAT" ∧ drawable p.2) l) in Hl.
    set (h := λ p : sat_spec, ((p.1, (to_tree p.2, figure p.2)) : sat_in)).
    pose proof (bundle_draws (to_tree n) (figure n) (h <$> l)) as K. rewrite fmap_length in K. specialize (K Hlen).
    rewrite <-list_fmap_compose in K. specialize (K HS).
    assert (E1 : map (bundle_kid (to_tree n)) (h <$> l) = map (λ p, NTree p.1.1.1 [pair_tree p.1.1.2 p.1.2 (to_tree n) (to_tree p.2)]) l) by (clear; induction l as [|p l IH]; [done|]; rewrite fmap_cons; cbn [map]; by rewrite IH).
    rewrite E1 in K.
    assert (E2 : ∀ b, sat_figs b (h <$> l) = (filter (λ p, p.1 = b) (map (λ p : sat_spec, (p.1.2, (p.1.1.2, figure p.2))) l)).*2).
    { clear. intros b. unfold sat_figs. induction l as [|p l IH]; [done|]. rewrite fmap_cons. cbn [map]. destruct (decide (p.1.2 = b)) as [E|E].
      - rewrite filter_cons_True by done. rewrite (filter_cons_True (λ p : bool * (string * fig), p.1 = b)) by done. rewrite !fmap_cons. by rewrite IH.
      - rewrite filter_cons_False by done. rewrite (filter_cons_False (λ p : bool * (string * fig), p.1 = b)) by done. exact IH. }
    rewrite !E2 in K. apply K.
    + intros p Hp Hb. apply elem_of_list_fmap in Hp as (p0 & -> & Hp0). specialize (Hf p0 Hp0 Hb). destruct l; [done|]. exact Hf.
    + exact (IHn Hn).
    + clear -Hl IH. induction Hl as [|p l Hp _ IH']; [apply List.Forall_nil|]. apply Forall_cons in IH as [IHp IH]. rewrite fmap_cons. apply List.Forall_cons; [|exact (IH' IH)].
      destruct Hp as (H1 & H2 & H3 & H4). split; [exact H1|]. split; [exact H2|]. split; [exact H3|]. exact (IHp H4).
Qed.
Lemma out_not_edu r lvl out : is_relation r → drawable r → rsttree2rstlatex (to_tree r) lvl = Ok out → element out = out.
Proof.
  intros Hr HD E. unfold element. replace (is_edu_segment out) with false; [done|]. symmetry.
  assert (Hns : ∃ l ts, to_tree r = NTree l ts ∧ ¬ is_ns l).
  { destruct r as [|rel b|rel l|]; [done|..]; cbn [drawable] in HD; cbn [to_tree]; unfold pair_tree; eexists _, _; (split; [reflexivity|]);
      [destruct HD as ([? ?] & _)|destruct HD as ([? ?] & _)|]; intros [|]; done. }
  destruct Hns as (l & ts & Et & Hl). rewrite Et in E. rewrite latex_eq in E by done. destruct (rmap type_of ts) as [types|]; [|done]. cbn [rbind] in E.
  destruct (rmap _ (concat (map (subs_of lvl) ts))) as [strings|]; [|done]. cbn [rbind] in E. unfold relation_out in E. destruct (decide _).
  { injection E as <-. apply multirel_out. }
  destruct (decide _).
  { destruct (rmap nlabel _); [|done]. destruct (rmap kid_labels _); [|done]. destruct (rmap _ (concat _)); [|done]. cbn [rbind] in E. unfold make_multisat in E.
    destruct (decide _); [|done]. destruct (zip _ _) as [|[[rel tys] els] rest]; [done|]. destruct (index_N tys); [|done]. cbn [of_option rbind] in E. injection E as <-. apply dirrel_out. }
  destruct (decide _); [|done]. unfold make_nucsat in E. destruct (decide _); [|done]. destruct (decide _); [|done]. cbn [rbind] in E. injection E as <-. apply dirrel_out.
Qed.
Lemma write_ok r : is_relation r → drawable r → ∃ out, write_rstlatex (to_tree r) = Ok out ∧ solid out = solid (tex (figure r)).
Proof.
  intros Hr HD. destruct (tree_draws r HD 0) as (out & E & D). exists out. split; [exact E|]. unfold drawn in D. by rewrite (out_not_edu r 0 out Hr HD E) in D.
Qed.

(** ** Figures can be read in one way *)
Lemma plain_split a b x y : brace_free a → brace_free b → a ++ "}"%char :: x = b ++ "}"%char :: y → a = b ∧ x = y.
Proof.
  intros [_ Ha] [_ Hb] E. revert b Hb E. induction a as [|c a IH]; intros [|d b] Hb E.
  - injection E as ->. done.
  - injection E as <- _. destruct Hb. left.
  - injection E as -> _. destruct Ha. left.
  - injection E as -> E. destruct (IH ltac:(intros ?; apply Ha; by right) b ltac:(intros ?; apply Hb; by right) E) as [-> ->]. done.
Qed.
Lemma braces_app s x : braces s ++ x = "{"%char :: s ++ "}"%char :: x.
Proof. unfold braces. cbn [app]. by rewrite <-(assoc_L (++)). Qed.
(** what may follow a figure: nothing or a closing brace *)
Definition stops (x : list ascii) : Prop := match x with [] => True | c :: _ => c = "}"%char end.
Definition sats_tex (l : list (string * fig)) : chars := concat (map (λ p, braces (chs p.1) ++ braces (tex p.2)) l).
Definition nucs_tex (l : list fig) : chars := concat (map (λ c, braces (tex c)) l).
Definition reads (f1 : fig) : Prop := ∀ f2 x y, plain_fig f1 → plain_fig f2 → tex f1 ++ "}"%char :: x = tex f2 ++ "}"%char :: y → f1 = f2 ∧ x = y.
Definition plain_sat (p : string * fig) : Prop := p.1 ≠ "" ∧ plain_text (chs p.1) ∧ plain_fig p.2.
Lemma read_nucs l1 l2 x y : Forall reads l1 → Forall plain_fig l1 → Forall plain_fig l2 → stops x → stops y →
  nucs_tex l1 ++ x = nucs_tex l2 ++ y → l1 = l2 ∧ x = y.
Proof.
  intros H. revert l2. induction H as [|f1 l1 Hf H IH]; intros [|f2 l2] P1 P2 Hx Hy E; unfold nucs_tex in *; cbn [map concat app] in E.
  - done.
  - rewrite <-(assoc_L (++)), braces_app in E. destruct x; [done|]. cbn in Hx. subst. done.
  - rewrite <-(assoc_L (++)), braces_app in E. destruct y; [done|]. cbn in Hy. subst. done.
  - rewrite <-!(assoc_L (++)), !braces_app in E. injection E as E. apply Forall_cons in P1 as [? ?], P2 as [? ?]. apply Hf in E as [-> E]; [|done|done]. apply IH in E as [-> ->]; done.
Qed.
Lemma chs_inj a b : chs a = chs b → a = b.
Proof. intros E. rewrite <-(str_chs a), <-(str_chs b). by rewrite E. Qed.
(** satellites, up to the nucleus or the end *)
Lemma read_sats l1 l2 x y : Forall (λ p, reads p.2) l1 → Forall plain_sat l1 → Forall plain_sat l2 →
  (stops x ∨ ∃ z, x = braces [] ++ z) → (stops y ∨ ∃ z, y = braces [] ++ z) → sats_tex l1 ++ x = sats_tex l2 ++ y → l1 = l2 ∧ x = y.
Proof.
  assert (Hno : ∀ (p : string * fig) (z x : list ascii), plain_sat p → (stops x ∨ ∃ z, x = braces [] ++ z) → x = braces (chs p.1) ++ z → False).
  { clear. intros p z x (Hne & [[_ Hb] _] & _) [Hs|[w ->]] E.
    - rewrite braces_app in E. subst x. cbn in Hs. done.
    - rewrite !braces_app in E. injection E as E. cbn [app] in E. destruct (chs p.1) as [|c s] eqn:Ep.
      + apply Hne. by apply chs_inj.
      + injection E as <- _. destruct Hb. left. }
  intros H. revert l2. induction H as [|p1 l1 Hf H IH]; intros [|p2 l2] P1 P2 Hx Hy E; unfold sats_tex in *; cbn [map concat app] in E.
  - done.
  - rewrite <-!(assoc_L (++)) in E. apply Forall_cons in P2 as [P2 _]. destruct (Hno p2 _ x P2 Hx E).
  - rewrite <-!(assoc_L (++)) in E. apply Forall_cons in P1 as [P1 _]. destruct (Hno p1 _ y P1 Hy (eq_sym E)).
  - rewrite <-!(assoc_L (++)), !braces_app in E. injection E as E. apply Forall_cons in P1 as [(N1 & [B1 _] & F1) P1], P2 as [(N2 & [B2 _] & F2) P2].
    apply plain_split in E as [E1 E]; [|done|done]. injection E as E. apply Hf in E as [E2 E]; [|done|done]. apply IH in E as [-> ->]; [|done..].
    destruct p1, p2; cbn [fst snd] in *. apply chs_inj in E1. by subst.
Qed.
Lemma fig_reads f : reads f.
Proof.
  induction f as [t|b n a IHb IHn IHa|rel l IH] using fig_ind'; intros f2 x y P1 P2 E.
  - destruct f2 as [t2|b2 n2 a2|rel2 l2]; [|done|done]. cbn [tex] in E. rewrite <-!(assoc_L (++)) in E. apply app_inv_head in E. rewrite !braces_app in E. injection E as E.
    cbn [plain_fig] in P1, P2. destruct P1 as [P1 _], P2 as [P2 _]. apply plain_split in E as [-> E]; [|done|done]. injection E as ->. done.
  - destruct f2 as [t2|b2 n2 a2|rel2 l2]; [done| |done]. cbn [plain_fig] in P1, P2. destruct P1 as (Pb & Pn & Pa), P2 as (Pb2 & Pn2 & Pa2).
    rewrite (go_Forall plain_sat b) in Pb. rewrite (go_Forall plain_sat a) in Pa. rewrite (go_Forall plain_sat b2) in Pb2. rewrite (go_Forall plain_sat a2) in Pa2.
    cbn [tex] in E. rewrite <-!(assoc_L (++)) in E. apply app_inv_head in E. change (concat (map _ ?l)) with (sats_tex l) in E.
    apply read_sats in E as [-> E]; [|done|done|done|right; by eexists|right; by eexists]. rewrite !braces_app in E. injection E as E. apply IHn in E as [-> E]; [|done|done].
    apply read_sats in E as [-> E]; [|done|done|done|by left|by left]. by injection E as ->.
  - destruct f2 as [t2|b2 n2 a2|rel2 l2]; [done|done|]. cbn [plain_fig] in P1, P2. destruct P1 as ([Br _] & Pl), P2 as ([Br2 _] & Pl2).
    rewrite (go_Forall plain_fig l) in Pl. rewrite (go_Forall plain_fig l2) in Pl2.
    cbn [tex] in E. rewrite <-!(assoc_L (++)) in E. apply app_inv_head in E. rewrite !braces_app in E. injection E as E. apply plain_split in E as [E1 E]; [|done|done].
    apply read_nucs in E as [-> E]; [|done..]. apply chs_inj in E1. subst. by injection E as ->.
Qed.
Lemma tex_unique f1 f2 : plain_fig f1 → plain_fig f2 → tex f1 = tex f2 → f1 = f2.
Proof. intros H1 H2 E. destruct (fig_reads f1 f2 [] [] H1 H2) as [-> _]; [by rewrite E|done]. Qed.
Lemma solid_plain s : "010"%char ∉ s → "009"%char ∉ s → solid s = s.
Proof.
  intros H1 H2. unfold solid. induction s as [|c s IH]; [done|]. rewrite filter_cons_True.
  - f_equal. apply IH; intros ?; [apply H1|apply H2]; by right.
  - split; intros ->; [apply H1|apply H2]; left.
Qed.
Lemma solid_braces' s : solid (braces s) = braces (solid s).
Proof. exact (solid_braces s). Qed.
Lemma solid_tex f : plain_fig f → solid (tex f) = tex f.
Proof.
  assert (Hsat : ∀ l, Forall (λ p : string * fig, plain_fig p.2 → solid (tex p.2) = tex p.2) l → Forall plain_sat l → solid (sats_tex l) = sats_tex l).
  { intros l H. induction H as [|p l Hp _ IH]; intros HP; [done|]. apply Forall_cons in HP as [(_ & [_ [N1 N2]] & Pp) HP]. unfold sats_tex in *. cbn [map concat].
    rewrite !solid_app, !solid_braces', (IH HP), (Hp Pp), (solid_plain (chs p.1)) by done. reflexivity. }
  induction f as [t|b n a IHb IHn IHa|rel l IH] using fig_ind'; intros HP; cbn [plain_fig] in HP; cbn [tex].
  - destruct HP as [_ [N1 N2]]. rewrite solid_app, solid_braces', (solid_plain t) by done. reflexivity.
  - destruct HP as (Pb & Pn & Pa). rewrite (go_Forall plain_sat b) in Pb. rewrite (go_Forall plain_sat a) in Pa. change (concat (map _ ?l)) with (sats_tex l).
    rewrite !solid_app, !solid_braces'. rewrite (Hsat b IHb Pb), (Hsat a IHa Pa), (IHn Pn). reflexivity.
  - destruct HP as ([_ [N1 N2]] & Pl). rewrite (go_Forall plain_fig l) in Pl. rewrite !solid_app, !solid_braces', (solid_plain (chs rel)) by done. f_equal. f_equal.
    clear -IH Pl. induction IH as [|f l Hf _ IH]; [done|]. apply Forall_cons in Pl as [Pf Pl]. cbn [map concat]. rewrite solid_app, solid_braces', (Hf Pf), (IH Pl). done.
Qed.

(** ** Braces *)
Lemma depth_app n a b : depth n (a ++ b) = m ← depth n a; depth m b.
Proof.
  revert n. induction a as [|c a IH]; intros n; [done|]. cbn [app depth]. destruct (decide _); [apply IH|]. destruct (decide _); [|apply IH]. destruct n; [done|apply IH].
Qed.
Lemma depth_more a n m k : depth n a = Some m → depth (n + k) a = Some (m + k).
Proof.
  revert n. induction a as [|c a IH]; intros n; [by intros [= ->]|]. cbn [depth]. destruct (decide _); [apply (IH (S n))|]. destruct (decide _); [|apply IH].
  destruct n; [done|]. cbn [Nat.add]. apply IH.
Qed.
Lemma balanced_at a n : balanced a → depth n a = Some n.
Proof. intros H. exact (depth_more a 0 0 n H). Qed.
Lemma balanced_app a b : balanced a → balanced b → balanced (a ++ b).
Proof. intros Ha Hb. unfold balanced. rewrite depth_app, Ha. exact Hb. Qed.
Lemma balanced_braces a : balanced a → balanced (braces a).
Proof. intros Ha. unfold balanced, braces. cbn [depth]. rewrite decide_True by done. by rewrite depth_app, (balanced_at a 1 Ha). Qed.
Lemma depth_solid s n : depth n (solid s) = depth n s.
Proof.
  revert n. induction s as [|c s IH]; intros n; [done|]. unfold solid in *. destruct (decide (c ≠ "010"%char ∧ c ≠ "009"%char)) as [Hc|Hc].
  - rewrite filter_cons_True by done. cbn [depth]. destruct (decide _); [apply IH|]. destruct (decide _); [|apply IH]. destruct n; [done|apply IH].
  - rewrite filter_cons_False by done. cbn [depth]. rewrite decide_False, decide_False; [apply IH|intros ->; by destruct Hc|intros ->; by destruct Hc].
Qed.
Lemma balanced_concat ls : Forall balanced ls → balanced (concat ls).
Proof. induction 1; [done|]. by apply balanced_app. Qed.
(** the words of a text have its braces *)
Lemma depth_words s n : depth n (join_words (split_blanks s)) = depth n s.
Proof.
  assert (Hb : ∀ c n s, Rst.is_space c = true → depth n (c :: s) = depth n s).
  { intros c n' s' Hc. cbn [depth]. unfold Rst.is_space in Hc. apply bool_decide_eq_true in Hc. rewrite !elem_of_cons in Hc.
    rewrite decide_False, decide_False; [done|..]; intros ->; destruct Hc as [|[|[|[|[|[|Hc]]]]]]; try done; by apply elem_of_nil in Hc. }
  assert (Hc : ∀ c n (s1 s2 : list ascii), (∀ n, depth n s1 = depth n s2) → depth n (c :: s1) = depth n (c :: s2)).
  { intros c n' s1 s2 E. cbn [depth]. destruct (decide _); [apply E|]. destruct (decide _); [|apply E]. destruct n'; [done|apply E]. }
  revert n. induction s as [|c s IH]; intros n; [done|]. cbn [split_blanks]. destruct (Rst.is_space c) eqn:Ec; [rewrite Hb by done; apply IH|].
  destruct s as [|d s]; [done|]. destruct (Rst.is_space d) eqn:Ed.
  - destruct (split_blanks (d :: s)) as [|w ws] eqn:E.
    + cbn [join_words]. apply Hc. exact IH.
    + change (join_words ([c] :: w :: ws)) with (c :: " "%char :: join_words (w :: ws)). apply Hc. intros m. rewrite Hb by done. apply IH.
  - destruct (split_blanks (d :: s)) as [|w ws] eqn:E; [cbn [join_words]; apply Hc; exact IH|].
    replace (join_words ((c :: w) :: ws)) with (c :: join_words (w :: ws)) by (by destruct ws). apply Hc. exact IH.
Qed.
Lemma figure_balanced r : balanced_parts r → balanced (tex (figure r)).
Proof.
  induction r as [s|rel b n s IHn IHs|rel l IH|n l IHn IH] using rtree_ind'; intros HB; cbn [balanced_parts] in HB.
  - cbn [figure tex]. apply balanced_app; [done|]. apply balanced_braces. unfold balanced, words_of. rewrite depth_words. exact HB.
  - destruct HB as (Hr & Hn & Hs). cbn [figure]. destruct b; cbn [tex map concat]; rewrite ?app_nil_r; cbn [app]; repeat apply balanced_app; repeat apply balanced_braces; auto; done.
  - destruct HB as (Hr & Hl). rewrite (go_Forall balanced_parts l) in Hl. cbn [figure tex]. apply balanced_app; [done|]. apply balanced_app; [by apply balanced_braces|].
    apply balanced_concat. clear -IH Hl. induction IH as [|c l Hc _ IH]; [apply List.Forall_nil|]. apply Forall_cons in Hl as [Hcb Hl]. cbn [map].
    apply List.Forall_cons; [by apply balanced_braces, Hc|by apply IH].
  - destruct HB as (Hn & Hl). rewrite (go_Forall (λ p, balanced (chs p.1.1.2) ∧ balanced_parts p.2) l) in Hl. cbn [figure tex].
    assert (Hs : ∀ b, balanced (concat (map (λ p : string * fig, braces (chs p.1) ++ braces (tex p.2)) (filter (λ p : bool * (string * fig), p.1 = b) (map (λ p : sat_spec, (p.1.2, (p.1.1.2, figure p.2))) l)).*2))).
    { intros b. apply balanced_concat. apply Forall_forall. intros x Hx. apply elem_of_list_In, in_map_iff in Hx as (p & <- & Hp). apply elem_of_list_In, elem_of_list_fmap in Hp as (q & -> & Hq).
      apply elem_of_list_filter in Hq as [_ Hq]. apply elem_of_list_In, in_map_iff in Hq as (s & <- & Hin). apply elem_of_list_In in Hin. cbn [fst snd].
      rewrite Forall_forall in Hl, IH. destruct (Hl s Hin) as [H1 H2]. apply balanced_app; apply balanced_braces; [done|]. exact (IH s Hin H2). }
    apply balanced_app; [done|]. apply balanced_app; [apply Hs|]. apply balanced_app; [done|]. apply balanced_app; [apply balanced_braces, IHn, Hn|apply Hs].
Qed.
Lemma figure_tree r1 r2 : no_bundles r1 → no_bundles r2 → figure r1 = figure r2 → normalised r1 = normalised r2.
Proof.
  revert r2. induction r1 as [s|rel b n s IHn IHs|rel l IH|n l IHn IH] using rtree_ind'; intros r2 H1 H2 E; cbn [no_bundles] in H1; [..|done].
  - destruct r2 as [s2|? [] ? ?|? ?|? ?]; try done. cbn [figure] in E. injection E as E. cbn [normalised]. by rewrite E.
  - destruct H1 as [Hn Hs]. destruct r2 as [s2|rel2 b2 n2 s2|? ?|? ?]; [by destruct b| |by destruct b|done]. cbn [no_bundles] in H2. destruct H2 as [Hn2 Hs2]. cbn [figure] in E.
    destruct b, b2; try done; injection E as E1 E2; subst; cbn [normalised]; try injection E1 as E1; try injection E2 as E2; by rewrite (IHn n2), (IHs s2).
  - destruct r2 as [s2|? [] ? ?|rel2 l2|? ?]; try done. cbn [figure] in E. injection E as -> E. cbn [normalised]. f_equal. cbn [no_bundles] in H2.
    rewrite (go_Forall no_bundles l) in H1. rewrite (go_Forall no_bundles l2) in H2. revert l2 H2 E. induction IH as [|c l Hc _ IH]; intros [|c2 l2] H2 E; try done.
    cbn [map] in E |- *. injection E as E1 E2. apply Forall_cons in H1 as [? ?], H2 as [? ?]. rewrite (Hc c2), (IH ltac:(done) l2); done.
Qed.
Lemma write_same r1 r2 out : is_relation r1 → is_relation r2 → drawable r1 → drawable r2 → plain_fig (figure r1) → plain_fig (figure r2) →
  write_rstlatex (to_tree r1) = Ok out → write_rstlatex (to_tree r2) = Ok out → figure r1 = figure r2.
Proof.
  intros HR1 HR2 D1 D2 P1 P2 E1 E2. destruct (write_ok r1 HR1 D1) as (o1 & F1 & S1). destruct (write_ok r2 HR2 D2) as (o2 & F2 & S2).
  rewrite E1 in F1. rewrite E2 in F2. injection F1 as <-. injection F2 as <-. apply tex_unique; [done|done|]. rewrite (solid_tex _ P1) in S1. rewrite (solid_tex _ P2) in S2. by rewrite <-S1, <-S2.
Qed.
Lemma indent_0 s : indent_tab s 0 = s.
Proof. unfold indent_tab. cbn [replicate app]. rewrite map_id. apply concat_lines. Qed.
