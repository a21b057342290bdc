(** * SaltLing: linguistic documents (proofs) *)
From Verif Require Import PyBase DocGraph Relabel StrNum Query Text SpanFacts Rst Nltk ConllRead Conano Decour Conll Salt SpecSalt SaltFacts SaltDoc.

(** ** Loops *)
Lemma rfold_cons {A S} (f : A → S → res S) a l s : rfold f (a :: l) s = match f a s with Ok s' => rfold f l s' | Err e => Err e end.
Proof.
  unfold rfold. cbn [foldl rbind]. destruct (f a s) as [s'|e]; [reflexivity|]. induction l as [|b l IH]; [reflexivity|]. cbn [foldl rbind]. exact IH.
Qed.
Lemma rfold_app {A S} (f : A → S → res S) l l' s : rfold f (l ++ l') s = match rfold f l s with Ok s' => rfold f l' s' | Err e => Err e end.
Proof. revert s. induction l as [|a l IH]; intros s; [reflexivity|]. cbn [app]. rewrite !rfold_cons. destruct (f a s) as [s'|e]; [apply IH|reflexivity]. Qed.
Lemma rfold_get {I A S} (g : I → res A) (F : A → S → res S) ids xs : Forall2 (λ i x, g i = Ok x) ids xs → ∀ s, rfold (λ i s, let! e := g i in F e s) ids s = rfold F xs s.
Proof. induction 1 as [|i x ids xs H HF IH]; intros s; [reflexivity|]. rewrite !rfold_cons, H. cbn [rbind]. destruct (F x s); [apply IH|reflexivity]. Qed.
Lemma rfold_inv {A S} (P : S → Prop) (f : A → S → res S) l : (∀ a s s', P s → f a s = Ok s' → P s') → ∀ s s', P s → rfold f l s = Ok s' → P s'.
Proof. intros HP. induction l as [|a l IH]; intros s s' Hs; [by intros [= <-]|]. rewrite rfold_cons. destruct (f a s) as [s1|] eqn:E; [|done]. apply IH. by eapply HP. Qed.
Lemma elem_at_nat es i : elem_at es (Z.of_nat i) = of_option IndexError (es !! i).
Proof.
  unfold elem_at, py_index. destruct (decide (0 ≤ Z.of_nat i < Z.of_nat (length es))%Z) as [H|H]; [cbn; by rewrite Nat2Z.id|]. rewrite decide_False by lia. cbn. by rewrite lookup_ge_None_2 by lia.
Qed.
Lemma subtype_elems es c : Forall2 (λ i e, elem_at es i = Ok e) (subtype_ids es c) (filter (λ e, se_class e = c) es).
Proof.
  unfold subtype_ids. assert (G : ∀ suf pre f, es = pre ++ suf → (∀ i, f i = i + length pre) → Forall2 (λ i e, elem_at es i = Ok e) (omap (λ p : nat * selem, if decide (se_class p.2 = c) then Some (Z.of_nat p.1) else None) (imap (λ i, pair (f i)) suf)) (filter (λ e, se_class e = c) suf)).
  { induction suf as [|e suf IH]; intros pre f E Hf; [exact (List.Forall2_nil _)|]. rewrite imap_cons, filter_cons. cbn [omap list_omap fst snd].
    assert (HT : Forall2 (λ i e, elem_at es i = Ok e) (omap (λ p : nat * selem, if decide (se_class p.2 = c) then Some (Z.of_nat p.1) else None) (imap ((λ i, pair (f i)) ∘ S) suf)) (filter (λ e, se_class e = c) suf)).
    { apply (IH (pre ++ [e]) (f ∘ S)); [by rewrite <-app_assoc|]. intros i. unfold compose. rewrite Hf, app_length. cbn. lia. }
    destruct (decide (se_class e = c)) as [Hc|Hc]; [|exact HT]. apply List.Forall2_cons; [|exact HT]. rewrite elem_at_nat, Hf. cbn [Nat.add]. subst es. rewrite list_lookup_middle by reflexivity. reflexivity. }
  apply (G es [] (λ i, i)); [reflexivity|]. intros i. cbn. lia.
Qed.
Lemma subtype_none es c : Forall (λ e, se_class e ≠ c) es → subtype_ids es c = [].
Proof.
  intros H. pose proof (subtype_elems es c) as HF. assert (filter (λ e, se_class e = c) es = []) as E. { induction H as [|e es He H IH]; [reflexivity|]. rewrite filter_cons, decide_False by exact He. apply IH. apply subtype_elems. } rewrite E in HF. by inversion HF.
Qed.

(** ** Writing attributes *)
Notation write := (nat * string * sfield)%type.
Definition at_node (w : write) : nat := w.1.1.
Definition set_one (n : selem) (w : write) : selem := set_field w.1.2 w.2 n.
Definition apply_writes (ws : list write) (ns : list selem) : list selem := foldl (λ ns w, alter (λ n, set_one n w) (at_node w) ns) ns ws.
Lemma writes_app ws ws' ns : apply_writes (ws ++ ws') ns = apply_writes ws' (apply_writes ws ns).
Proof. unfold apply_writes. apply foldl_app. Qed.
Lemma writes_length ws ns : length (apply_writes ws ns) = length ns.
Proof. revert ns. induction ws as [|w ws IH]; intros ns; [reflexivity|]. unfold apply_writes in *. cbn [foldl]. rewrite IH. apply alter_length. Qed.
Lemma writes_at ws ns i : apply_writes ws ns !! i = (λ n, foldl set_one n (filter (λ w, at_node w = i) ws)) <$> ns !! i.
Proof.
  revert ns. induction ws as [|w ws IH]; intros ns; [unfold apply_writes; cbn [foldl]; destruct (ns !! i); reflexivity|]. unfold apply_writes in *. cbn [foldl]. rewrite IH, filter_cons. destruct (decide (at_node w = i)) as [<-|Hi].
  - rewrite list_lookup_alter. by destruct (ns !! at_node w).
  - by rewrite list_lookup_alter_ne.
Qed.
Lemma fold_same ws : ∀ n, let n' := foldl set_one n ws in se_class n' = se_class n ∧ se_name n' = se_name n ∧ se_id n' = se_id n ∧ se_type n' = se_type n ∧ se_labels n' = se_labels n.
Proof. induction ws as [|w ws IH]; intros n; [done|]. cbn [foldl]. destruct (IH (set_one n w)) as (H1 & H2 & H3 & H4 & H5). cbv zeta. rewrite H1, H2, H3, H4, H5. done. Qed.
Lemma fold_field k ws n : dget k (se_fields (foldl set_one n ws)) = match last (filter (λ w, w.1.2 = k) ws) with Some w => Some w.2 | None => dget k (se_fields n) end.
Proof.
  induction ws as [|w ws IH] using rev_ind; [reflexivity|]. rewrite foldl_app. cbn [foldl]. unfold set_one at 1, set_field. cbn [se_fields]. rewrite dget_dset, filter_app, filter_cons. destruct (decide (k = w.1.2)) as [->|Hk].
  - rewrite decide_True by reflexivity. by rewrite filter_nil, last_snoc.
  - rewrite decide_False by congruence. by rewrite filter_nil, app_nil_r.
Qed.
Lemma set_node_nat i k v ns : set_node_field (Z.of_nat i) k v ns = if decide (i < length ns) then Ok (apply_writes [(i, k, v)] ns) else Err IndexError.
Proof.
  unfold set_node_field, py_index. destruct (decide (0 ≤ Z.of_nat i < Z.of_nat (length ns))%Z) as [H|H].
  - rewrite decide_True by lia. cbn. by rewrite Nat2Z.id.
  - rewrite decide_False by lia. by rewrite decide_False by lia.
Qed.

(** ** Fields of edges *)
Lemma get_int_iff k e z : get_int k e = Ok z ↔ field e k (FInt z).
Proof. unfold get_int, field. destruct (dget k (se_fields e)) as [[]|]; split; try done; by intros [= ->]. Qed.
Definition positions (e : selem) : Prop := ∃ on off, field e "onset" (FInt on) ∧ field e "offset" (FInt off).
Definition source_nat (e : selem) : nat := match dget "source" (se_fields e) with Some (FInt z) => Z.to_nat z | _ => 0 end.
Definition int_of_field (k : string) (e : selem) : Z := match dget k (se_fields e) with Some (FInt z) => z | _ => 0%Z end.
Definition offset_writes (e : selem) : list write := [(source_nat e, "onset", FInt (int_of_field "onset" e)); (source_nat e, "offset", FInt (int_of_field "offset" e))].
Definition step_offsets (e : selem) (ns : list selem) : res (list selem) :=
  let! n := get_int "source" e in
  let! on := get_int "onset" e in
  let! ns := set_node_field n "onset" (FInt on) ns in
  let! off := get_int "offset" e in
  set_node_field n "offset" (FInt off) ns.
Lemma step_offsets_is e i ns : field e "source" (FInt (Z.of_nat i)) → positions e → step_offsets e ns = if decide (i < length ns) then Ok (apply_writes (offset_writes e) ns) else Err IndexError.
Proof.
  intros Hs (on & off & Hon & Hoff). unfold step_offsets, offset_writes, source_nat, int_of_field. rewrite (proj2 (get_int_iff _ _ _) Hs), (proj2 (get_int_iff _ _ _) Hon), (proj2 (get_int_iff _ _ _) Hoff). unfold field in *. rewrite Hs, Hon, Hoff. cbn [rbind]. rewrite set_node_nat, Nat2Z.id.
  destruct (decide (i < length ns)) as [Hi|Hi]; [|reflexivity]. cbn [rbind]. rewrite set_node_nat, writes_length, decide_True by exact Hi. by rewrite <-writes_app.
Qed.
Lemma offsets_fold xs : Forall (λ e, ∃ i, field e "source" (FInt (Z.of_nat i))) xs → Forall positions xs → ∀ ns,
  rfold step_offsets xs ns = if decide (Forall (λ e, source_nat e < length ns) xs) then Ok (apply_writes (concat (offset_writes <$> xs)) ns) else Err IndexError.
Proof.
  induction 1 as [|e xs [i Hi] HF IH]; intros HP ns; [rewrite decide_True by apply List.Forall_nil; reflexivity|]. apply Forall_cons in HP as [Hp HP]. rewrite rfold_cons, (step_offsets_is e i) by done. assert (source_nat e = i) as E. { unfold source_nat. unfold field in Hi. rewrite Hi. apply Nat2Z.id. }
  destruct (decide (i < length ns)) as [Hl|Hl].
  - rewrite IH by done. rewrite writes_length. destruct (decide (Forall (λ e, source_nat e < length ns) xs)) as [H|H].
    + rewrite decide_True by (apply List.Forall_cons; [by rewrite E|exact H]). rewrite fmap_cons. cbn [concat]. by rewrite writes_app.
    + rewrite decide_False; [reflexivity|]. by intros [_ ?]%Forall_cons.
  - rewrite decide_False; [reflexivity|]. intros [H _]%Forall_cons. by rewrite E in H.
Qed.

(** ** Grouping *)
Definition group (ps : list (Z * Z)) : dict Z (list Z) := foldl (λ d p, dset p.1 (default [] (dget p.1 d) ++ [p.2]) d) [] ps.
Lemma group_get ps k : dget k (group ps) = match filter (λ p, p.1 = k) ps with [] => None | l => Some l.*2 end.
Proof.
  induction ps as [|p ps IH] using rev_ind; [reflexivity|]. unfold group in *. rewrite foldl_app. cbn [foldl]. rewrite dget_dset, filter_app, filter_cons, filter_nil. destruct (decide (k = p.1)) as [->|Hk].
  - rewrite decide_True by reflexivity. rewrite IH. destruct (filter _ ps) as [|q qs] eqn:E; [reflexivity|]. change ((q :: qs) ++ [p]) with (q :: (qs ++ [p])). cbn [default]. unfold id. f_equal. symmetry. exact (fmap_app snd (q :: qs) [p]).
  - rewrite decide_False by congruence. rewrite app_nil_r. exact IH.
Qed.
Lemma group_nodup ps : NoDup (dkeys (group ps)).
Proof. induction ps as [|p ps IH] using rev_ind; [apply NoDup_nil_2|]. unfold group in *. rewrite foldl_app. cbn [foldl]. by apply NoDup_dset. Qed.
Definition pair_of (key val : string) (e : selem) : Z * Z := (int_of_field key e, int_of_field val e).
Definition has_int (k : string) (e : selem) : Prop := ∃ z, field e k (FInt z).
Lemma group_fold es c key val : Forall (λ e, has_int key e ∧ has_int val e) (filter (λ e, se_class e = c) es) →
  group_edges es (subtype_ids es c) key val = Ok (group (pair_of key val <$> filter (λ e, se_class e = c) es)).
Proof.
  intros H. unfold group_edges. rewrite (rfold_get (elem_at es) (λ e d, let! k := get_int key e in let! v := get_int val e in Ok (dset k (default [] (dget k d) ++ [v]) d)) _ _ (subtype_elems es c)). unfold group.
  generalize ([] : dict Z (list Z)) as d. revert H. generalize (filter (λ e, se_class e = c) es) as xs. induction 1 as [|e xs [[k Hk] [v Hv]] HF IH]; intros d; [reflexivity|]. rewrite rfold_cons, fmap_cons. rewrite (proj2 (get_int_iff _ _ _) Hk), (proj2 (get_int_iff _ _ _) Hv). cbn [rbind foldl]. rewrite IH. f_equal. unfold pair_of, int_of_field. unfold field in *. rewrite Hk, Hv. reflexivity.
Qed.
Definition group_writes (name : string) (ps : list (Z * list Z)) : list write := (λ p, (Z.to_nat p.1, name, FInts p.2)) <$> ps.
Lemma groups_fold name ps : Forall (λ p : Z * list Z, (0 ≤ p.1)%Z) ps → ∀ ns,
  rfold (λ (p : Z * list Z) ns, set_node_field p.1 name (FInts p.2) ns) ps ns = if decide (Forall (λ p : Z * list Z, Z.to_nat p.1 < length ns) ps) then Ok (apply_writes (group_writes name ps) ns) else Err IndexError.
Proof.
  induction 1 as [|p ps Hp HF IH]; intros ns; [by rewrite decide_True by apply List.Forall_nil|]. rewrite rfold_cons. rewrite <-(Z2Nat.id p.1) at 1 by exact Hp. rewrite set_node_nat. destruct (decide (Z.to_nat p.1 < length ns)) as [Hl|Hl].
  - rewrite IH, writes_length. destruct (decide (Forall (λ p : Z * list Z, Z.to_nat p.1 < length ns) ps)) as [H|H].
    + rewrite decide_True by (by apply List.Forall_cons). unfold group_writes. rewrite fmap_cons. by rewrite <-writes_app.
    + rewrite decide_False; [reflexivity|]. by intros [_ ?]%Forall_cons.
  - rewrite decide_False; [reflexivity|]. by intros [? _]%Forall_cons.
Qed.
