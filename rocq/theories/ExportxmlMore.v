(** * ExportxmlMore: repeated elements, ignored elements, and the corpus *)
From Verif Require Import PyBase DocGraph Relabel StrNum Query Text Rst Nltk Parsers Anaphora Conano Decour Ptb Convert Tiger Urml Exportxml.
From Verif Require Import SpecGraph DocGraphFacts History Effects SpecImport ImportFacts SpecQuery SpanFacts.
From Verif Require Import SpecExportxml ExportxmlFacts ExportxmlStep ExportxmlElem ExportxmlDoc ExportxmlSpan.

(** ** Children of words *)
Lemma read_at_other anc x : x_tag x ≠ "word" → read_at anc x = [(anc, x)].
Proof. intros H. rewrite read_at_cons. by rewrite decide_False. Qed.
Lemma read_at_word anc x : x_tag x = "word" → (∀ y, y ∈ x_kids x → x_tag y ≠ "word") → read_at anc x = (anc, x) :: children (anc, x).
Proof.
  intros H HK. rewrite read_at_cons, decide_True by done. f_equal. unfold children. cbn [fst snd]. revert HK. generalize (x_kids x) as ks. intros ks HK.
  induction ks as [|k ks IH]; [done|]. rewrite !fmap_cons. cbn [concat]. rewrite read_at_other by (apply HK; left). cbn [app]. f_equal. apply IH. intros y Hy. apply HK. by right.
Qed.
Lemma read_flat x p : flat_words x → p ∈ inside ([], x) → read_at p.1 p.2 = p :: if decide (x_tag p.2 = "word") then children p else [].
Proof.
  intros HF Hp. destruct p as [anc y]. cbn [fst snd] in *. destruct (decide _) as [H|H]; [|by apply read_at_other]. apply read_at_word; [done|]. intros z Hz. by apply (HF (anc, y) z).
Qed.
Lemma flat_tokens x : flat_words x → tokens_of (read_of x) = words_inside ([], x).
Proof.
  intros HF. unfold tokens_of, words_inside, read_of. f_equal. unfold tagged.
  assert (G : ∀ l : list place, (∀ p, p ∈ l → p ∈ inside ([], x)) → filter (λ p : place, x_tag p.2 = "word") (l ≫= (λ p, read_at p.1 p.2)) = filter (λ p : place, x_tag p.2 = "word") l).
  { induction l as [|p l IH]; intros HL; [done|]. rewrite bind_cons, filter_app, filter_cons, IH by (intros q Hq; apply HL; by right). rewrite (read_flat x p HF) by (apply HL; left). rewrite filter_cons.
    destruct (decide (x_tag p.2 = "word")) as [Ht|Ht]; [|done]. rewrite TigerTree.filter_none; [done|]. apply Forall_forall. intros q Hq. unfold children in Hq. apply elem_of_list_fmap in Hq as (k & -> & Hk). cbn [snd]. apply (HF p k); [apply HL; left|done..]. }
  apply G. done.
Qed.
Lemma flat_read x : flat_words x → read_of x ≡ₚ inside ([], x) ++ word_children x.
Proof.
  intros HF. unfold read_of, word_children, tagged.
  assert (G : ∀ l : list place, (∀ p, p ∈ l → p ∈ inside ([], x)) → (l ≫= (λ p, read_at p.1 p.2)) ≡ₚ l ++ (filter (λ p : place, x_tag p.2 = "word") l ≫= children)).
  { induction l as [|p l IH]; intros HL; [done|]. rewrite bind_cons, IH by (intros q Hq; apply HL; by right). rewrite (read_flat x p HF) by (apply HL; left). rewrite filter_cons.
    destruct (decide (x_tag p.2 = "word")) as [Ht|Ht]; [|done]. rewrite bind_cons. cbn [app]. constructor. rewrite !app_assoc. apply Permutation_app_tail. apply Permutation_app_comm. }
  apply G. done.
Qed.
Lemma has_edges_perm g E E' : E ≡ₚ E' → has_edges g E → has_edges g E'.
Proof.
  intros HEE (es & HP & HE). apply Forall2_flip in HE. destruct (Permutation.Permutation_Forall2 HEE HE) as (es' & Hes & HE').
  exists es'. split; [by rewrite HP|]. by apply Forall2_flip.
Qed.
Lemma links_perm ns o root l l' : l ≡ₚ l' → links ns o root l ≡ₚ links ns o root l'.
Proof. intros H. unfold links. by rewrite H. Qed.
(** ** Ignored elements *)
Lemma kept_nodes ns o p : about_nodes ns o p = if decide (kept o p) then about_nodes ns all_options p else [].
Proof.
  destruct (decide (kept o p)) as [H|H].
  - unfold about_nodes. cbv zeta. cbn [no_relations no_splitrelations all_options orb]. unfold kept in H. destruct H as (H1 & H2 & _).
    repeat (match goal with |- (if decide (x_tag p.2 = ?t) then _ else _) = _ => destruct (decide (x_tag p.2 = t)) as [E|_]; [rewrite E in H1, H2; try reflexivity|] end); try reflexivity.
    + rewrite H1 by (apply (bool_decide_unpack _); reflexivity). reflexivity.
    + rewrite H1 by (apply (bool_decide_unpack _); reflexivity). reflexivity.
    + rewrite H1, H2 by (try reflexivity; apply (bool_decide_unpack _); reflexivity). reflexivity.
  - unfold about_nodes. cbv zeta. unfold kept in H.
    repeat (match goal with |- (if decide (x_tag p.2 = ?t) then _ else _) = _ => destruct (decide (x_tag p.2 = t)) as [E|_]; [rewrite E in H; try (exfalso; apply H; split; [intros HH; exfalso; revert HH; apply (bool_decide_unpack _); reflexivity|split; intros HH; discriminate HH])|] end); try reflexivity.
    + destruct (no_relations o); [done|]. exfalso. apply H. split; [done|]. split; intros HH; discriminate HH.
    + destruct (no_relations o); [done|]. exfalso. apply H. split; [done|]. split; intros HH; discriminate HH.
    + destruct (no_relations o), (no_splitrelations o); try done. exfalso. apply H. split; [done|]. split; [done|]. intros HH; discriminate HH.
Qed.
Lemma kept_edges ns o root p : about_edges ns o root p = if decide (kept o p) then about_edges ns all_options root p else [].
Proof.
  destruct (decide (kept o p)) as [H|H].
  - unfold about_edges. cbv zeta. cbn [no_relations no_splitrelations no_secedges all_options orb]. unfold kept in H. destruct H as (H1 & H2 & H3).
    repeat (match goal with |- (if decide (x_tag p.2 = ?t) then _ else _) = _ => destruct (decide (x_tag p.2 = t)) as [E|_]; [rewrite E in H1, H2, H3; try reflexivity|] end); try reflexivity.
    + rewrite H1 by (apply (bool_decide_unpack _); reflexivity). reflexivity.
    + rewrite H1 by (apply (bool_decide_unpack _); reflexivity). reflexivity.
    + rewrite H3 by reflexivity. reflexivity.
    + rewrite H1, H2 by (try reflexivity; apply (bool_decide_unpack _); reflexivity). reflexivity.
  - unfold about_edges. cbv zeta. unfold kept in H.
    repeat (match goal with |- (if decide (x_tag p.2 = ?t) then _ else _) = _ => destruct (decide (x_tag p.2 = t)) as [E|_]; [rewrite E in H; try (exfalso; apply H; split; [intros HH; exfalso; revert HH; apply (bool_decide_unpack _); reflexivity|split; intros HH; discriminate HH])|] end); try reflexivity.
    + destruct (no_relations o); [done|]. exfalso. apply H. split; [done|]. split; intros HH; discriminate HH.
    + destruct (no_relations o); [done|]. exfalso. apply H. split; [done|]. split; intros HH; discriminate HH.
    + destruct (no_secedges o); [done|]. exfalso. apply H. split; [intros HH; exfalso; revert HH; apply (bool_decide_unpack _); reflexivity|]. done.
    + destruct (no_relations o), (no_splitrelations o); try done. exfalso. apply H. split; [done|]. split; [done|]. intros HH; discriminate HH.
Qed.
Lemma kept_facts ns o l : facts ns o l = facts ns all_options (filter (kept o) l).
Proof. unfold facts. induction l as [|p l IH]; [done|]. rewrite filter_cons, bind_cons, kept_nodes, IH. by destruct (decide (kept o p)). Qed.
Lemma kept_links ns o root l : links ns o root l = links ns all_options root (filter (kept o) l).
Proof. unfold links. induction l as [|p l IH]; [done|]. rewrite filter_cons, bind_cons, kept_edges, IH. by destruct (decide (kept o p)). Qed.
Lemma kept_tokens o l : tokens_of (filter (kept o) l) = tokens_of l.
Proof.
  unfold tokens_of, tagged. f_equal. induction l as [|p l IH]; [done|]. rewrite !filter_cons. destruct (decide (kept o p)) as [H|H].
  - rewrite filter_cons, IH. done.
  - rewrite IH. destruct (decide (x_tag p.2 = "word")) as [Ht|]; [|done]. exfalso. apply H. unfold kept. rewrite Ht. split; [intros HH; exfalso; revert HH; apply (bool_decide_unpack _); reflexivity|]. split; intros HH; discriminate HH.
Qed.
Lemma kept_says ns o precedence root l g : says_exactly ns o precedence root l g → says_exactly ns all_options precedence root (filter (kept o) l) g.
Proof.
  intros [H1 H2 H3]. unfold known_nodes in H1. rewrite kept_facts in H2. rewrite kept_facts, kept_links in H1. rewrite kept_links in H3. split; [exact H1|exact H2|]. by rewrite kept_tokens.
Qed.
(** ** The corpus *)
Lemma nexts_rest k : ∀ c, nexts k c = (document_of <$> take k (xc_rest c)) ++ replicate (k - length (xc_rest c)) (Err StopIteration).
Proof.
  induction k as [|k IH]; intros c; [done|]. cbn [nexts]. unfold next_document at 1 2. destruct (xc_rest c) as [|x l] eqn:E; cbn [fst snd].
  - rewrite IH, E. cbn. rewrite Nat.sub_0_r. by rewrite take_nil.
  - rewrite IH. cbn [xc_rest take fmap list_fmap app length Nat.sub]. done.
Qed.
Lemma take_all l : ∀ gs, all_read l gs → take_documents l = ([], Ok gs).
Proof.
  induction l as [|x l IH]; intros gs H; inversion H as [|? g ? gs' H1 H2]; subst; [done|]. cbn [take_documents]. rewrite H1, (IH gs' H2). done.
Qed.
Lemma take_only l : ∀ gs r, take_documents l = (r, Ok gs) → r = [] ∧ all_read l gs.
Proof.
  induction l as [|x l IH]; intros gs r H; cbn [take_documents] in H; [injection H as <- <-; split; [done|apply List.Forall2_nil]|].
  destruct (document_of x) as [g|e] eqn:E; [|done]. destruct (take_documents l) as [l' [gs'|e]]; [|done]. injection H as -> <-. destruct (IH gs' r eq_refl) as [-> HF]. split; [done|]. by apply List.Forall2_cons.
Qed.
Lemma list_all c gs : all_read (xc_rest c) gs → list_corpus c = (XCorpus (xc_name c) (xc_file c) [] (xc_count c), Ok gs).
Proof. intros H. unfold list_corpus. by rewrite (take_all _ _ H). Qed.
Lemma list_only c c' gs : list_corpus c = (c', Ok gs) → all_read (xc_rest c) gs.
Proof. unfold list_corpus. destruct (take_documents (xc_rest c)) as [l r] eqn:E. intros [= _ ->]. by apply take_only in E as [_ ?]. Qed.
Lemma call_file c k : xc_file (after_call c k) = xc_file c.
Proof.
  destruct k; cbn [after_call].
  - unfold next_document. by destruct (xc_rest c).
  - unfold list_corpus. by destruct (take_documents _).
  - done.
  - unfold corpus_len. destruct (xc_count c); [done|]. by destruct (decide _).
Qed.
Lemma calls_file ks : ∀ c, xc_file (foldl after_call c ks) = xc_file c.
Proof. induction ks as [|k ks IH]; intros c; [done|]. cbn [foldl]. by rewrite IH, call_file. Qed.
Lemma call_name c k : xc_name (after_call c k) = xc_name c.
Proof.
  destruct k; cbn [after_call].
  - unfold next_document. by destruct (xc_rest c).
  - unfold list_corpus. by destruct (take_documents _).
  - done.
  - unfold corpus_len. destruct (xc_count c); [done|]. by destruct (decide _).
Qed.
(** the count is kept, and is that of the file *)
Lemma call_count c k : (∀ n, xc_count c = Some n → n = length (xc_file c)) → ∀ n, xc_count (after_call c k) = Some n → n = length (xc_file (after_call c k)).
Proof.
  intros H n. rewrite call_file. destruct k; cbn [after_call].
  - unfold next_document. destruct (xc_rest c); apply H.
  - unfold list_corpus. destruct (take_documents _); apply H.
  - apply H.
  - unfold corpus_len. destruct (xc_count c) eqn:E; [cbn [fst]; rewrite E; apply H|]. destruct (decide _); [cbn [fst]; rewrite E; done|]. cbn. congruence.
Qed.
Lemma calls_count ks : ∀ c, (∀ n, xc_count c = Some n → n = length (xc_file c)) → ∀ n, xc_count (foldl after_call c ks) = Some n → n = length (xc_file (foldl after_call c ks)).
Proof. induction ks as [|k ks IH]; intros c H; [exact H|]. cbn [foldl]. apply IH, call_count, H. Qed.
Lemma calls_name ks : ∀ c, xc_name (foldl after_call c ks) = xc_name c.
Proof. induction ks as [|k ks IH]; intros c; [done|]. cbn [foldl]. by rewrite IH, call_name. Qed.
Lemma len_ok name texts ks : name ≠ "tuebadz-8.0-mit-NE+Anaphern+Diskurs.exml.xml" → (corpus_len (foldl after_call (open_corpus name texts) ks)).2 = Z.of_nat (length texts).
Proof.
  intros Hn. set (c := foldl _ _ _). assert (F : xc_file c = texts) by apply calls_file. assert (N : xc_name c = name) by apply calls_name.
  assert (C : ∀ n, xc_count c = Some n → n = length (xc_file c)) by (by apply calls_count). clearbody c. unfold corpus_len. destruct (xc_count c) as [n|] eqn:E.
  - cbn. by rewrite (C n eq_refl), F.
  - rewrite N, decide_False by done. cbn. by rewrite F.
Qed.
Lemma len_rest c : xc_rest (corpus_len c).1 = xc_rest c.
Proof. unfold corpus_len. destruct (xc_count c); [done|]. by destruct (decide _). Qed.
