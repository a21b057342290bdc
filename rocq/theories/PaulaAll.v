(** * PaulaAll: the document (C83-C86) *)
From Verif Require Import PyBase DocGraph Relabel StrNum Query Text Paula.
From Verif Require Import SpecGraph DocGraphFacts History Effects RelabelFacts MergeFacts GraphThms AllHist SpecQuery SpanFacts SelectFacts OffsetFacts TextFacts BracketFacts NatSort LabelFacts GeoffFacts SpecExbWrite ExbWrite SpecPaula PaulaFacts PaulaDoc.

(** ** Names *)
Local Notation dot := "."%char.
Lemma name_ok corpus g n : document_name corpus g n → n = corpus +:+ "." +:+ short_name (g_name g).
Proof.
  intros (name & -> & Hd & Hn). do 2 f_equal. unfold short_name. destruct Hn as [->|[t ->]].
  - rewrite split_char_none by done. cbn. by rewrite str_chs.
  - rewrite chs_app. change (chs ("." +:+ t)) with (dot :: chs t). rewrite split_char_app by done. cbn. by rewrite str_chs.
Qed.
Lemma dot_cut (a b a' b' : string) : dot ∉ chs a → dot ∉ chs a' → a +:+ "." +:+ b = a' +:+ "." +:+ b' → a = a' ∧ b = b'.
Proof.
  intros H1 H2 E. apply (f_equal chs) in E. rewrite !chs_app in E. change (chs ".") with [dot] in E. cbn [app] in E.
  apply cut in E as [E1 E2]; [|done..]. split; by apply chs_inj.
Qed.
Definition layer_names (n l : string) : list string :=
  (l +:+ "." +:+ n +:+ ".tok_multiFeat") :: (file_of n l <$> ["_seg"; ""; "_struct"; "_rel"; "_pointing"; "_pointing_multiFeat"]).
Lemma app_assoc_s (a b c : string) : (a +:+ b) +:+ c = a +:+ b +:+ c.
Proof. apply chs_inj. by rewrite !chs_app, app_assoc. Qed.
(** names of layer files: up to the first dot *)
Lemma layer_name_head n l x : x ∈ layer_names n l → ∃ k, x = l +:+ "." +:+ n +:+ k ∧ (k = ".tok_multiFeat" ∨ ∃ k', k = "_" +:+ l +:+ k' ∧ k' ∈ ["_seg"; ""; "_struct"; "_rel"; "_pointing"; "_pointing_multiFeat"]).
Proof.
  intros H. apply elem_of_cons in H as [->|H]; [eauto|]. apply elem_of_list_fmap in H as (k & -> & Hk). exists ("_" +:+ l +:+ k). unfold file_of. split; [done|]. right. eauto.
Qed.
Lemma tail_eq (a b b' : string) : a +:+ b = a +:+ b' → b = b'.
Proof. intros E. apply (f_equal chs) in E. rewrite !chs_app in E. apply app_inv_head in E. by apply chs_inj. Qed.
Lemma layer_NoDup n l : NoDup (layer_names n l).
Proof.
  unfold layer_names. apply NoDup_cons. split.
  - intros H. apply elem_of_list_fmap in H as (k & E & _). unfold file_of in E. apply tail_eq, tail_eq, tail_eq in E. apply (f_equal chs) in E. rewrite !chs_app in E. done.
  - apply NoDup_fmap_2.
    + intros x y E. unfold file_of in E. by apply tail_eq, tail_eq, tail_eq, tail_eq, tail_eq in E.
    + apply (bool_decide_unpack _). vm_compute. reflexivity.
Qed.
Lemma names_NoDup corpus name layers : dot ∉ chs corpus → dot ∉ chs name → Forall (λ l, dot ∉ chs l) layers → NoDup layers →
  let n := corpus +:+ "." +:+ name in NoDup (names_of n layers ++ [n +:+ ".anno"]).
Proof.
  intros Hc Hn HL HD n.
  assert (HX : ∀ l x s, dot ∉ chs l → x ∈ layer_names n l → dot ∉ chs s → "_"%char ∉ chs s → x ≠ n +:+ "." +:+ s).
  { intros l x s Hl Hx Hs Hu E. apply layer_name_head in Hx as (k & -> & Hk). subst n. rewrite !app_assoc_s in E. apply dot_cut in E as [-> E]; [|done..]. apply dot_cut in E as [-> E]; [|done..].
    apply Hu. rewrite <-E, chs_app. apply elem_of_app. right. destruct Hk as [->|(k' & -> & _)]; [|rewrite chs_app; apply elem_of_app; left; left]. apply (bool_decide_unpack _). vm_compute. reflexivity. }
  unfold names_of. change (λ l : string, _ :: _) with (layer_names n).
  assert (HB : NoDup (layers ≫= layer_names n)).
  { clear HX. induction layers as [|l layers IH]; [apply NoDup_nil_2|]. cbn [mbind list_bind]. apply Forall_cons in HL as [Hl HL]. apply NoDup_cons in HD as [Hl' HD]. apply NoDup_app. split; [apply layer_NoDup|]. split; [|by apply IH]. intros x Hx Hx'. apply elem_of_list_bind in Hx' as (l' & Hx' & Hin).
    apply layer_name_head in Hx as (k & -> & _). apply layer_name_head in Hx' as (k' & E & _). rewrite Forall_forall in HL. apply dot_cut in E as [-> _]; [done|done|by apply HL]. }
  assert (HY : ∀ x s, x ∈ layers ≫= layer_names n → dot ∉ chs s → "_"%char ∉ chs s → x ≠ n +:+ "." +:+ s).
  { intros x s Hx. apply elem_of_list_bind in Hx as (l & Hx & Hl). rewrite Forall_forall in HL. eapply HX; [by apply HL|done]. }
  assert (Ht : ∀ s t : string, n +:+ s = n +:+ t → s = t) by (intros s t; apply tail_eq).
  cbn [app]. apply NoDup_cons. split.
  { intros H. apply elem_of_cons in H as [E|H]; [by apply Ht in E|]. apply elem_of_app in H as [H|H].
    - apply (HY _ "text" H); [| |done]; apply (bool_decide_unpack _); vm_compute; reflexivity.
    - apply elem_of_list_singleton in H. by apply Ht in H. }
  apply NoDup_cons. split.
  { intros H. apply elem_of_app in H as [H|H].
    - apply (HY _ "tok" H); [| |done]; apply (bool_decide_unpack _); vm_compute; reflexivity.
    - apply elem_of_list_singleton in H. by apply Ht in H. }
  apply NoDup_app. split; [exact HB|]. split; [|apply NoDup_singleton]. intros x Hx Hx'. apply elem_of_list_singleton in Hx' as ->. apply (HY _ "anno" Hx); [| |done]; apply (bool_decide_unpack _); vm_compute; reflexivity.
Qed.
(** ** Files *)
Lemma foldl_dset {V} (l : list (string * V)) : ∀ m, NoDup (dkeys m ++ l.*1) → foldl (λ m p, dset p.1 p.2 m) m l = m ++ l.
Proof.
  induction l as [|[k v] l IH]; intros m H; [by rewrite app_nil_r|]. cbn [foldl fst snd]. rewrite fmap_cons in H. cbn [fst] in H.
  assert (Hk : dget k m = None). { apply dget_None. intros Hk. apply NoDup_app in H as (_ & H & _). apply (H _ Hk). left. }
  rewrite dset_new by done. rewrite IH; [by rewrite <-app_assoc|]. unfold dkeys in *. rewrite fmap_app, <-app_assoc. exact H.
Qed.
Lemma top_layers_ok g : Consistent g → Layered g → ∃ ls, get_top_level_layers g = Ok ls ∧ ∀ l, l ∈ ls ↔ top_layer g l.
Proof.
  intros C L. destruct (layers_total g C L) as (ls & E & HE). unfold get_top_level_layers. rewrite E. cbn [rbind]. eexists. split; [reflexivity|]. intros l. rewrite elem_of_list_fmap. unfold top_layer, layer2namespace. split.
  - intros (x & -> & Hx). rewrite chs_str. apply HE in Hx. destruct (decide (":"%char ∈ chs x)) as [Hc|Hc].
    + apply elem_of_list_split in Hc as H. destruct (elem_of_list_split_l _ _ Hc) as (l1 & l2 & E1 & H1). rewrite E1, before_colon_app by done. split; [done|]. exists x. split; [done|]. right. exists (str l2). apply chs_inj. rewrite E1, !chs_app, !chs_str. done.
    + rewrite before_colon_no by done. split; [done|]. exists x. split; [done|]. left. by rewrite str_chs.
  - intros (Hl & x & Hx & Hxl). exists x. rewrite HE. split; [|done]. destruct Hxl as [->|[t ->]].
    + by rewrite before_colon_no, str_chs.
    + rewrite !chs_app. change (chs ":") with [":"%char]. cbn [app]. by rewrite before_colon_app, str_chs.
Qed.
Section All.
  Context (order : ∀ A, list A → list A) (HO : any_order order) (salt : bool).
  Context (g g1 : graph) (C : Consistent g) (I : iso xid g g1) (C1 : Consistent g1) (L1 : Layered g1) (Hns : g_ns g1 = g_ns g).
  Context (Htok : g_tokens g1 = xid <$> g_tokens g) (T : typed g) (V : values_text g) (A : apart_ids g) (ss : list string) (HS : text_tokens g ss).
  Lemma layer_ok n layer : plain_str layer → ∃ fs, layer_files order salt n layer g1 = Ok fs ∧ fs.*1 = layer_names n layer ∧ ∀ files, (∀ p, p ∈ fs → dget p.1 files = Some p.2) → layer_said salt g n layer files.
  Proof using All.
    intros Pl. unfold layer_files. change (layer_name n layer) with (file_of n layer).
    destruct (token_anno_ok order HO g g1 I Htok V ss (n +:+ ".tok") layer HS) as (l1 & -> & F1). cbn [rbind].
    destruct (span_ok order HO g g1 C I C1 L1 T salt (n +:+ ".tok") layer Pl) as (l2 & -> & F2). cbn [rbind].
    destruct (hierarchy_ok order HO g g1 C I C1 L1 Hns T A (n +:+ ".tok") layer Pl) as (l3 & -> & F3). cbn [rbind].
    destruct (struct_anno_ok order HO g g1 I C1 L1 Hns V (file_of n layer "") layer) as (l4 & -> & F4). cbn [rbind].
    destruct (rel_anno_ok order HO g g1 C I C1 L1 T V A (file_of n layer "") layer Pl) as (l5 & -> & F5). cbn [rbind].
    destruct (pointing_ok order HO g g1 C I C1 L1 Hns T (n +:+ ".tok") (file_of n layer "") layer Pl) as (l6 & -> & F6). cbn [rbind].
    destruct (pointing_anno_ok order HO g g1 C I C1 L1 T V (file_of n layer "_pointing") layer Pl) as (l7 & -> & F7). cbn [rbind].
    eexists. split; [reflexivity|]. split; [done|]. intros files HF. rewrite !app_assoc_s in *. change (".tok" +:+ ".xml") with ".tok.xml" in *. unfold layer_said.
    split; [exists l1; split; [|done]; refine (HF (_, _) _); left|].
    split; [exists l2; split; [|done]; refine (HF (_, _) _); right; left|].
    split; [exists l3; split; [|done]; refine (HF (_, _) _); right; right; left|].
    split; [exists l4; split; [|done]; refine (HF (_, _) _); right; right; right; left|].
    split; [exists l5; split; [|done]; refine (HF (_, _) _); right; right; right; right; left|].
    split; [exists l6; split; [|done]; refine (HF (_, _) _); right; right; right; right; right; left|].
    exists l7. split; [|done]. refine (HF (_, _) _). right. right. right. right. right. right. left.
  Qed.
  Lemma layers_ok n layers : Forall plain_str layers → ∃ fs, rconcat (λ l, layer_files order salt n l g1) layers = Ok fs ∧ fs.*1 = layers ≫= layer_names n ∧ ∀ files, (∀ p, p ∈ fs → dget p.1 files = Some p.2) → Forall (λ l, layer_said salt g n l files) layers.
  Proof using All.
    induction 1 as [|l layers Hl _ (fs & E & K & F)]; [exists []; split; [done|]; split; [done|]; intros; apply List.Forall_nil|]. destruct (layer_ok n l Hl) as (f1 & E1 & K1 & F1). exists (f1 ++ fs). cbn [rconcat]. rewrite E1. cbn [rbind]. rewrite E. split; [done|]. split.
    - cbn [mbind list_bind]. by rewrite fmap_app, K1, K.
    - intros files HF. apply List.Forall_cons; [apply F1|apply F]; intros p Hp; apply HF, elem_of_app; tauto.
  Qed.
  Lemma files_ok n layers : Forall plain_str layers → NoDup (names_of n layers ++ [n +:+ ".anno"]) →
    ∃ files ms anno, paula_files order salt n layers g1 = Ok files ∧ dkeys files = names_of n layers ++ [n +:+ ".anno"] ∧
      dget (n +:+ ".text") files = Some (PText (str (joined ss))) ∧
      dget (n +:+ ".tok") files = Some (PMarks "tok" (n +:+ ".text.xml") ms) ∧ marks_words g ss ms ∧
      Forall (λ l, layer_said salt g n l files) layers ∧
      dget (n +:+ ".anno") files = Some anno ∧ lists_files (names_of n layers) anno.
  Proof using All.
    intros HP HD. unfold paula_files. rewrite (text_ok g g1 I Hns Htok ss HS). cbn [rbind].
    destruct (tokens_ok g g1 I Hns Htok A ss (n +:+ ".text") HS) as (ms & -> & FM). cbn [rbind].
    destruct (layers_ok n layers HP) as (fs & -> & K & F). cbn [rbind].
    set (L := (n +:+ ".text", PText (str (joined ss))) :: (n +:+ ".tok", PMarks "tok" ((n +:+ ".text") +:+ ".xml") ms) :: fs).
    assert (KL : L.*1 = names_of n layers). { subst L. rewrite !fmap_cons. cbn [fst]. rewrite K. done. }
    rewrite (foldl_dset L []) by (cbn [dkeys app]; rewrite KL; by apply NoDup_app in HD as (HD & _)). cbn [app].
    assert (HN : dget (n +:+ ".anno") L = None). { apply dget_None. unfold dkeys. change (n +:+ ".anno" ∉ L.*1). rewrite KL. intros H. apply NoDup_app in HD as (_ & HD & _). apply (HD _ H). left. }
    rewrite dset_new by done. set (an := annoset_file order L). assert (KF : dkeys (L ++ [(n +:+ ".anno", an)]) = names_of n layers ++ [n +:+ ".anno"]) by (unfold dkeys; rewrite fmap_app; change (L.*1 ++ [n +:+ ".anno"] = names_of n layers ++ [n +:+ ".anno"]); by rewrite KL).
    assert (HG : ∀ k b, (k, b) ∈ L ++ [(n +:+ ".anno", an)] → dget k (L ++ [(n +:+ ".anno", an)]) = Some b). { intros k b Hk. apply elem_dget; [|done]. rewrite KF. exact HD. }
    eexists _, ms, an. split; [reflexivity|]. split; [exact KF|]. split; [apply HG; left|]. split; [replace ((n +:+ ".text.xml")) with ((n +:+ ".text") +:+ ".xml") by (rewrite app_assoc_s; done); apply HG; right; left|]. split; [done|]. split; [|split].
    - apply F. intros [k b] Hp. cbn [fst snd]. apply HG. apply elem_of_app. left. right. right. exact Hp.
    - apply HG. apply elem_of_app. right. left.
    - subst an. unfold annoset_file. eexists. split; [reflexivity|]. split.
      + assert (EI : ∀ (l : list string) o, (imap (λ i f, ("rel_" +:+ str_Z (Z.of_nat (o + i)), (None : option string), f +:+ ".xml")) l).*2 = (λ f, f +:+ ".xml") <$> l). { induction l as [|x l IH]; intros o; [done|]. rewrite imap_cons, !fmap_cons. f_equal. rewrite <-(IH (S o)). f_equal. apply imap_ext. intros i y _. cbn. do 3 f_equal. f_equal. lia. }
        rewrite (EI _ 0). apply Permutation_map. rewrite (HO _ (dkeys L)). unfold dkeys. change (L.*1 ≡ₚ names_of n layers). by rewrite KL.
      + intros i r Hr. rewrite list_lookup_imap in Hr. apply fmap_Some in Hr as (f & _ & ->). done.
  Qed.
End All.
Lemma set_tokens_C ts g : Consistent g → Consistent (set_tokens ts g).
Proof. intros []. split; assumption. Qed.
Lemma set_tokens_iso f ts g g' : iso f g g' → iso f g (set_tokens ts g').
Proof. intros []. split; assumption. Qed.
Theorem paula_ok order salt corpus g n ss r : any_order order → reachable (λ o, no_bare_layers o ∧ no_empty_tuple o) g → apart_ids g → typed g → values_text g → text_tokens g ss → document_name corpus g n → plain_names corpus g →
  paula order salt corpus g r →
  ∃ files layers ms anno, r = Ok files ∧ NoDup layers ∧ (∀ l, l ∈ layers ↔ top_layer g l) ∧ dkeys files = names_of n layers ++ [n +:+ ".anno"] ∧ NoDup (dkeys files) ∧
      dget (n +:+ ".text") files = Some (PText (str (joined ss))) ∧
      dget (n +:+ ".tok") files = Some (PMarks "tok" (n +:+ ".text.xml") ms) ∧ marks_words g ss ms ∧
      (∀ l, l ∈ layers → layer_said salt g n l files) ∧
      dget (n +:+ ".anno") files = Some anno ∧ lists_files (names_of n layers) anno.
Proof.
  intros HO HR HA HT HV HS Hn (Hc & HL) HP. assert (HN : NInv g) by (by eapply reach_NInv). assert (C : Consistent g) by apply HN. assert (L : Layered g) by apply HN.
  assert (HM : rmap (λ t, of_option KeyError (dget t (xpointer_map g))) (g_tokens g) = Ok (xid <$> g_tokens g)).
  { apply rmap_Ok. apply Forall2_fmap_r, Forall_Forall2_diag. pose proof (tokens_in g ss HS) as HF. eapply Forall_impl; [exact HF|]. intros t Ht. cbn. rewrite (map_get g t Ht); [done|apply C]. }
  destruct HP as [g' e H|g' e H HE|g' ts H HE].
  - exfalso. destruct (relabel_xid g _ HN HA H) as (g2 & [=] & _).
  - rewrite HM in HE. done.
  - rewrite HM in HE. injection HE as <-. destruct (relabel_xid g _ HN HA H) as (g2 & [= <-] & N' & (D1 & D2 & _) & I').
    destruct (top_layers_ok g C L) as (ls & -> & HE). cbn [rbind]. rewrite <-(name_ok corpus g n Hn). set (layers := order _ (remove_dups ls)).
    assert (HD : NoDup layers) by (subst layers; rewrite (HO _ (remove_dups ls)); apply NoDup_remove_dups).
    assert (HI : ∀ l, l ∈ layers ↔ top_layer g l) by (intros l; subst layers; rewrite (HO _ (remove_dups ls)), elem_of_remove_dups; apply HE).
    assert (C' : Consistent g') by apply N'. assert (L' : Layered g') by apply N'.
    destruct Hn as (name & -> & Hname & _).
    assert (ND : NoDup (names_of (corpus +:+ "." +:+ name) layers ++ [(corpus +:+ "." +:+ name) +:+ ".anno"])). { apply names_NoDup; try done. apply Forall_forall. intros l Hl. by apply HL, HI. }
    destruct (files_ok order HO salt g (set_tokens (xid <$> g_tokens g) g') C (set_tokens_iso _ _ _ _ I') (set_tokens_C _ _ C') L' D2 eq_refl HT HV HA ss HS (corpus +:+ "." +:+ name) layers) as (files & ms & anno & E & K & F1 & F2 & F3 & F4 & F5 & F6); [apply Forall_forall; intros l Hl; by apply HL, HI|done|].
    exists files, layers, ms, anno. split; [exact E|]. split; [done|]. split; [done|]. split; [done|]. split; [by rewrite K|]. split; [done|]. split; [done|]. split; [done|]. split; [|done]. intros l Hl. rewrite Forall_forall in F4. by apply F4.
Qed.
