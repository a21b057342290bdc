(** * PropLayers: the annotation layers of a graph (C101) *)
From Verif Require Import PyBase DocGraph Relabel StrNum Query SpanFacts SpecGraph DocGraphFacts Effects AllHist Witness SpecExbWrite ExbWrite SpecPaula PaulaAll.

(** ** C101 Annotation layers *)
Theorem C101_layers : ∀ g, reachable no_bare_layers g → ∃ ls, get_annotation_layers g = Ok ls ∧ ∀ l, l ∈ ls ↔ (∃ n, ohas_layer (node_attrs g n) l) ∨ ∃ e, e ∈ edges g ∧ has_layer e.2 l.
Proof. intros g H%reach_GInv. destruct H as [C L]. exact (layers_total g C L). Qed.
Print Assumptions C101_layers.
Theorem C101_parts : ∀ g ls, reachable no_bare_layers g → get_annotation_layers g = Ok ls → ∃ ns es,
  get_node_annotation_layers g = Ok ns ∧ get_edge_annotation_layers g = Ok es ∧ (∀ l, l ∈ ls ↔ l ∈ ns ∨ l ∈ es) ∧
  (∀ l, l ∈ ns ↔ ∃ n, ohas_layer (node_attrs g n) l) ∧ ∀ l, l ∈ es ↔ ∃ e, e ∈ edges g ∧ has_layer e.2 l.
Proof.
  intros g ls [C [L1 L2]]%reach_GInv H. unfold get_annotation_layers in H. destruct (get_node_annotation_layers g) as [ns|] eqn:En; cbn [rbind] in H; [|done]. destruct (get_edge_annotation_layers g) as [es|] eqn:Ee; cbn [rbind] in H; [|done]. injection H as <-.
  exists ns, es. split; [reflexivity|]. split; [reflexivity|]. split; [intros l; apply elem_of_app|].
  assert (HL : ∀ a l k, layers_of a = Ok l → layered a → k ∈ l ↔ has_layer a k). { intros a l k Hl [s Hs]. unfold layers_of in Hl. rewrite Hs in Hl. injection Hl as <-. unfold has_layer. rewrite Hs. split; [intros Hk; by exists s|]. by intros (s' & [= <-] & ?). }
  assert (HR : ∀ {A} (f : A → attrs) xs r, rconcat (λ x, layers_of (f x)) xs = Ok r → (∀ x, x ∈ xs → layered (f x)) → ∀ k, k ∈ r ↔ ∃ x, x ∈ xs ∧ has_layer (f x) k).
  { intros A f xs r (ss & HF & ->)%rconcat_Ok HX k. induction HF as [|x s xs ss Hx HF IH]; [cbn; rewrite elem_of_nil; split; [done|]; by intros (x & ?%elem_of_nil & _)|]. cbn [concat]. rewrite elem_of_app, IH by (intros y Hy; apply HX; by right). rewrite (HL _ _ k Hx) by (apply HX; left). split.
    - intros [?|(y & ? & ?)]; [exists x; split; [left|done]|exists y; split; [by right|done]].
    - intros (y & [->|Hy]%elem_of_cons & Hk); [by left|right; by exists y]. }
  assert (HN : ∀ p, p ∈ g_node g → node_attrs g p.1 = Some p.2). { intros [n a] Hp. unfold node_attrs. apply elem_dget; [apply C|done]. }
  split; intros l.
  - rewrite (HR _ (λ p : nid * attrs, p.2) _ _ En) by (intros p Hp; eapply L1; by apply HN). unfold ohas_layer. split.
    + intros (p & Hp & Hk). exists p.1, p.2. split; [by apply HN|done].
    + intros (n & a & Hn & Hk). exists (n, a). split; [|done]. by apply dget_Some_elem in Hn.
  - apply (HR _ (λ e : edge, e.2) _ _ Ee). intros [[[u v] k] a] He. apply elem_edges in He; [|done]. by eapply L2.
Qed.
Print Assumptions C101_parts.
(** a top level layer is what stands before the first colon of a layer *)
Theorem C101_top : ∀ g, reachable no_bare_layers g → ∃ ls, get_top_level_layers g = Ok ls ∧
  ∀ l, l ∈ ls ↔ ":"%char ∉ chs l ∧ ∃ x, used_layer g x ∧ (x = l ∨ ∃ t, x = l +:+ ":" +:+ t).
Proof. intros g H%reach_GInv. destruct H as [C L]. exact (top_layers_ok g C L). Qed.
Print Assumptions C101_top.
Definition has_all (r : res (list string)) (l : list string) : bool :=
  match r with Ok ls => forallb (λ x, bool_decide (x ∈ l)) ls && forallb (λ x, bool_decide (x ∈ ls)) l | Err _ => false end.
Example C101_hyp : reachable no_bare_layers wit_a ∧ has_all (get_annotation_layers wit_a) ["A"; "A:token"; "z"; "x"; "dom"; "y"] = true ∧ has_all (get_top_level_layers wit_a) ["A"; "z"; "x"; "dom"; "y"] = true.
Proof. split; [apply wit_no_bare|]. split; vm_compute; reflexivity. Qed.
