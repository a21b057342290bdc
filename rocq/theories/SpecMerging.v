(** * SpecMerging: merging several documents (C103) *)
From Verif Require Import PyBase DocGraph Relabel SpecGraph.

(** the texts of the tokens of [g], in order *)
Definition says (g : graph) (ts : list pyval) : Prop := Forall2 (λ n t, get_token g n = Ok t) (g_tokens g) ts.
(** tokens become those of [g] in the same position, other nodes keep their ids *)
Definition aligned (g og : graph) : nid → nid := mapped (zip (g_tokens og) (g_tokens g)).
(** the attributes of the token in position [i] *)
Definition token_at (i : nat) (g : graph) : option attrs := match g_tokens g !! i with Some t => node_attrs g t | None => None end.
Definition token_value (i : nat) (key : string) (g : graph) : option pyval := oget (token_at i g) key.
Definition token_layer (i : nat) (x : string) (g : graph) : Prop := ohas_layer (token_at i g) x.
Definition rooted (g : graph) : Prop := g_root g ∈ nodes g ∧ g_root g ∉ g_tokens g ∧ ∀ u k, edge_attrs g u (g_root g) k = None.
(** an attribute named like the text of tokens of the namespace [ns] is the text *)
Definition true_text (ns : string) (d : graph) : Prop := ∀ o a v, o ∈ g_tokens d → node_attrs d o = Some a → dget (ns +:+ ":token") a = Some v → get_token d o = Ok v.
(** [ogs] are further annotations of the text of [g]; [ns] is the namespace of the result *)
Record layers_of_text_for (ns : string) (ts : list pyval) (g : graph) (ogs : list graph) : Prop := {
  lt_built : Forall (reachable (λ o, no_bare_layers o ∧ no_empty_tuple o)) (g :: ogs);
  lt_text : Forall (λ d, says d ts) (g :: ogs);
  lt_once : Forall (λ d, NoDup (g_tokens d)) (g :: ogs);
  lt_truthy : Forall (λ t, nid_truthy t = true) (g_tokens g);
  lt_main : g_root g ∈ nodes g;
  lt_root : Forall rooted ogs;
  (* no two documents share a node *)
  lt_apart : ∀ i j d d' n, (g :: ogs) !! i = Some d → (g :: ogs) !! j = Some d' → n ∈ nodes d → n ∈ nodes d' → i = j;
  lt_ns : Forall (true_text ns) ogs;
}.
Definition layers_of_text (ts : list pyval) (g : graph) (ogs : list graph) : Prop := layers_of_text_for (g_ns g) ts g ogs.
(** the edges that a document contributes *)
Definition contributes (g og : graph) (new : list (nid * nid * nid * attrs)) : Prop :=
  ∃ brought moved, new = brought ++ moved ∧
    (∃ l, l ≡ₚ filter (λ e, e.1.1.1 ≠ g_root og) (edges og) ∧ Forall2 (via (aligned g og)) l brought) ∧
    ∃ l, l ≡ₚ filter (λ e, e.1.1.1 = g_root og) (edges og) ∧ Forall2 (via_root (aligned g og) (g_ns g) (g_root g)) l moved.
Definition first_nonempty {A} (l : list (list A)) : list A := default [] (head (filter (λ x, x ≠ []) l)).
Record all_merged (g : graph) (ogs : list graph) (g' : graph) : Prop := {
  (* the nodes *)
  am_nodes : ∀ n, n ∈ nodes g' ↔ n ∈ nodes g ∨ ∃ og m, og ∈ ogs ∧ m ∈ nodes og ∧ m ≠ g_root og ∧ n = aligned g og m;
  (* nodes that are no tokens keep their attributes *)
  am_own : ∀ n, n ∈ nodes g → n ∉ g_tokens g → node_attrs g' n = node_attrs g n;
  am_other : ∀ og m a, og ∈ ogs → node_attrs og m = Some a → m ≠ g_root og → m ∉ g_tokens og →
    ∃ a', node_attrs g' m = Some a' ∧ (∀ x, has_layer a' x ↔ has_layer a x) ∧ ∀ key, key ≠ "layers" → key ≠ g_ns g +:+ ":token" → dget key a' = dget key a;
  (* tokens have the layers of all documents; attributes of later documents win; the text stays *)
  am_layers : ∀ i x, i < length (g_tokens g) → token_layer i x g' ↔ Exists (token_layer i x) (g :: ogs);
  am_values : ∀ i key, i < length (g_tokens g) → key ≠ "layers" → key ≠ g_ns g +:+ ":token" → token_value i key g' = last (omap (token_value i key) (g :: ogs));
  am_text : ∀ n, n ∈ g_tokens g → get_token g' n = get_token g n;
  (* the edges *)
  am_edges : ∃ news, edges g' ≡ₚ edges g ++ concat news ∧ Forall2 (contributes g) ogs news;
  am_rest : g_tokens g' = g_tokens g ∧ g_ns g' = g_ns g ∧ g_root g' = g_root g ∧ g_sentences g' = first_nonempty (g_sentences <$> g :: ogs);
}.
