(** * SpecExb: what an Exmaralda document describes (C79-C82) *)
From Verif Require Import PyBase DocGraph Relabel StrNum Query Text Rst SpecGraph SpecQuery SpecImport SpecUrml Exb.

(** ** The timeline *)
(** the ids of the <tli> elements in the order of their times *)
Definition timeline (d : exb) : list nid := (λ p : string * Z, NStr p.1) <$> isort (λ a b : string * Z, Z.compare a.2 b.2) (ex_timeline d).
(** [tl] is the timeline in the order of times; equal times: in document order *)
Definition by_time (d : exb) (tl : list (string * Z)) : Prop :=
  tl ≡ₚ ex_timeline d ∧ (∀ i j a b, i < j → tl !! i = Some a → tl !! j = Some b → (a.2 ≤ b.2)%Z) ∧
  ∀ x, filter (λ p : string * Z, p.2 = x) tl = filter (λ p : string * Z, p.2 = x) (ex_timeline d).
Definition point (i : Z) : nid := NStr ("T" +:+ str_Z i).

(** ** Events *)
(** from where to where: the numbers in the ids *)
Definition extent (e : event) : option (Z * Z) :=
  match py_int (tail (chs (ev_start e))), py_int (tail (chs (ev_end e))) with Ok i, Ok j => Some (i, j) | _, _ => None end.
(** the event is about one point *)
Definition single (e : event) : Prop := (λ p : Z * Z, (p.2 - p.1)%Z) <$> extent e = Some 1%Z.
(** the points of an event, without the last *)
Definition points (e : event) : list nid := match extent e with Some (i, j) => point <$> xrange i j | None => [] end.

(** ** Tiers: words, marks of single points, spans *)
Definition is_word_tier (tt : string) (t : tier) : Prop := ti_category t = tt.
Definition is_mark_tier (tt : string) (t : tier) : Prop := ti_category t ≠ tt ∧ Forall single (ti_events t).
Definition is_span_tier (tt : string) (t : tier) : Prop := ti_category t ≠ tt ∧ ¬ Forall single (ti_events t).
Global Instance single_dec e : Decision (single e) := decide (_ = _).
Global Instance is_word_tier_dec tt t : Decision (is_word_tier tt t) := decide (_ = _).
Global Instance is_mark_tier_dec tt t : Decision (is_mark_tier tt t) := decide (_ ∧ _).
Global Instance is_span_tier_dec tt t : Decision (is_span_tier tt t) := decide (_ ∧ _).
(** the tiers that are read *)
Definition tiers_read (ignored : option (list string)) (d : exb) : list tier := filter (λ t, ti_category t ∉ default [] ignored) (ex_tiers d).
Definition text_value (e : event) : pyval := match ev_text e with Some s => VStr s | None => VNone end.
Definition marks_of (ns tt : string) (t : tier) : list (nid * (string * pyval)) :=
  if decide (is_word_tier tt t) then (λ e, (NStr (ev_start e), (ns +:+ ":token", text_value e))) <$> ti_events t
  else if decide (is_mark_tier tt t) then (λ e, (NStr (ev_start e), (ns +:+ ":" +:+ ti_category t, VStr (default "" (ev_text e))))) <$> ti_events t
  else [].
(** the marks of a point; the last one counts *)
Definition point_info (ns : string) (ms : list (nid * (string * pyval))) (n : nid) : node_info := (n, [ns], rev (snd <$> filter (λ m : nid * (string * pyval), m.1 = n) ms)).
Definition span_name (t : tier) (i : nat) : nid := NStr (ti_id t +:+ "_" +:+ str_Z (Z.of_nat i)).
Definition tier_info (ns : string) (t : tier) : node_info :=
  (NStr (ti_id t), [ns; ns +:+ ":tier"], [(ns +:+ ":category", VStr (ti_category t)); (ns +:+ ":type", VStr (ti_type t)); (ns +:+ ":display-name", VStr (ti_display t))]).
Definition span_info (ns : string) (t : tier) (p : nat * event) : node_info :=
  (span_name t p.1, [ns; ns +:+ ":span"], [(ns +:+ ":annotation", VStr (default "" (ev_text p.2))); ("label", VStr (default "" (ev_text p.2)))]).
Definition tier_nodes (ns : string) (t : tier) : list node_info := tier_info ns t :: (span_info ns t <$> imap pair (ti_events t)).
Definition dominated (ns : string) (u v : nid) : edge_info := (u, v, [ns], [("edge_type", VStr "dominates")]).
Definition spanned (ns : string) (u v : nid) : edge_info := (u, v, [ns], [("edge_type", VStr "spans")]).
Definition span_edges (ns : string) (t : tier) (p : nat * event) : list edge_info :=
  dominated ns (NStr (ti_id t)) (span_name t p.1) :: (spanned ns (span_name t p.1) <$> points p.2).
Definition tier_edges (ns : string) (t : tier) : list edge_info :=
  dominated ns (NStr (ns +:+ ":root_node")) (NStr (ti_id t)) :: (imap pair (ti_events t) ≫= span_edges ns t).

(** ** The graph *)
Definition span_tiers (tt : string) (ts : list tier) : list tier := filter (is_span_tier tt) ts.
Definition span_nodes (ns tt : string) (ts : list tier) : list node_info := span_tiers tt ts ≫= tier_nodes ns.
Definition exb_edges (ns tt : string) (ts : list tier) : list edge_info := span_tiers tt ts ≫= tier_edges ns.
(** the root that each new graph has *)
Definition first_root : nid := NStr "discoursegraph:root_node".
Definition exb_described (ns tt : string) (ts : list tier) (d : exb) : list node_info :=
  (first_root, ["discoursegraph"], []) :: (point_info ns (ts ≫= marks_of ns tt) <$> timeline d) ++ span_nodes ns tt ts.
(** linked, but not described: the root, and points that are not in the timeline *)
Definition exb_undescribed (ns tt : string) (ts : list tier) (d : exb) : list nid :=
  remove_dups (filter (λ n, n ∉ (λ x : node_info, x.1.1) <$> exb_described ns tt ts d) (e ← exb_edges ns tt ts; [e.1.1.1; e.1.1.2])).
Definition exb_nodes (ns tt : string) (ts : list tier) (d : exb) : list node_info :=
  exb_described ns tt ts d ++ ((λ n, (n, [ns], [])) <$> exb_undescribed ns tt ts d).

(** ** What the reader needs *)
Definition exb_distinct (ns tt : string) (ts : list tier) (d : exb) : Prop :=
  NoDup (NStr (ns +:+ ":root_node") :: timeline d ++ ((λ x : node_info, x.1.1) <$> span_nodes ns tt ts)) ∧
  first_root ∉ timeline d ++ ((λ x : node_info, x.1.1) <$> span_nodes ns tt ts).
Definition event_ok (tt : string) (d : exb) (t : tier) (e : event) : Prop :=
  is_Some (extent e) ∧ (is_word_tier tt t → single e) ∧ (¬ is_span_tier tt t → NStr (ev_start e) ∈ timeline d).
Definition exb_formed (tt : string) (ts : list tier) (d : exb) : Prop := Forall (λ t, Forall (event_ok tt d t) (ti_events t)) ts.
(** spans are inside the timeline *)
Definition exb_inside (tt : string) (ts : list tier) (d : exb) : Prop :=
  ∀ t e n, t ∈ ts → is_span_tier tt t → e ∈ ti_events t → n ∈ points e → n ∈ timeline d.
(** no event starts at a tier, a span or a root *)
Definition exb_apart (ns tt : string) (ts : list tier) : Prop :=
  ∀ t e, t ∈ ts → e ∈ ti_events t → NStr (ev_start e) ∉ first_root :: NStr (ns +:+ ":root_node") :: ((λ x : node_info, x.1.1) <$> span_nodes ns tt ts).

(** ** Words *)
(** the word at a point: the last event of a tier of words that starts there.  (A tier of marks whose category is
    token is read as words, too.) *)
Definition word_at (ns tt : string) (ts : list tier) (n : nid) : option pyval := dget (ns +:+ ":token") (point_info ns (ts ≫= marks_of ns tt) n).2.
Definition has_word (ns tt : string) (ts : list tier) (d : exb) (n : nid) : Prop := n ∈ timeline d ∧ is_Some (word_at ns tt ts n).
Global Instance has_word_dec ns tt ts d n : Decision (has_word ns tt ts d n) := decide (_ ∧ _).
