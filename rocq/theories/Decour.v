(** * Decour: court transcripts of the DeCour corpus

    Model of readwrite/decour.py.  Simplifications: as in Conano.v; the find methods
    of lxml are used with paths of one child step only. *)
From Verif Require Import PyBase DocGraph Relabel StrNum Query Text Rst Nltk Anaphora Conano.

(** tree.find('/tag'), element.find('./tag'), .iterfind: children with this tag *)
Definition x_findall (tag : string) (x : xml) : list xml := filter (λ k, x_tag k = tag) (x_kids x).
Definition x_find (tag : string) (x : xml) : option xml := head (x_findall tag x).

(** the graph under construction, [self.token_count] and [self.act_count] *)
Notation dstate := (graph * Z * Z)%type.
Definition on_graph (s : dstate) (r : outcome) : dstate * option exc := ((r.1, s.1.2, s.2), r.2).
(** decour.py:145-151, _add_dominance_relation *)
Definition decour_dominance (u v : string + nid) (s : dstate) : dstate * option exc :=
  let node (x : string + nid) := match x with inl i => NStr i | inr n => n end in
  let g := s.1.1 in
  match add_node g (node v) (VSet [g_ns g; g_ns g +:+ ":unit"]) None [] with
  | (g, Some e) => on_graph s (g, Some e)
  | (g, None) => on_graph s (add_edge g (node u) (node v) (VSet [g_ns g; g_ns g +:+ ":discourse"]) None None [("edge_type", VStr dominates)])
  end.
(** decour.py:97-109 and 153-156, _add_token_to_document followed by
    _add_spanning_relation; the token is appended to tokens before the edge is added *)
Definition decour_token (parent : string) (extra : attrs) (w : chars) (s : dstate) : dstate * option exc :=
  let '(g, count, act) := s in
  let t := NStr ("token_" +:+ str_Z count) in
  let feat := [(g_ns g +:+ ":token", VStr (str w))] in
  match add_node g t (VSet [g_ns g; g_ns g +:+ ":token"]) (Some (dupdate extra feat)) [] with
  | (g, Some e) => ((g, count, act), Some e)
  | (g, None) =>
    let g := set_tokens (g_tokens g ++ [t]) g in
    match add_edge g (NStr parent) t (VSet [g_ns g; g_ns g +:+ ":unit"]) None None [("edge_type", VStr spans)] with
    | (g, e) => ((g, (count + 1)%Z, act), e)
    end
  end.
(** [elem.text.split()] *)
Definition x_words (x : xml) : res (list chars) := let! t := of_option AttributeError (x_text x) in Ok (split_blanks t).
(** decour.py:111-123, _add_utterance_to_document *)
Definition decour_word (ns : string) (norm lemma pos : list chars) (utter : string) (p : nat * chars) (s : dstate) : dstate * option exc :=
  match norm !! p.1, lemma !! p.1, pos !! p.1 with
  | Some n, Some l, Some o =>
    decour_token utter [(ns +:+ ":norm", VStr (str n)); (ns +:+ ":lemma", VStr (str l)); (ns +:+ ":pos", VStr (str o))] p.2 s
  | _, _, _ => (s, Some IndexError)
  end.
Definition decour_utterance (x : xml) (s : dstate) : dstate * option exc :=
  let prep :=
    let! nr := x_get (x_attrib x) "nrgen" in
    let! ls := rmap x_words (x_kids x) in
    match ls with
    | [norm; lemma; pos] => let! ws := x_words x in Ok (nr, norm, lemma, pos, ws)
    | _ => Err ValueError
    end in
  match prep with
  | Err e => (s, Some e)
  | Ok (nr, norm, lemma, pos, ws) =>
    loop (decour_word (g_ns s.1.1) norm lemma pos ("utterance_" +:+ nr)) (imap pair ws) s
  end.
(** decour.py:125-143, _add_token_span_to_document *)
Definition decour_span (x : xml) (s : dstate) : dstate * option exc :=
  match x_words x with
  | Err e => (s, Some e)
  | Ok ws =>
    let act := s.2 in
    let parent := if decide (x_tag x = "act") then "act_" +:+ str_Z act else x_tag x in
    match loop (decour_token parent []) ws s with
    | (s, Some e) => (s, Some e)
    | (s, None) => ((s.1, if decide (x_tag x = "act") then (act + 1)%Z else act), None)
    end
  end.
(** decour.py:75-90: one utterance, one turn *)
Definition decour_turn_utterance (turn : string) (x : xml) (s : dstate) : dstate * option exc :=
  match x_get (x_attrib x) "nrgen" with
  | Err e => (s, Some e)
  | Ok nr =>
    match decour_dominance (inl turn) (inl ("utterance_" +:+ nr)) s with
    | (s, Some e) => (s, Some e)
    | (s, None) => decour_utterance x s
    end
  end.
Definition decour_turn (x : xml) (s : dstate) : dstate * option exc :=
  match x_get (x_attrib x) "nrgen" with
  | Err e => (s, Some e)
  | Ok nr =>
    let turn := "turn_" +:+ nr in
    match decour_dominance (inr (g_root s.1.1)) (inl turn) s with
    | (s, Some e) => (s, Some e)
    | (s, None) =>
      let r := match x_find "act" x with
               | None => (s, None)
               | Some act =>
                 match decour_dominance (inl turn) (inl ("act_" +:+ str_Z s.2)) s with
                 | (s, Some e) => (s, Some e)
                 | (s, None) => decour_span act s
                 end
               end in
      match r with
      | (s, Some e) => (s, Some e)
      | (s, None) => loop (decour_turn_utterance turn) (x_findall "utterance" x) s
      end
    end
  end.
(** decour.py:64-95, _parse_decour: [tree.find('/intro')] is None if there is no intro *)
Definition decour_parse (x : xml) (s : dstate) : dstate * option exc :=
  let root := g_root s.1.1 in
  match decour_dominance (inr root) (inl "intro") s with
  | (s, Some e) => (s, Some e)
  | (s, None) =>
    match (match x_find "intro" x with None => (s, Some AttributeError) | Some i => decour_span i s end) with
    | (s, Some e) => (s, Some e)
    | (s, None) =>
      match loop decour_turn (x_findall "turn" x) s with
      | (s, Some e) => (s, Some e)
      | (s, None) =>
        match x_find "conclu" x with
        | None => (s, None)
        | Some c =>
          match decour_dominance (inr root) (inl "conclu") s with
          | (s, Some e) => (s, Some e)
          | (s, None) => decour_span c s
          end
        end
      end
    end
  end.
(** decour.py:33-62, __init__ *)
Definition read_decour (name ns : string) (precedence : bool) (x : xml) : outcome :=
  let root := NStr (ns +:+ ":root_node") in
  let g := set_document name ns root (init_graph "" "discoursegraph" None) in
  match add_node g root (VSet [ns]) None [] with
  | (g, Some e) => (g, Some e)
  | (g, None) =>
    match decour_parse x (g, 1%Z, 1%Z) with
    | ((g, _, _), Some e) => (g, Some e)
    | ((g, _, _), None) => if precedence then add_precedence_relations g else (g, None)
    end
  end.
