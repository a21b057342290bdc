(** * Conano: connectives annotated with ConAno

    Model of readwrite/conano.py with tokenize=True (the other value only puts text
    into labels, for debugging).  Simplifications: the XML file is its element tree
    without comments and processing instructions; text is made of bytes, so that
    [etree.tostring] and [ensure_unicode] do not change it; [name] is the name of the
    document after the default was applied. *)
From Verif Require Import PyBase DocGraph Relabel StrNum Query Text Rst Nltk Parsers.

(** an lxml element: text is the text before the first child, tail the text after the
    end tag *)
Inductive xml := XElem (x_tag : string) (x_attrib : dict string string) (x_text : option chars) (x_kids : list xml) (x_tail : option chars).
Definition x_tag (x : xml) : string := let 'XElem t _ _ _ _ := x in t.
Definition x_attrib (x : xml) : dict string string := let 'XElem _ a _ _ _ := x in a.
Definition x_text (x : xml) : option chars := let 'XElem _ _ t _ _ := x in t.
Definition x_kids (x : xml) : list xml := let 'XElem _ _ _ k _ := x in k.
Definition x_tail (x : xml) : option chars := let 'XElem _ _ _ _ t := x in t.
(** [element.attrib[key]] *)
Definition x_get (a : dict string string) (key : string) : res string := of_option KeyError (dget key a).

(** a loop over a state that ends with the first exception *)
Section Loop.
  Context {S A : Type} (f : A → S → S * option exc).
  Fixpoint loop (l : list A) (s : S) : S * option exc :=
    match l with
    | [] => (s, None)
    | x :: l => match f x s with (s, Some e) => (s, Some e) | (s, None) => loop l s end
    end.
End Loop.

(** ** Reading *)
(** conano.py:86-98: id and layers of the node of an element.  [parent] are the
    attributes of [element.getparent()]. *)
Definition conano_element (ns : string) (parent : option (dict string string)) (tag : string) (attrib : dict string string) : res (string * list string) :=
  if decide (tag = "unit") then
    let! i := x_get attrib "id" in
    let! ty := x_get attrib "type" in
    Ok (i +:+ ":" +:+ ty, [ns; ns +:+ ":unit"; ns +:+ ":" +:+ ty])
  else if decide (tag = "connective") then
    let! i := x_get attrib "id" in Ok (i +:+ ":connective", [ns; ns +:+ ":connective"])
  else if decide (tag = "discourse") then Ok ("discourse", [ns])
  else
    let! a := of_option AttributeError parent in
    let! i := x_get a "id" in Ok (i +:+ ":" +:+ tag, [ns; ns +:+ ":modifier"]).
(** the graph under construction and [self.token_count] *)
Notation tstate := (graph * Z)%type.
(** conano.py:131-145, _add_token *)
Definition conano_token (parent : nid) (w : chars) (s : tstate) : tstate * option exc :=
  let '(g, count) := s in
  let p := if decide (parent = NStr "root") then g_root g else parent in
  let t := NStr ("token:" +:+ str_Z count) in
  match add_node g t (VSet [g_ns g; g_ns g +:+ ":token"]) (Some [(g_ns g +:+ ":token", VStr (str w))]) [] with
  | (g, Some e) => ((g, count), Some e)
  | (g, None) =>
    match add_edge g p t (VSet [g_ns g]) None None [("edge_type", VStr spans)] with
    | (g, Some e) => ((g, count), Some e)
    | (g, None) => ((set_tokens (g_tokens g ++ [t]) g, (count + 1)%Z), None)
    end
  end.
(** [if text: for token in text.split(): ...] *)
Definition conano_text (parent : nid) (text : option chars) (s : tstate) : tstate * option exc :=
  loop (conano_token parent) (split_blanks (default [] text)) s.
(** conano.py:81-128, _add_element *)
Fixpoint conano_add (pa : option (dict string string)) (parent : nid) (x : xml) (s : tstate) : tstate * option exc :=
  let 'XElem tag attrib text kids tail := x in
  match conano_element (g_ns s.1) pa tag attrib with
  | Err e => (s, Some e)
  | Ok (i, layers) =>
    match add_node s.1 (NStr i) (VSet layers) None [] with
    | (g, Some e) => ((g, s.2), Some e)
    | (g, None) =>
      match add_edge g parent (NStr i) (VSet [g_ns g]) None None [("edge_type", VStr dominates)] with
      | (g, Some e) => ((g, s.2), Some e)
      | (g, None) =>
        match conano_text (NStr i) text (g, s.2) with
        | (s, Some e) => (s, Some e)
        | (s, None) =>
          match loop (conano_add (Some attrib) (NStr i)) kids s with
          | (s, Some e) => (s, Some e)
          | (s, None) => conano_text parent tail s
          end
        end
      end
    end
  end.
(** [etree.tostring(tree, method='text')] *)
Fixpoint xml_text (x : xml) : chars :=
  let 'XElem _ _ text kids tail := x in default [] text ++ concat (map xml_text kids) ++ default [] tail.
(** conano.py:147-161, is_valid.  When a token differs, the error message is built
    with too few arguments, which raises IndexError before False is returned. *)
Fixpoint conano_check (g : graph) (plain : list chars) (toks : list nid) : res bool :=
  match plain with
  | [] => Ok true
  | p :: plain =>
    let! t := of_option IndexError (head toks) in
    let! s := token_str g t in
    if decide (p = chs s) then conano_check g plain (tail toks) else Err IndexError
  end.
Definition conano_is_valid (g : graph) (x : xml) : res bool := conano_check g (split_blanks (xml_text x)) (g_tokens g).
(** conano.py:43-79, __init__ *)
Definition read_conano (name ns : string) (check precedence : bool) (x : xml) : outcome :=
  let g := set_name name (init_graph "" ns None) in
  match conano_add None (g_root g) x (g, 1%Z) with
  | ((g, _), Some e) => (g, Some e)
  | ((g, _), None) =>
    match (if precedence then add_precedence_relations g else (g, None)) with
    | (g, Some e) => (g, Some e)
    | (g, None) =>
      if check then
        match conano_is_valid g x with
        | Ok true => (g, None)
        | Ok false => (g, Some AssertionError)
        | Err e => (g, Some e)
        end
      else (g, None)
    end
  end.

(** ** Queries *)
(** conano.py:164-190, get_conano_units with data=True *)
Definition conano_units (fuel : nat) (g : graph) (ns : string) : res (list (nid * list nid)) :=
  let! l := select_nodes_by_layer g (LOne (ns +:+ ":unit")) in
  rmap (λ n, let! sp := get_span fuel g n in Ok (n, sp)) (nat_sorted l).
(** conano.py:193-200, get_connective; [unit_id] is a string *)
Definition conano_connective (fuel : nat) (g : graph) (unit_id : chars) : res chars :=
  match split_char ":"%char unit_id with
  | [i; _] =>
    let! sp := get_span fuel g (NStr (str (i ++ chs ":connective"))) in
    let! ws := rmap (λ t, let! s := token_str g t in Ok (str (lower (chs s)))) sp in
    Ok (chs (join_sp ws))
  | _ => Err ValueError
  end.
