(** * Anaphora: the ad-hoc anaphoricity format

    Model of readwrite/anaphoricity.py.  Simplifications: a file is its text (byte
    strings; [ensure_unicode] is the identity on them), [name] is the name of the
    document after the default was applied. *)
From Verif Require Import PyBase DocGraph Relabel StrNum Query Text Rst Nltk Parsers.

(** ** The regular expression, anaphoricity.py:26-27 *)
(** one character of each of the classes *)
Fixpoint take_classes (cls : list string) (s : chars) : option (chars * chars) :=
  match cls with
  | [] => Some ([], s)
  | cl :: cls =>
    match s with
    | [] => None
    | c :: s => if decide (c ∈ chs cl) then (λ p, (c :: p.1, p.2)) <$> take_classes cls s else None
    end
  end.
(** one alternative of the token, then the annotation and the question mark:
    (token, annotation, uncertain?) *)
Definition anno_tail (r : chars * chars) : option (chars * ascii * bool) :=
  match take_classes ["/"; "anpr"] r.2 with
  | Some ([_; x], rest) => Some (r.1, x, bool_decide (head rest = Some "?"%char))
  | _ => None
  end.
Definition anno_match (s : chars) : option (chars * ascii * bool) :=
  match (match take_classes ["Dd"; "a"; "s"] s with Some r => anno_tail r | None => None end) with
  | Some m => Some m
  | None => match take_classes ["Ee"; "s"] s with Some r => anno_tail r | None => None end
  end.
(** [.search]: the leftmost match *)
Fixpoint anno_search (s : chars) : option (chars * ascii * bool) :=
  match anno_match s with
  | Some m => Some m
  | None => match s with [] => None | _ :: s => anno_search s end
  end.
(** anaphoricity.py:29-34 *)
Definition annotation_types : dict ascii string :=
  [("n"%char, "nominal"); ("a"%char, "abstract"); ("r"%char, "relative"); ("p"%char, "pleonastic")].
Definition annotations : dict string ascii := (λ p, (p.2, p.1)) <$> annotation_types.

(** ** Reading *)
(** anaphoricity.py:121-141: layers and attributes of a token *)
Definition anno_token (ns : string) (w : chars) : list string * attrs :=
  match anno_search w with
  | Some (tok, x, uncertain) =>
    let ty := default "" (dget x annotation_types) in
    ([ns; ns +:+ ":token"; ns +:+ ":annotated"],
     [(ns +:+ ":annotation", VStr ty);
      (ns +:+ ":certainty", VStr (if uncertain : bool then "0.5" else "1.0"));
      (ns +:+ ":token", VStr (str tok));
      ("label", VStr (str tok +:+ "_" +:+ ty))])
  | None => ([ns; ns +:+ ":token"], [(ns +:+ ":token", VStr (str w)); ("label", VStr (str w))])
  end.
(** anaphoricity.py:103-105 and 107-145, __add_token_to_document *)
Definition add_anno_token (connected : bool) (g : graph) (p : nat * chars) : outcome :=
  let t := NInt (Z.of_nat p.1) in
  let info := anno_token (g_ns g) p.2 in
  match add_node g t (VSet info.1) (Some info.2) [] with
  | (g, Some e) => (g, Some e)
  | (g, None) =>
    match (if connected then add_edge g (g_root g) t (VSet [g_ns g; g_ns g +:+ ":token"]) None None [] else (g, None)) with
    | (g, Some e) => (g, Some e)
    | (g, None) => (set_tokens (g_tokens g ++ [t]) g, None)
    end
  end.
(** self.name, self.ns, self.root, self.tokens = ... *)
Definition set_document (name ns : string) (root : nid) (g : graph) : graph :=
  mkGraph name ns root (g_node g) (g_succ g) (g_pred g) [] (g_sentences g) (g_meta g).
(** anaphoricity.py:99-102: the words of all lines; [readlines] ends lines at "\n" *)
Definition line_words (text : chars) : list chars := concat (split_blanks <$> split_char nl text).
(** anaphoricity.py:54-105, __init__ *)
Definition read_anaphoricity (name ns : string) (connected : bool) (text : chars) : outcome :=
  let root := NStr (ns +:+ ":root_node") in
  let g := set_document name ns root (init_graph "" "anaphoricity" None) in
  match add_node g root (VSet [ns]) None [] with
  | (g, Some e) => (g, Some e)
  | (g, None) => for_each (add_anno_token connected) (imap pair (line_words text)) g
  end.

(** ** Writing *)
(** anaphoricity.py:148-162, gen_anaphoricity_str.  The certainty is looked up in
    the name of the key instead of the attribute (:160). *)
Definition certainty_str (g : graph) : chars := if decide (g_ns g +:+ ":certainty" = "1.0") then [] else ["?"%char].
Definition anno_word (g : graph) (annotated : list nid) (t : nid) : res chars :=
  let! s := token_str g t in
  if decide (t ∈ annotated) then
    let! a := of_option KeyError (node_attrs g t) in
    let! v := of_option KeyError (dget (g_ns g +:+ ":annotation") a) in
    let! x := of_option KeyError (match v with VStr ty => dget ty annotations | _ => None end) in
    Ok (chs s ++ "/"%char :: x :: certainty_str g ++ [" "%char])
  else Ok (chs s ++ [" "%char]).
Definition gen_anaphoricity_str (g : graph) (anaphora : string) : res chars :=
  if decide (anaphora ∈ ["das"; "es"]) then
    let! l := select_nodes_by_layer g (LOne (g_ns g +:+ ":annotated")) in
    let! annotated := rfilter (λ t, let! s := token_str g t in Ok (bool_decide (lower (chs s) = chs anaphora))) l in
    rconcat (anno_word g annotated) (g_tokens g)
  else Err AssertionError.
