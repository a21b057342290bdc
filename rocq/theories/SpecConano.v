(** * SpecConano: vocabulary of C43, ConAno documents *)
From Verif Require Import PyBase DocGraph Relabel StrNum Query SpecGraph SpecQuery SpecParse SpecImport SpecAnaphora SpecOutline Conano.

(** id and layers of an element; [parent]: the attributes of the element around it *)
Inductive element_named (ns : string) (parent : option (dict string string)) : string → dict string string → string → list string → Prop :=
| EN_unit a i ty : dget "id" a = Some i → dget "type" a = Some ty → element_named ns parent "unit" a (i +:+ ":" +:+ ty) [ns; ns +:+ ":unit"; ns +:+ ":" +:+ ty]
| EN_connective a i : dget "id" a = Some i → element_named ns parent "connective" a (i +:+ ":connective") [ns; ns +:+ ":connective"]
| EN_discourse a : element_named ns parent "discourse" a "discourse" [ns]
| EN_other tag a pa i : tag ∉ ["unit"; "connective"; "discourse"] → parent = Some pa → dget "id" pa = Some i →
    element_named ns parent tag a (i +:+ ":" +:+ tag) [ns; ns +:+ ":modifier"].
Definition word_items (ws : list chars) : list item := (λ w, IWord (str w) []) <$> ws.
(** what an element and the text after it contain, in document order *)
Inductive conano_content (ns : string) : option (dict string string) → xml → list item → Prop :=
| CC parent tag a text kids tail i layers ws its ws' : element_named ns parent tag a i layers →
    words_in (default [] text) ws → Forall2 (conano_content ns (Some a)) kids its → words_in (default [] tail) ws' →
    conano_content ns parent (XElem tag a text kids tail) (INode i layers (word_items ws ++ concat its) :: word_items ws').
(** the text of a document without the tags *)
Inductive plain_text : xml → chars → Prop :=
| PT tag a text kids tail ts : Forall2 plain_text kids ts → plain_text (XElem tag a text kids tail) (default [] text ++ concat ts ++ default [] tail).

Definition conano_root (ns : string) : nid := NStr (ns +:+ ":root_node").
Definition conano_style (ns : string) : style := Style "token:" [ns] [ns].
Definition conano_base (ns : string) : list node_info := [(conano_root ns, [ns], [])].
Definition conano_parts (ns : string) (items : list item) : list (list nid * nid * part) := outline_parts (conano_style ns) (conano_root ns) items.
