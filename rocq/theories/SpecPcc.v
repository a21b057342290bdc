(** * SpecPcc: documents of the Potsdam Commentary Corpus (C104) *)
From Verif Require Import PyBase StrNum.

Definition doc_id (d : chars) : Prop := ∃ ds, d = chs "maz-" ++ ds ∧ ds ≠ [] ∧ Forall (λ c, is_digit c = true) ds.
Definition within (p s : chars) : Prop := ∃ a b, s = a ++ p ++ b.
(** dir/maz-123.ext *)
Definition file_of (d f : chars) : Prop :=
  ∃ dir ext, f = dir ++ "/"%char :: d ++ "."%char :: ext ∧ doc_id d ∧ "/"%char ∉ ext ∧ ¬ within (chs "maz-") dir ∧ ¬ within (chs "maz-") ext.
Definition well_named (layers : list (string * list chars)) : Prop := Forall (λ p : string * list chars, Forall (λ f, ∃ d, file_of d f) p.2) layers.
(** [x] is a file of a layer of the document [d] *)
Definition layer_file (layers : list (string * list chars)) (d : chars) (x : string * chars) : Prop := (∃ fs, (x.1, fs) ∈ layers ∧ x.2 ∈ fs) ∧ file_of d x.2.
