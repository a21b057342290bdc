(** * SpecSalt: what a SaltXMI document says (C97-C99) *)
From Verif Require Import PyBase DocGraph StrNum Rst Conano SpecAnaphora SpecConllRead Salt.

(** ** Elements *)
Fixpoint preorder (x : xml) : list xml := x :: concat (preorder <$> x_kids x).
(** the elements with this tag below the root, in document order *)
Definition tagged_below (tag : string) (t : xml) : list xml := filter (λ k, x_tag k = tag) (tail (preorder t)).
Definition labels_of (x : xml) : list xml := filter (λ k, x_tag k = "labels") (x_kids x).
Definition has (k : string) (x : xml) (v : string) : Prop := dget k (x_attrib x) = Some v.
Definition type_attribute : string := "{http://www.w3.org/2001/XMLSchema-instance}type".
(** the first element of a list that satisfies [P], the last one *)
Definition first_such {A} (P : A → Prop) (l : list A) (x : A) : Prop := ∃ pre post, l = pre ++ x :: post ∧ P x ∧ Forall (λ y, ¬ P y) pre.
Definition last_such {A} (P : A → Prop) (l : list A) (x : A) : Prop := ∃ pre post, l = pre ++ x :: post ∧ P x ∧ Forall (λ y, ¬ P y) post.

(** ** Labels *)
(** the bytes written with two hexadecimal digits each *)
Definition hex_chars : chars := chs "0123456789ABCDEF".
Inductive hex_of : chars → chars → Prop :=
| HO_nil : hex_of [] []
| HO_cons c s h a b i j : hex_chars !! i = Some a → hex_chars !! j = Some b → nat_of_ascii c = 16 * i + j → hex_of s h → hex_of (c :: s) (a :: b :: h).
Record label_reads (x : xml) (l : slabel) : Prop := {
  lr_type : has type_attribute x (sl_type l);
  lr_name : has "name" x (sl_name l);
  lr_value : has "valueString" x (sl_value l);
  lr_namespace : ∀ n, sl_namespace l = Some n ↔ n ≠ "" ∧ has "namespace" x n;
  lr_hex : (has "value" x (sl_hex l) ∧ sl_hex l ≠ "") ∨ (has "value" x "" ∧ hex_of (chs (sl_value l)) (chs (sl_hex l)));
}.
(** the first label with this name has this value *)
Definition labelled (e : selem) (name value : string) : Prop := ∃ l, first_such (λ l, sl_name l = name) (se_labels e) l ∧ sl_value l = value.

(** ** Attributes *)
(** a reference such as //@nodes.251: anything, one dot, a number *)
Definition refers (s : chars) (z : Z) : Prop := ∃ p n, s = p ++ "."%char :: n ∧ "."%char ∉ p ∧ "."%char ∉ n ∧ is_integer n z.
Definition field (e : selem) (k : string) (v : sfield) : Prop := dget k (se_fields e) = Some v.
(** the layers that an element names: none if it has no such attribute *)
Definition layers_read (x : xml) (e : selem) : Prop :=
  ∃ ls, field e "layers" (FInts ls) ∧
  match dget "layers" (x_attrib x) with None => ls = [] | Some s => ∃ ws, words_in (chs s) ws ∧ Forall2 refers ws ls end.
Definition end_read (x : xml) (e : selem) (k : string) : Prop := ∃ s z, has k x s ∧ refers (chs s) z ∧ field e k (FInt z).
(** the annotations: children with the type of an annotation; of those with the same name the last one counts *)
Definition annotations (x : xml) : list xml := filter (λ k, dget type_attribute (x_attrib k) = Some "saltCore:SAnnotation") (x_kids x).
Definition features_read (x : xml) (e : selem) : Prop :=
  ∃ d, field e "features" (FDict d) ∧ Forall (λ k, ∃ t, has type_attribute k t) (x_kids x) ∧ Forall (λ k, ∃ n v, has "name" k n ∧ has "valueString" k v) (annotations x) ∧
  ∀ n v, dget n d = Some v ↔ ∃ k, last_such (λ k, has "name" k n) (annotations x) k ∧ has "valueString" k v.
(** the runs of digits in a string *)
Inductive runs_in : chars → list chars → Prop :=
| RI_none s : Forall (λ c, is_digit c = false) s → runs_in s []
| RI_last p w : Forall (λ c, is_digit c = false) p → w ≠ [] → Forall (λ c, is_digit c = true) w → runs_in (p ++ w) [w]
| RI_run p w c s ws : Forall (λ c, is_digit c = false) p → w ≠ [] → Forall (λ c, is_digit c = true) w → is_digit c = false → runs_in s ws → runs_in (p ++ w ++ c :: s) (w :: ws).
Definition indices_read (x : xml) (e : selem) (k : string) : Prop :=
  ∃ zs, field e k (FInts zs) ∧
  match dget k (x_attrib x) with None => zs = [] | Some s => ∃ ws, runs_in (chs s) ws ∧ zs = (λ w, Z.of_N (dec_val w)) <$> ws end.
(** a label with this name gives an integer *)
Definition position_read (e : selem) (name k : string) : Prop := ∃ s z, labelled e name s ∧ is_integer (chs s) z ∧ field e k (FInt z).
Definition only_fields (e : selem) (ks : list string) : Prop := dkeys (se_fields e) ≡ₚ ks.

(** ** Elements as they are read *)
Record element_reads (x : xml) (e : selem) : Prop := {
  er_type : has type_attribute x (se_type e);
  er_labels : Forall2 label_reads (labels_of x) (se_labels e);
  er_name : labelled e "SNAME" (se_name e);
  er_id : match se_id e with Some i => labelled e "id" i | None => Forall (λ l, sl_name l ≠ "id") (se_labels e) end;
  er_class :
    match se_class e with
    | CNode => se_type e ∈ ["sDocumentStructure:SStructure"; "sDocumentStructure:SSpan"; "sDocumentStructure:SToken"] ∧
        layers_read x e ∧ features_read x e ∧ only_fields e ["layers"; "features"]
    | CPrimaryText => se_type e = "sDocumentStructure:STextualDS" ∧ layers_read x e ∧ features_read x e ∧
        (∃ s, labelled e "SDATA" s ∧ field e "text" (FStr s)) ∧ only_fields e ["layers"; "features"; "text"]
    | CEdge => se_type e = "sDocumentStructure:SSpanningRelation" ∧ layers_read x e ∧ end_read x e "source" ∧ end_read x e "target" ∧ only_fields e ["layers"; "source"; "target"]
    | CTextual => se_type e = "sDocumentStructure:STextualRelation" ∧ layers_read x e ∧ end_read x e "source" ∧ end_read x e "target" ∧
        position_read e "SSTART" "onset" ∧ position_read e "SEND" "offset" ∧ only_fields e ["layers"; "source"; "target"; "onset"; "offset"]
    | CDominance => se_type e = "sDocumentStructure:SDominanceRelation" ∧ layers_read x e ∧ end_read x e "source" ∧ end_read x e "target" ∧
        features_read x e ∧ only_fields e ["layers"; "source"; "target"; "features"]
    | CLayer => se_type e = "saltCore:SLayer" ∧ indices_read x e "nodes" ∧ indices_read x e "edges" ∧ only_fields e ["nodes"; "edges"]
    | CToken | CSpan | CStructure | CSpanning => False
    end;
}.
Record document_reads (t : xml) (d : sdoc) : Prop := {
  dr_id : ∃ l, first_such (λ k, has "name" k "id") (labels_of t) l ∧ has "valueString" l (sd_id d);
  dr_nodes : Forall2 element_reads (tagged_below "nodes" t) (sd_nodes d);
  dr_edges : Forall2 element_reads (tagged_below "edges" t) (sd_edges d);
  dr_layers : Forall2 element_reads (tagged_below "layers" t) (sd_layers d);
}.

(** ** Writing *)
Definition only_labels (x : xml) : Prop := Forall (λ k, x_tag k = "labels") (x_kids x).
(** the tag of the written element *)
Definition tag_of_class (c : sclass) : string :=
  match c with CNode | CPrimaryText | CToken | CSpan | CStructure => "nodes" | CEdge | CSpanning | CTextual | CDominance => "edges" | CLayer => "layers" end.

(** ** Linguistic documents *)
(** the element at a position that an edge names *)
Definition at_end (d : sdoc) (e : selem) (k : string) (i : nat) : Prop := field e k (FInt (Z.of_nat i)) ∧ i < length (sd_nodes d).
Definition edges_of (d : sdoc) (c : sclass) : list selem := filter (λ e, se_class e = c) (sd_edges d).
(** the values of [val] in the edges of class [c] that have [i] as [key] *)
Definition partners (d : sdoc) (c : sclass) (key val : string) (i : nat) : list Z :=
  omap (λ e, match dget val (se_fields e) with Some (FInt z) => Some z | _ => None end)
    (filter (λ e, dget key (se_fields e) = Some (FInt (Z.of_nat i))) (edges_of d c)).
(** edges name their ends by positions, not counted from the end *)
Definition ends_named (d : sdoc) : Prop :=
  Forall (λ e, ∃ i, field e "source" (FInt (Z.of_nat i))) (edges_of d CTextual) ∧
  Forall (λ e, ∃ i j, field e "source" (FInt (Z.of_nat i)) ∧ field e "target" (FInt (Z.of_nat j))) (edges_of d CDominance).
(** there are nodes at these positions *)
Definition ends_exist (d : sdoc) : Prop :=
  Forall (λ e, ∃ i, at_end d e "source" i) (edges_of d CTextual) ∧ Forall (λ e, ∃ i j, at_end d e "source" i ∧ at_end d e "target" j) (edges_of d CDominance).
Definition first_text (d : sdoc) (s : string) : Prop := ∃ n ns, sd_nodes d = n :: ns ∧ field n "text" (FStr s).
(** [n'] is the node [n] at position [i], completed from the edges *)
Record completed (d : sdoc) (i : nat) (n n' : selem) : Prop := {
  cp_same : se_class n' = se_class n ∧ se_name n' = se_name n ∧ se_id n' = se_id n ∧ se_type n' = se_type n ∧ se_labels n' = se_labels n;
  cp_edge : ∀ e k, last_such (λ e, field e "source" (FInt (Z.of_nat i))) (edges_of d CTextual) e → k ∈ ["onset"; "offset"] → dget k (se_fields n') = dget k (se_fields e);
  cp_no_edge : ∀ k, Forall (λ e, ¬ field e "source" (FInt (Z.of_nat i))) (edges_of d CTextual) → k ∈ ["onset"; "offset"] → dget k (se_fields n') = dget k (se_fields n);
  cp_dominates : dget "dominates" (se_fields n') = match partners d CDominance "source" "target" i with [] => dget "dominates" (se_fields n) | l => Some (FInts l) end;
  cp_dominated : dget "dominated_by" (se_fields n') = match partners d CDominance "target" "source" i with [] => dget "dominated_by" (se_fields n) | l => Some (FInts l) end;
  cp_other : ∀ k, k ∉ ["onset"; "offset"; "dominates"; "dominated_by"] → dget k (se_fields n') = dget k (se_fields n);
}.
Record linguistic (d : sdoc) (l : ldoc) : Prop := {
  li_same : ld_id l = sd_id d ∧ ld_edges l = sd_edges d ∧ ld_layers l = sd_layers d;
  li_text : first_text d (ld_text l);
  li_number : length (ld_nodes l) = length (sd_nodes d);
  li_nodes : ∀ i n n', sd_nodes d !! i = Some n → ld_nodes l !! i = Some n' → completed d i n n';
}.
