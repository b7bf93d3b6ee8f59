(** What "footnotes are numbered consecutively and references resolve" means, without the collection itself. *)
From Verif Require Import GoBase Types.

(** A footnote macro as written: its reference ("" when it has none) and its content *)
Record macro := mkMacro { m_ref : string; m_content : list val }.
Definition ref_of (v : val) : string := match v with VStr s => s | _ => "" end.

(** Places where footnotes are collected, in document order: the text of paragraphs, the titles of sections,
    the terms and the items of lists.  [places v]: the inline elements found there. *)
Fixpoint places (v : val) : list val :=
  match v with
  | Paragraph _ es => es
  | Section _ _ (Some t) _ => t
  | ListElements es | CalloutListElement _ _ es | OrderedListElement _ _ es | UnorderedListElement _ _ _ es => flat_map places es
  | LabeledListElement _ t _ es => t ++ flat_map places es
  | _ => []
  end.

Definition macro_of (v : val) : list macro :=
  match v with Footnote _ r c => [mkMacro (ref_of r) c] | _ => [] end.
Definition macros (doc : list val) : list macro := flat_map macro_of (flat_map places doc).

(** what stands for a macro in the processed document: number, reference, and whether it repeats an earlier note *)
Definition numbered_of (v : val) : list (Z * string * bool) :=
  match v with FootnoteReference i r d => [(i, ref_of r, d)] | _ => [] end.
Definition numbers (doc : list val) : list (Z * string * bool) := flat_map numbered_of (flat_map places doc).

Definition has_content (m : macro) : bool := match m_content m with [] => false | _ => true end.

(** the notes of a document: its macros with content, in order; the n-th gets the number n *)
Definition notes (ms : list macro) : list macro := filter has_content ms.

(** the number of the first of the notes [ns] defined with reference [r], counting from [k] *)
Fixpoint first_with (r : string) (ns : list macro) (k : Z) : option Z :=
  match ns with
  | [] => None
  | m :: rest => if String.eqb (m_ref m) r then Some k else first_with r rest (k + 1)
  end.

(** what a macro [m] that comes after the macros [before] becomes *)
Definition number_of (before : list macro) (m : macro) : Z * string * bool :=
  if has_content m then (Z.of_nat (List.length (notes before)) + 1, m_ref m, false)%Z
  else match first_with (m_ref m) (notes before) 1 with
       | Some i => (i, m_ref m, true)
       | None => ((-1)%Z, m_ref m, false)
       end.
Fixpoint number_all (before ms : list macro) : list (Z * string * bool) :=
  match ms with
  | [] => []
  | m :: r => number_of before m :: number_all (before ++ [m]) r
  end.

(** The document around the footnotes: every macro and every number replaced by the same mark. *)
Definition unmark (v : val) : val :=
  match v with Footnote _ _ _ | FootnoteReference _ _ _ => VNil | _ => v end.
Fixpoint around (v : val) : val :=
  match v with
  | Paragraph a es => Paragraph a (map unmark es)
  | Section l a t es => Section l a (option_map (map unmark) t) es
  | ListElements es => ListElements (map around es)
  | CalloutListElement r a es => CalloutListElement r a (map around es)
  | OrderedListElement s a es => OrderedListElement s a (map around es)
  | UnorderedListElement b c a es => UnorderedListElement b c a (map around es)
  | LabeledListElement s t a es => LabeledListElement s (map unmark t) a (map around es)
  | _ => v
  end.

(** [occurs c v]: [c] occurs in [v], at any depth *)
Inductive occurs (c : val) : val -> Prop :=
| occurs_here : occurs c c
| occurs_child v x : In x (children v) -> occurs c x -> occurs c v.

(** [no_footnote v]: no footnote macro occurs in [v], at any depth; [in_place v]: footnote macros occur in [v] only directly in the
    text of paragraphs, section titles, list terms, and (recursively) in list items; their content does not matter *)
Definition no_footnote (v : val) : Prop := forall i r c, ~ occurs (Footnote i r c) v.
Inductive in_place : val -> Prop :=
| ip_none v : no_footnote v -> in_place v
| ip_par a es : Forall inline_place es -> Forall (fun kv => no_footnote (snd kv)) a -> in_place (Paragraph a es)
| ip_sec l a t es : Forall inline_place t -> Forall no_footnote es -> Forall (fun kv => no_footnote (snd kv)) a ->
    in_place (Section l a (Some t) es)
| ip_list es : Forall in_place es -> in_place (ListElements es)
| ip_call r a es : Forall in_place es -> Forall (fun kv => no_footnote (snd kv)) a -> in_place (CalloutListElement r a es)
| ip_ord s a es : Forall in_place es -> Forall (fun kv => no_footnote (snd kv)) a -> in_place (OrderedListElement s a es)
| ip_unord b c a es : Forall in_place es -> Forall (fun kv => no_footnote (snd kv)) a -> in_place (UnorderedListElement b c a es)
| ip_lab s t a es : Forall inline_place t -> Forall in_place es -> Forall (fun kv => no_footnote (snd kv)) a ->
    in_place (LabeledListElement s t a es)
with inline_place : val -> Prop :=
| il_note i r c : no_footnote r -> inline_place (Footnote i r c)
| il_other v : no_footnote v -> inline_place v.
