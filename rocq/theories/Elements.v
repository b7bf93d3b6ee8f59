(** Model of the interfaces of pkg/types/types.go:19-58: which elements have elements, and how these are
    read and replaced. *)
From Verif Require Import GoBase Types.

(** The implementations of GetElements (types.go:387, 815, 961, 1128, 1229, 1402, 1666, 1758, 2321, 2465,
    2774, 3780, 4092, 4154); [None]: the type is not a types.WithElements. *)
Definition getElements (v : val) : option (list val) :=
  match v with
  | DocumentHeader _ _ es | ListBlock _ _ es | ListElements es | CalloutListElement _ _ es
  | OrderedListElement _ _ es | UnorderedListElement _ _ _ es | LabeledListElement _ _ _ es
  | Paragraph _ es | DelimitedBlock _ _ es | Section _ _ _ es | QuotedText _ es _
  | Table _ _ es _ | TableRow es | TableCell _ es => Some es
  | _ => None
  end.

(** The corresponding GetAttributes *)
Definition getAttributes (v : val) : attributes :=
  match v with
  | DocumentHeader _ a _ | ListBlock _ a _ | CalloutListElement _ a _ | OrderedListElement _ a _
  | UnorderedListElement _ _ a _ | LabeledListElement _ _ a _ | Paragraph a _ | DelimitedBlock _ a _
  | Section _ a _ _ | QuotedText _ _ a | Table a _ _ _ => a
  | InlineLink a _ | ExternalCrossReference _ a | InlineImage _ a | ImageBlock _ a => a
  | _ => []
  end.
Definition withAttrs (v : val) (a : attributes) : val :=
  match v with
  | DocumentHeader t _ es => DocumentHeader t a es
  | ListBlock k _ es => ListBlock k a es
  | CalloutListElement r _ es => CalloutListElement r a es
  | OrderedListElement s _ es => OrderedListElement s a es
  | UnorderedListElement b c _ es => UnorderedListElement b c a es
  | LabeledListElement s t _ es => LabeledListElement s t a es
  | Paragraph _ es => Paragraph a es
  | DelimitedBlock k _ es => DelimitedBlock k a es
  | Section l _ t es => Section l a t es
  | QuotedText k es _ => QuotedText k es a
  | Table _ h r f => Table a h r f
  | InlineLink _ l => InlineLink a l
  | ExternalCrossReference l _ => ExternalCrossReference l a
  | InlineImage l _ => InlineImage l a
  | ImageBlock l _ => ImageBlock l a
  | _ => v
  end.

(** strings.TrimLeft / TrimRight with a cutset of ASCII characters *)
Fixpoint trim_left_set (cs : list ascii) (s : string) : string :=
  match s with
  | EmptyString => EmptyString
  | String c r => if existsb (Ascii.eqb c) cs then trim_left_set cs r else s
  end.
Fixpoint trim_right_set (cs : list ascii) (s : string) : string :=
  match s with
  | EmptyString => EmptyString
  | String c r =>
      match trim_right_set cs r with
      | EmptyString => if existsb (Ascii.eqb c) cs then EmptyString else String c EmptyString
      | r' => String c r'
      end
  end.
Definition on_first (f : string -> string) (l : list val) : list val :=
  match l with StringElement s :: r => StringElement (f s) :: r | _ => l end.
Definition on_last (f : string -> string) (l : list val) : list val :=
  List.rev (on_first f (List.rev l)).

Definition is_row (v : val) : bool := match v with TableRow _ => true | _ => false end.
Definition is_cell (v : val) : bool := match v with TableCell _ _ => true | _ => false end.
Definition set_elements (v : val) (es : list val) : val :=
  match v with
  | DocumentHeader t a _ => DocumentHeader t a es
  | ListBlock k a _ => ListBlock k a es
  | ListElements _ => ListElements es
  | CalloutListElement r a _ => CalloutListElement r a es
  | OrderedListElement s a _ => OrderedListElement s a es
  | UnorderedListElement b c a _ => UnorderedListElement b c a es
  | LabeledListElement s t a _ => LabeledListElement s t a es
  | Paragraph a _ => Paragraph a es
  | DelimitedBlock k a _ => DelimitedBlock k a es
  | Section l a t _ => Section l a t es
  | QuotedText k _ a => QuotedText k es a
  | Table a h _ f => Table a h es f
  | TableRow _ => TableRow es
  | TableCell f _ => TableCell f es
  | _ => v
  end.

(** SetElements (types.go:391, 823, 966, 1140, 1241, 1414, 1678, 1763, 2326, 2470, 2779, 3788, 4100, 4158).
    List.SetElements does nothing (types.go:823): the callers pass the elements they got from GetElements
    after having changed them in place (all are pointers), so the list then holds the changed elements;
    this is what the model says.  Callers that would pass other elements are modelled separately. *)
Definition setElements (v : val) (es : list val) : result val :=
  match v with
  | DelimitedBlock k a _ =>
      let left := if String.eqb k "listing" || String.eqb k "literal"
                  then trim_left_set [chr 13; chr 10] else trim_left_set [" "%char; chr 9; chr 13; chr 10] in
      Ok (DelimitedBlock k a (on_last (trim_right_set [" "%char; chr 9; chr 13; chr 10]) (on_first left es)))
  | Table _ _ _ _ => if forallb is_row es then Ok (set_elements v es) else Err "unexpected type of table row"
  | TableRow _ => if forallb is_cell es then Ok (set_elements v es) else Err "unexpected type of cell"
  | _ => Ok (set_elements v es)
  end.

Lemma set_get v es : getElements v = Some es -> set_elements v es = v.
Proof. destruct v; cbn; try discriminate; now intros [= ->]. Qed.
Lemma get_set v es es' : getElements v = Some es -> getElements (set_elements v es') = Some es'.
Proof. destruct v; cbn; try discriminate; reflexivity. Qed.
Lemma getElements_children v es : getElements v = Some es -> incl es (children v).
Proof.
  destruct v; cbn; try discriminate; intros [= ->]; intros x Hx; rewrite ?in_app_iff; auto.
  right; right. apply in_or_app. now left.
Qed.
