(** The values the libasciidoc pipeline works on: the structs of pkg/types/types.go and
    pkg/types/attributes.go, as one inductive type [val] (a Go [interface{}]).

    Simplifications, valid for all the models that use this type:
    - a pointer to a struct is the struct itself; a nil pointer / nil interface is [VNil];
    - Go maps of attributes are association lists; a nil map and an empty map are the
      same value, except where a model says otherwise;
    - for titles, where Go code distinguishes a nil slice from an empty one
      (e.g. DocumentHeader.IsEmpty types.go:369-373), an [option] is used;
    - floats do not occur as attribute values here. *)
From Verif Require Import GoBase.

(** types.go:486-489 DocumentAuthor / DocumentAuthorFullName ([None]: nil pointer) *)
Record fullname := mkFullName { fn_first : string; fn_middle : string; fn_last : string }.
Record author := mkAuthor { au_name : option fullname; au_email : string }.

(** types.go:554-558 DocumentRevision *)
Record revision := mkRevision { rev_number : string; rev_date : string; rev_remark : string }.

Inductive val : Type :=
(* plain Go values that occur inside [interface{}] *)
| VNil
| VStr (s : string)
| VInt (n : Z)
| VBool (b : bool)
| VRune (r : N)                                   (* int32, used by counters *)
| VSlice (l : list val)                           (* []interface{} *)
| VRoles (l : list val)                           (* types.Roles, attributes.go *)
| VOptions (l : list val)                         (* types.Options, attributes.go *)
| VAuthors (l : list author)                      (* types.DocumentAuthors, types.go:429 *)
| VRevision (r : revision)                        (* *types.DocumentRevision *)
| Attribute (key : string) (value : val)          (* attributes.go Attribute *)
| PositionalAttribute (index : Z) (value : val)   (* attributes.go PositionalAttribute *)
| VAttributes (a : list (string * val))           (* types.Attributes as a value *)
(* inline elements *)
| StringElement (content : string)                (* types.go:2695 *)
| SpecialCharacter (name : string)                (* types.go:3659 *)
| Symbol (name : string)                          (* types.go:3675 *)
| PredefinedAttribute (name : string)             (* types.go:684 *)
| AttributeReference (name : string)              (* types.go:663, rawText dropped *)
| CounterSubstitution (name : string) (hidden : bool) (value : val)   (* types.go:688 *)
| QuotedText (kind : string) (elements : list val) (attrs : list (string * val)) (* 2728 *)
| InlinePassthrough (kind : string) (elements : list val)             (* types.go:2843 *)
| Location (scheme : string) (path : val)         (* types.go:3519 *)
| InlineLink (attrs : list (string * val)) (loc : val)                (* types.go:2873 *)
| InternalCrossReference (id label : val)         (* types.go:1877 *)
| ExternalCrossReference (loc : val) (attrs : list (string * val))    (* types.go:1918 *)
| InlineImage (loc : val) (attrs : list (string * val))               (* types.go:2059 *)
| Icon (class : string) (attrs : list (string * val))                 (* types.go:2105 *)
| IndexTerm (term : list val)                     (* types.go:3625 *)
| ConcealedIndexTerm (t1 t2 t3 : val)             (* types.go:3637 *)
| Footnote (id : Z) (ref : val) (elements : list val)                 (* types.go:2129 *)
| FootnoteReference (id : Z) (ref : val) (duplicate : bool)           (* types.go:2157 *)
| LineBreak                                       (* types.go:2716 *)
| InlineButton (attrs : list (string * val))      (* types.go:1961 *)
| InlineMenu (path : list string)                 (* types.go:1981 *)
| UserMacro (kind name value : string) (attrs : list (string * val))  (* types.go:2630 *)
| Callout (ref : Z)                               (* types.go:1041 *)
| ElementPlaceHolder (ref : string)               (* types.go:3694 *)
(* blocks *)
| RawLine (content : string)                      (* types.go:3277 *)
| BlankLine                                       (* types.go:2665 *)
| SinglelineComment (content : string)            (* types.go:2678 *)
| Paragraph (attrs : list (string * val)) (elements : list val)       (* types.go:1730 *)
| DelimitedBlock (kind : string) (attrs : list (string * val)) (elements : list val) (* 2299 *)
| Section (level : Z) (attrs : list (string * val)) (title : option (list val))
          (elements : list val)                   (* types.go:2440 *)
| ImageBlock (loc : val) (attrs : list (string * val))                (* types.go:2004 *)
| ThematicBreak                                   (* types.go:2608 *)
| TocPlaceHolder                                  (* types.go:2600 *)
| FrontMatter (attrs : list (string * val))       (* types.go:737 *)
| DocumentHeader (title : option (list val)) (attrs : list (string * val))
                 (elements : list val)            (* types.go:283 *)
| Preamble (elements : list val)                  (* types.go:713, without the ToC pointer *)
| AttributeDeclaration (name : string) (value : val)                  (* types.go:621 *)
| AttributeReset (name : string)                  (* types.go:644 *)
| ListBlock (kind : string) (attrs : list (string * val)) (elements : list val) (* List, 792 *)
| ListElements (elements : list val)              (* types.go:889 *)
| CalloutListElement (ref : Z) (attrs : list (string * val)) (elements : list val)   (* 1053 *)
| OrderedListElement (style : string) (attrs : list (string * val)) (elements : list val) (* 1175 *)
| UnorderedListElement (bullet check : string) (attrs : list (string * val))
                       (elements : list val)      (* types.go:1307 *)
| LabeledListElement (style : string) (term : list val) (attrs : list (string * val))
                     (elements : list val)        (* types.go:1584 *)
| ListContinuation (offset : Z) (element : val)   (* types.go:1015 *)
| Table (attrs : list (string * val)) (header : val) (rows : list val) (footer : val) (* 3714 *)
| TableRow (cells : list val)                     (* types.go:4059 *)
| TableCell (format : string) (elements : list val).                  (* types.go:4113 *)

Notation attributes := (list (string * val)) (only parsing).

(** All the values directly contained in a value (used only for induction). *)
Definition children (v : val) : list val :=
  match v with
  | VSlice l | VRoles l | VOptions l | IndexTerm l | Preamble l | ListElements l
  | TableRow l | TableCell _ l | InlinePassthrough _ l => l
  | Attribute _ x | PositionalAttribute _ x | CounterSubstitution _ _ x | Location _ x
  | AttributeDeclaration _ x | ListContinuation _ x => [x]
  | VAttributes a | Icon _ a | InlineButton a | UserMacro _ _ _ a | FrontMatter a => map snd a
  | QuotedText _ l a | Paragraph a l | DelimitedBlock _ a l | ListBlock _ a l
  | CalloutListElement _ a l | OrderedListElement _ a l | UnorderedListElement _ _ a l =>
      l ++ map snd a
  | InlineLink a x | ExternalCrossReference x a | InlineImage x a | ImageBlock x a =>
      x :: map snd a
  | InternalCrossReference x y => [x; y]
  | ConcealedIndexTerm x y z => [x; y; z]
  | Footnote _ r l => r :: l
  | FootnoteReference _ r _ => [r]
  | Section _ a t l | DocumentHeader t a l =>
      (match t with Some tl => tl | None => [] end) ++ l ++ map snd a
  | LabeledListElement _ t a l => t ++ l ++ map snd a
  | Table a h r f => h :: f :: r ++ map snd a
  | _ => []
  end.

Fixpoint vsize (v : val) : nat :=
  let fix sizes (l : list val) : nat :=
    match l with [] => 0 | x :: r => vsize x + sizes r end in
  let fix asizes (l : list (string * val)) : nat :=
    match l with [] => 0 | (_, x) :: r => vsize x + asizes r end in
  S (match v with
  | VSlice l | VRoles l | VOptions l | IndexTerm l | Preamble l | ListElements l
  | TableRow l | TableCell _ l | InlinePassthrough _ l => sizes l
  | Attribute _ x | PositionalAttribute _ x | CounterSubstitution _ _ x | Location _ x
  | AttributeDeclaration _ x | ListContinuation _ x => vsize x
  | VAttributes a | Icon _ a | InlineButton a | UserMacro _ _ _ a | FrontMatter a => asizes a
  | QuotedText _ l a | Paragraph a l | DelimitedBlock _ a l | ListBlock _ a l
  | CalloutListElement _ a l | OrderedListElement _ a l | UnorderedListElement _ _ a l =>
      sizes l + asizes a
  | InlineLink a x | ExternalCrossReference x a | InlineImage x a | ImageBlock x a =>
      vsize x + asizes a
  | InternalCrossReference x y => vsize x + vsize y
  | ConcealedIndexTerm x y z => vsize x + vsize y + vsize z
  | Footnote _ r l => vsize r + sizes l
  | FootnoteReference _ r _ => vsize r
  | Section _ a t l | DocumentHeader t a l =>
      (match t with Some tl => sizes tl | None => 0 end) + sizes l + asizes a
  | LabeledListElement _ t a l => sizes t + sizes l + asizes a
  | Table a h r f => vsize h + vsize f + sizes r + asizes a
  | _ => 0
  end).

Section Sizes.
  Fixpoint sizes (l : list val) : nat :=
    match l with [] => 0 | x :: r => vsize x + sizes r end.
  Fixpoint asizes (l : list (string * val)) : nat :=
    match l with [] => 0 | (_, x) :: r => vsize x + asizes r end.

  Lemma in_sizes c l : In c l -> vsize c <= sizes l.
  Proof.
    induction l as [|x l IH]; cbn [sizes In]; [tauto|].
    intros [->|H]; [lia|]. apply IH in H. lia.
  Qed.
  Lemma in_asizes c l : In c (map snd l) -> vsize c <= asizes l.
  Proof.
    induction l as [|[k x] l IH]; cbn [asizes In map snd]; [tauto|].
    intros [->|H]; [lia|]. apply IH in H. lia.
  Qed.
End Sizes.

Lemma children_size v c : In c (children v) -> vsize c < vsize v.
Proof.
  destruct v; cbn [children]; intros H;
    try (exfalso; exact H);
    repeat match goal with
      | H : In _ (_ ++ _) |- _ => apply in_app_or in H
      | H : In _ (_ :: _) |- _ => destruct H as [H|H]
      | H : In _ [] |- _ => destruct H
      | H : In _ (match ?t with Some _ => _ | None => _ end) |- _ => destruct t
      | H : _ \/ _ |- _ => destruct H as [H|H]
      | H : In _ (map snd _) |- _ => apply in_asizes in H
      | H : In _ _ |- _ => apply in_sizes in H
      | H : _ = _ |- _ => subst c
      end;
    cbn [vsize]; fold sizes; fold asizes; lia.
Qed.

(** Structural induction on values: to prove [P v] one may assume [P] of the contents of [v]. *)
Lemma val_ind_children (P : val -> Prop) :
  (forall v, (forall c, In c (children v) -> P c) -> P v) -> forall v, P v.
Proof.
  intros H v.
  assert (G : forall n v, vsize v < n -> P v).
  { induction n as [|n IH]; intros w Hw; [lia|].
    apply H. intros c Hc. apply IH. apply children_size in Hc. lia. }
  exact (G (S (vsize v)) v (Nat.lt_succ_diag_r _)).
Qed.
