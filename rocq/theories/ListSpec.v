(** What "list arrangement conserves elements" and "equal markers give siblings" mean. *)
From Verif Require Import GoBase Types Elements FilterSpec.

Definition set_head_attrs (a : attributes) (l : list val) : list val :=
  match l with h :: t => withAttrs h a :: t | [] => [] end.

(** The content of blocks read from top to bottom: list items (without contents) and what they contain, whatever the
    nesting.  The attributes of a list count as those of its first item; the bullet and the check box of an item and
    the check box of its paragraph are left out. *)
Fixpoint reading (v : val) : list val :=
  match v with
  | ListBlock _ a items =>
      match items with
      | [] => []
      | it :: r => set_head_attrs a (reading it) ++ flat_map reading r
      end
  | CalloutListElement r a es => CalloutListElement r a [] :: flat_map reading es
  | OrderedListElement s a es => OrderedListElement s a [] :: flat_map reading es
  | UnorderedListElement _ _ a es => UnorderedListElement "" "" a [] :: flat_map reading es
  | LabeledListElement s t a es => LabeledListElement s t a [] :: flat_map reading es
  | ListElements es => flat_map reading es
  | ListContinuation _ x => reading x
  | DelimitedBlock k a es => DelimitedBlock k a [] :: flat_map reading es
  | Paragraph a es => [Paragraph (mdel a "checkstyle") es]
  | _ => [v]
  end.

(** the kind and the marker of a list item *)
Inductive marker := MCallout | MOrdered (style : string) | MUnordered (bullet : string) | MLabeled (style : string).
Definition marker_of (v : val) : option marker :=
  match v with
  | CalloutListElement _ _ _ => Some MCallout
  | OrderedListElement s _ _ => Some (MOrdered s)
  | UnorderedListElement b _ _ _ => Some (MUnordered b)
  | LabeledListElement s _ _ _ => Some (MLabeled s)
  | _ => None
  end.
Definition kind_of_marker (m : marker) : string :=
  match m with MCallout => "callout_list" | MOrdered _ => "ordered_list" | MUnordered _ => "unordered_list" | MLabeled _ => "labeled_list" end.

(** a list is homogeneous: all its items have one marker, and its kind is that of the marker *)
Definition homogeneous (v : val) : Prop :=
  match v with
  | ListBlock k _ items => items <> [] /\ exists m, k = kind_of_marker m /\ Forall (fun i => marker_of i = Some m) items
  | _ => True
  end.

(** the input of the arrangement: list items and continuations (not a raw line, which would join a paragraph) *)
Definition list_input (v : val) : Prop :=
  match v with
  | CalloutListElement _ _ _ | OrderedListElement _ _ _ | UnorderedListElement _ _ _ _ | LabeledListElement _ _ _ _ => True
  | ListContinuation _ x => match x with RawLine _ => False | _ => True end
  | _ => False
  end.
(** every list in a value is homogeneous; the content of a continuation is the block it attaches *)
Definition source_block (v : val) : val := match v with ListContinuation _ x => x | _ => v end.
Definition all_homogeneous (v : val) : Prop := forall w, reached w v -> homogeneous w.

(** runs of list elements in blocks, inside delimited blocks too: each run starts with an item (so says the grammar) *)
Fixpoint arrangeable (v : val) : Prop :=
  match v with
  | DelimitedBlock _ _ es => fold_right (fun x P => arrangeable x /\ P) True es
  | ListElements es => es <> [] /\ Forall list_input es
  | _ => True
  end.

(** [extends m e e']: item [e'] of the result is item [e] of the source, with the marker [m], and more elements after its own ones
    (its check box may have been made interactive, its attributes may have moved to the list) *)
Definition extends (m : marker) (e e' : val) : Prop :=
  exists es es' more, getElements e = Some es /\ getElements e' = Some (es' ++ more) /\
    flat_map reading es' = flat_map reading es /\ marker_of e' = Some m.

(** ** Which lists are open after some items, innermost first *)
Definition marker_eqb (a b : marker) : bool :=
  match a, b with
  | MCallout, MCallout => true
  | MOrdered x, MOrdered y | MUnordered x, MUnordered y | MLabeled x, MLabeled y => String.eqb x y
  | _, _ => false
  end.
(** the bullets: "-", "*", "**", "***", "****", "*****" *)
Definition next_bullet (s : string) : string :=
  if String.eqb s "dash" then "1asterisk" else if String.eqb s "1asterisk" then "2asterisks"
  else if String.eqb s "2asterisks" then "3asterisks" else if String.eqb s "3asterisks" then "4asterisks" else "5asterisks".
(** the marker of a new list opened by an item with marker [m]: that of the item; but directly inside an unordered list, the bullet of
    an unordered item is replaced by the one that follows the bullet of the outer list *)
Definition adjusted (open : list marker) (m : marker) : marker :=
  match m, open with
  | MUnordered _, MUnordered b :: _ => MUnordered (next_bullet b)
  | _, _ => m
  end.
(** an item goes back to the innermost open list with its marker, if there is one, or opens a new list; a continuation after [off]
    blank lines closes [off] lists *)
Fixpoint back_to (m : marker) (open : list marker) : option (list marker) :=
  match open with
  | [] => None
  | x :: r => if marker_eqb m x then Some open else back_to m r
  end.
Definition open_step (open : list marker) (e : val) : list marker :=
  match e with
  | ListContinuation off _ => skipn (Z.to_nat off) open
  | _ => match marker_of e with
         | Some m => match back_to m open with Some o => o | None => adjusted open m :: open end
         | None => open
         end
  end.
Definition open_after (es : list val) : list marker := fold_left open_step es [].

(** a continuation closes all open lists: there is nothing to attach its block to *)
Definition closes_all (open : list marker) (e : val) : Prop :=
  match e with ListContinuation off _ => skipn (Z.to_nat off) open = [] | _ => False end.

(** where the items of a run belong: the nesting depth of the list, and its marker *)
Fixpoint places (open : list marker) (es : list val) : list (nat * marker) :=
  match es with
  | [] => []
  | e :: r =>
      let o := open_step open e in
      match marker_of e, o with Some _, m :: _ => [(List.length o, m)] | _, _ => [] end ++ places o r
  end.
(** where the items of a result are: the depth and the marker of every list item, from top to bottom *)
Fixpoint levels (d : nat) (v : val) : list (nat * marker) :=
  let here := match marker_of v with Some m => [(d, m)] | None => [] end in
  match v with
  | ListBlock _ _ items => flat_map (levels (S d)) items
  | CalloutListElement _ _ es | OrderedListElement _ _ es | UnorderedListElement _ _ _ es | LabeledListElement _ _ _ es =>
      here ++ flat_map (levels d) es
  | _ => []
  end.
(** the parser puts no list directly in an item or in a continuation (parser.peg:1476-1563) *)
Definition no_list (v : val) : Prop := match v with ListBlock _ _ _ => False | _ => marker_of v = None end.
Definition no_own_list (e : val) : Prop :=
  match e with
  | ListContinuation _ x => no_list x
  | _ => match getElements e with Some es => Forall no_list es | None => True end
  end.
