(** Specification vocabulary for C27: the visible sequence of inline content. *)
From Verif Require Import GoBase Types.

Inductive token := Char (c : ascii) | Elem (v : val).
Fixpoint chars (s : string) : list token :=
  match s with "" => [] | String c r => Char c :: chars r end.
(** text characters and other elements, in order, whatever the nesting in slices and the cutting into
    strings; nil counts for nothing *)
Fixpoint tokens (v : val) : list token :=
  match v with
  | VNil => []
  | VStr s | StringElement s => chars s
  | VSlice l => (fix all l := match l with [] => [] | x :: r => tokens x ++ all r end) l
  | e => [Elem e]
  end.
Definition tokens_of (l : list val) : list token := flat_map tokens l.

Definition dash : token := Elem (Symbol " -- ").
Definition space : token := Char " "%char.
(** [drops a b]: [b] is [a] without some of the spaces in front of the symbol " -- " *)
Inductive drops : list token -> list token -> Prop :=
| drops_nil : drops [] []
| drops_keep t a b : drops a b -> drops (t :: a) (t :: b)
| drops_space a b : drops a (dash :: b) -> drops (space :: a) (dash :: b).

Definition is_text (v : val) : bool := match v with StringElement _ | VStr _ => true | _ => false end.
Fixpoint no_adjacent_text (l : list val) : Prop :=
  match l with
  | a :: ((b :: _) as r) => (is_text a = true -> is_text b = false) /\ no_adjacent_text r
  | _ => True
  end.

(** a slice with something in it *)
Definition filled (v : val) : Prop := match v with VSlice (_ :: _) => True | _ => False end.
Definition ends_in_text (l : list val) : Prop := exists t c, tokens_of l = t ++ [Char c].
Definition begins_with_text (l : list val) : Prop := exists c t, tokens_of l = Char c :: t.
