(** What "the text appears in the output, in order" means. *)
From Verif Require Import GoBase.

(** the pieces [l] occur in [out], in this order and without overlap *)
Fixpoint appear (l : list string) (out : string) : Prop :=
  match l with
  | [] => True
  | s :: r => exists a b, out = (a ++ s ++ b)%string /\ appear r b
  end.

(** Bytes that no step of the renderer changes: printable ASCII except the space and the five characters that HTML escapes *)
Definition kept (c : ascii) : bool :=
  let n := N_of_ascii c in
  ((33 <=? n) && (n <=? 126))%N && negb (existsb (Ascii.eqb c) ["&"%char; "<"%char; ">"%char; chr 34; chr 39]).
Fixpoint all_kept (s : string) : bool := match s with EmptyString => true | String c r => kept c && all_kept r end.
(** The words of a text: its longest runs of such bytes, in order *)
Fixpoint words_from (cur s : string) : list string :=
  match s with
  | EmptyString => match cur with EmptyString => [] | _ => [cur] end
  | String c r => if kept c then words_from (cur ++ String c EmptyString)%string r
                  else match cur with EmptyString => words_from EmptyString r | _ => cur :: words_from EmptyString r end
  end.
Definition words (s : string) : list string := words_from EmptyString s.
