(** Specification vocabulary for generated ids. *)
From Verif Require Import GoBase Utf8.

Section Spec.
  Variable alnum : N -> bool.   (* letters and digits *)

  (** space, hyphen and dot separate words; other characters are dropped *)
  Definition breaks (r : N) : bool := ((r =? 32) || (r =? 45) || (r =? 46))%N.

  (** the words of a text: maximal runs of letters and digits, other characters than breaks ignored *)
  Fixpoint words_acc (cur : list N) (l : list N) : list (list N) :=
    match l with
    | [] => match cur with [] => [] | _ => [cur] end
    | r :: rest =>
        if alnum r then words_acc (cur ++ [r]) rest
        else if breaks r
        then match cur with [] => words_acc [] rest | _ => cur :: words_acc [] rest end
        else words_acc cur rest
    end.
  Definition words (l : list N) : list (list N) := words_acc [] l.

  (** does a break come before the first letter or digit? *)
  Fixpoint leading_break (l : list N) : bool :=
    match l with
    | [] => false
    | r :: rest => if alnum r then false else if breaks r then true else leading_break rest
    end.

  (** words joined by the separator; a leading break leaves a leading separator *)
  Definition slug (sep : string) (l : list N) : string :=
    match words l with
    | [] => ""
    | ws => ((if leading_break l then sep else "") ++ join sep (map encode_runes ws))%string
    end.
End Spec.

(** the separators considered: none, or one ASCII character *)
Definition simple_sep (sep : string) : Prop :=
  sep = "" \/ exists c, (N_of_ascii c < 128)%N /\ sep = String c "".
