(** What "an author list expands to numbered attributes" means. *)
From Verif Require Import GoBase Types.

(** the attribute [base] of the author with number [n] (from 1): "author", "author_2", "author_3", ... *)
Definition numbered (base : string) (n : nat) : string :=
  if Nat.eqb n 1 then base else (base ++ "_" ++ itoaN (N.of_nat n))%string.

(** an attribute that is there only if it has a value *)
Definition optional (s : string) : option val := if String.eqb s "" then None else Some (VStr s).

(** the first letter, byte-wise *)
Definition first_byte (s : string) : string := match s with EmptyString => EmptyString | String c _ => String c EmptyString end.
(** the words of a name, with a space between them *)
Definition words (l : list string) : list string := filter (fun s => negb (String.eqb s "")) l.

Inductive person := Person (first middle last email : string).
Definition person_author (p : person) : author :=
  match p with Person f m l e => mkAuthor (Some (mkFullName f m l)) e end.
Definition person_name (p : person) : string := match p with Person f m l _ => join " " (f :: words [m; l]) end.
Definition person_email (p : person) : string := match p with Person _ _ _ e => e end.
(** the attributes that the person with number [n] gets, by base name *)
Definition person_attr (p : person) (base : string) : option val :=
  match p with
  | Person f m l e =>
      if String.eqb base "author" then Some (VStr (person_name p))
      else if String.eqb base "authorinitials" then Some (VStr (first_byte f ++ first_byte m ++ first_byte l)%string)
      else if String.eqb base "firstname" then Some (VStr f)
      else if String.eqb base "middlename" then optional m
      else if String.eqb base "lastname" then optional l
      else if String.eqb base "email" then optional e
      else None
  end.
Definition bases : list string := ["author"; "authorinitials"; "firstname"; "middlename"; "lastname"; "email"].
