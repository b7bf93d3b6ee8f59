(** Specification for C30: what a title shows. *)
From Verif Require Import GoBase Types Attrs Utf8 Ids.

Section Shown.
Variable alnum : N -> bool.          (* letters and digits *)
Variable fmtv : val -> string.       (* fmt.Sprintf("%v") *)
(** the characters that an element of a title shows: text, also in quoted text; the address of a link; the alternative text of an icon
    (or else its name).  Nothing else counts. *)
Fixpoint shown (v : val) : list N :=
  match v with
  | StringElement s => runes s
  | QuotedText _ es _ => flat_map shown es
  | InlineLink _ VNil => []
  | InlineLink _ loc => runes (toDisplayString fmtv loc)
  | Icon class attrs => runes (getAsStringD fmtv attrs "alt" class)
  | _ => []
  end.
Definition ignored (v : val) : Prop := match v with StringElement _ | QuotedText _ _ _ | InlineLink _ _ | Icon _ _ => False | _ => True end.
(** a part with a letter or a digit; of quoted text, its last part that counts *)
Inductive lettered : val -> Prop :=
| lettered_string s : existsb alnum (runes s) = true -> lettered (StringElement s)
| lettered_link a loc : loc <> VNil -> existsb alnum (runes (toDisplayString fmtv loc)) = true -> lettered (InlineLink a loc)
| lettered_icon c a : existsb alnum (runes (getAsStringD fmtv a "alt" c)) = true -> lettered (Icon c a)
| lettered_quoted k pre e rest a : lettered e -> Forall ignored rest -> lettered (QuotedText k (pre ++ e :: rest) a).
(** the text without the characters of the separator *)
Fixpoint strip (sep s : string) : string :=
  match s with
  | EmptyString => EmptyString
  | String b r => if existsb (Ascii.eqb b) (list_ascii_of_string sep) then strip sep r else String b (strip sep r)
  end.
End Shown.
