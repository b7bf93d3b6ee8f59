(** What "escaping is safe and stable" and "ASCII output" mean. *)
From Verif Require Import GoBase.

(** the characters with a meaning in HTML text and attribute values *)
Definition special (c : ascii) : Prop := c = "<"%char \/ c = ">"%char \/ c = chr 34 \/ c = chr 39.
Fixpoint chars (P : ascii -> Prop) (s : string) : Prop :=
  match s with EmptyString => True | String c r => P c /\ chars P r end.
Definition no_special (s : string) : Prop := chars (fun c => ~ special c) s.
Definition plain (s : string) : Prop := chars (fun c => ~ special c /\ c <> "&"%char) s.
(** every ampersand starts one of the entities "&lt;", "&gt;", "&amp;" or a character reference "&#" *)
Definition entity_at (s : string) : Prop := exists r,
  (s = "&lt;" ++ r \/ s = "&gt;" ++ r \/ s = "&amp;" ++ r \/ s = "&#" ++ r)%string.
Fixpoint amps_ok (s : string) : Prop :=
  match s with EmptyString => True | String c r => (c = "&"%char -> entity_at s) /\ amps_ok r end.

(** a reader of HTML text: it turns the five entities the escaping produces back into characters *)
Fixpoint decode_from (skip : nat) (s : string) : string :=
  match s with
  | EmptyString => EmptyString
  | String c r =>
      match skip with
      | S k => decode_from k r
      | O => if has_prefix s "&lt;" then String "<" (decode_from 3 r)
             else if has_prefix s "&gt;" then String ">" (decode_from 3 r)
             else if has_prefix s "&amp;" then String "&" (decode_from 4 r)
             else if has_prefix s "&#39;" then String (chr 39) (decode_from 4 r)
             else if has_prefix s "&#34;" then String (chr 34) (decode_from 4 r)
             else String c (decode_from 0 r)
      end
  end.
Definition decode (s : string) : string := decode_from 0 s.
(** the source has none of the entities "&lt;", "&gt;", "&amp;" and no "&#" *)
Fixpoint no_entity (s : string) : Prop :=
  match s with EmptyString => True | String c r => ~ entity_at s /\ no_entity r end.

(** ASCII text, and the printable part of it (with tab, line feed, form feed, carriage return) *)
Definition ascii_only (s : string) : Prop := chars (fun c => (N_of_ascii c < 128)%N) s.
Definition printable (c : ascii) : Prop := (32 <= N_of_ascii c <= 126 \/ 9 <= N_of_ascii c <= 13)%N.

(** a reader of numeric character references: "&#", decimal digits, ";" stand for the character with that number *)
Fixpoint take_digits (s : string) (acc : N) : N * string :=
  match s with
  | String c r => if ((48 <=? N_of_ascii c) && (N_of_ascii c <=? 57))%N%bool
                  then take_digits r (10 * acc + (N_of_ascii c - 48))%N else (acc, s)
  | EmptyString => (acc, s)
  end.
