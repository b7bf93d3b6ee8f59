(** UTF-8 as Go implements it (package unicode/utf8): the runes seen by
    [for _, r := range s] and the bytes written by [string(r)] / WriteRune. *)
From Verif Require Import GoBase.

Local Open Scope N_scope.

Definition RuneError : N := 65533. (* U+FFFD *)

(** utf8.AppendRune / string(rune): surrogates and out of range give U+FFFD *)
Definition encode_rune (r : N) : string :=
  let b n := chr n in
  let enc3 r := String (b (224 + r / 4096)) (String (b (128 + (r / 64) mod 64))
                 (String (b (128 + r mod 64)) EmptyString)) in
  if (r <? 128)%N then String (b r) EmptyString
  else if (r <? 2048)%N then
    String (b (192 + r / 64)) (String (b (128 + r mod 64)) EmptyString)
  else if ((55296 <=? r) && (r <=? 57343))%N || (1114111 <? r)%N then enc3 RuneError
  else if (r <? 65536)%N then enc3 r
  else String (b (240 + r / 262144)) (String (b (128 + (r / 4096) mod 64))
        (String (b (128 + (r / 64) mod 64)) (String (b (128 + r mod 64)) EmptyString))).

(** utf8.DecodeRuneInString: rune and width; width 1 and RuneError for an invalid sequence *)
Definition decode_rune (s : string) : N * nat :=
  let n c := N_of_ascii c in
  let cont lo hi c := ((lo <=? n c) && (n c <=? hi))%N in
  match s with
  | EmptyString => (RuneError, 0%nat)
  | String c0 s1 =>
    let b0 := n c0 in
    if (b0 <? 128)%N then (b0, 1%nat)
    else if ((194 <=? b0) && (b0 <=? 223))%N then
      match s1 with
      | String c1 _ => if cont 128 191 c1 then (((b0 - 192) * 64 + (n c1 - 128))%N, 2%nat)
                       else (RuneError, 1%nat)
      | _ => (RuneError, 1%nat)
      end
    else if ((224 <=? b0) && (b0 <=? 239))%N then
      let lo := if (b0 =? 224)%N then 160%N else 128%N in
      let hi := if (b0 =? 237)%N then 159%N else 191%N in
      match s1 with
      | String c1 (String c2 _) =>
          if cont lo hi c1 && cont 128 191 c2
          then (((b0 - 224) * 4096 + (n c1 - 128) * 64 + (n c2 - 128))%N, 3%nat)
          else (RuneError, 1%nat)
      | _ => (RuneError, 1%nat)
      end
    else if ((240 <=? b0) && (b0 <=? 244))%N then
      let lo := if (b0 =? 240)%N then 144%N else 128%N in
      let hi := if (b0 =? 244)%N then 143%N else 191%N in
      match s1 with
      | String c1 (String c2 (String c3 _)) =>
          if cont lo hi c1 && cont 128 191 c2 && cont 128 191 c3
          then (((b0 - 240) * 262144 + (n c1 - 128) * 4096 + (n c2 - 128) * 64 + (n c3 - 128))%N,
                4%nat)
          else (RuneError, 1%nat)
      | _ => (RuneError, 1%nat)
      end
    else (RuneError, 1%nat)
  end.

(** [for _, r := range s] *)
Fixpoint runes_from (skip : nat) (s : string) : list N :=
  match s with
  | EmptyString => []
  | String _ s' =>
      match skip with
      | S k => runes_from k s'
      | O => let (r, w) := decode_rune s in r :: runes_from (w - 1) s'
      end
  end.
Definition runes (s : string) : list N := runes_from O s.

Definition encode_runes (l : list N) : string := sconcat (map encode_rune l).

(** Unicode scalar values: what a rune of valid UTF-8 text can be *)
Definition valid_rune (r : N) : bool :=
  ((r <? 55296) || ((57343 <? r) && (r <=? 1114111)))%N.
