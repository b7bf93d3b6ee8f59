(** Decoding is the inverse of encoding. *)
From Verif Require Import GoBase GoLemmas Utf8.
From Coq Require Import ZifyN ZifyBool.
Ltac Zify.zify_post_hook ::= Z.to_euclidean_division_equations.

Lemma N_chr n : (n < 256)%N -> N_of_ascii (chr n) = n.
Proof. intros H. apply N_ascii_embedding. exact H. Qed.

Ltac dtest :=
  repeat (match goal with
  | |- context [if (?a <? ?b)%N then _ else _] => destruct (N.ltb_spec a b); try (exfalso; lia)
  | |- context [if (?a =? ?b)%N then _ else _] => destruct (N.eqb_spec a b); try (exfalso; lia)
  | |- context [if ((?a <=? ?b) && (?c <=? ?d))%N then _ else _] =>
      let T := fresh in destruct ((a <=? b) && (c <=? d))%N eqn:T; try (exfalso; lia)
  | |- context [if ((?a <=? ?b) && (?c <=? ?d) && ((?e <=? ?f) && (?g <=? ?h)))%N then _ else _] =>
      let T := fresh in destruct ((a <=? b) && (c <=? d) && ((e <=? f) && (g <=? h)))%N eqn:T; try (exfalso; lia)
  | |- context [if ((?a <=? ?b) && (?c <=? ?d) && ((?e <=? ?f) && (?g <=? ?h)) && ((?i <=? ?j) && (?k <=? ?l)))%N then _ else _] =>
      let T := fresh in destruct ((a <=? b) && (c <=? d) && ((e <=? f) && (g <=? h)) && ((i <=? j) && (k <=? l)))%N eqn:T; try (exfalso; lia)
  end; cbv iota).

Lemma decode_encode r s : valid_rune r = true ->
  decode_rune (encode_rune r ++ s)%string = (r, String.length (encode_rune r)).
Proof.
  unfold valid_rune. intros V. unfold encode_rune.
  destruct (N.ltb_spec r 128) as [H1|H1].
  { cbn [append decode_rune String.length]. rewrite N_chr by lia. destruct (N.ltb_spec r 128); [reflexivity|lia]. }
  destruct (N.ltb_spec r 2048) as [H2|H2].
  { cbn [append decode_rune String.length]. rewrite !N_chr by lia. dtest; f_equal; lia. }
  replace ((55296 <=? r) && (r <=? 57343) || (1114111 <? r))%N with false by lia.
  destruct (N.ltb_spec r 65536) as [H3|H3].
  { cbn [append decode_rune String.length]. rewrite !N_chr by lia.
    dtest; f_equal; lia. }
  cbn [append decode_rune String.length]. rewrite !N_chr by lia.
  dtest; f_equal; lia.
Qed.

Lemma runes_from_skip a s : runes_from (String.length a) (a ++ s)%string = runes_from O s.
Proof.
  induction a as [|c a IH]; cbn [String.length append]; [reflexivity|]. cbn [runes_from]. exact IH.
Qed.

Lemma runes_cons r s : valid_rune r = true -> runes (encode_rune r ++ s)%string = r :: runes s.
Proof.
  intros V. pose proof (decode_encode r s V) as D. unfold runes.
  destruct (encode_rune r) as [|c t] eqn:E.
  - exfalso. revert E. unfold encode_rune. repeat (match goal with |- context [if ?b then _ else _] => destruct b end);
    discriminate.
  - cbn [append] in *. cbn [runes_from]. rewrite D. cbn [String.length]. rewrite Nat.sub_succ, Nat.sub_0_r.
    now rewrite runes_from_skip.
Qed.

Lemma runes_encode rs : Forall (fun r => valid_rune r = true) rs -> forall s,
  runes (encode_runes rs ++ s)%string = rs ++ runes s.
Proof.
  induction 1 as [|r rs V F IH]; intros s; [reflexivity|].
  unfold encode_runes. cbn [map sconcat fold_right]. rewrite sapp_assoc, runes_cons by assumption.
  cbn [app]. f_equal. apply IH.
Qed.
Lemma runes_encode_all rs : Forall (fun r => valid_rune r = true) rs -> runes (encode_runes rs) = rs.
Proof. intros F. rewrite <- (sapp_nil_r (encode_runes rs)), runes_encode by assumption. apply app_nil_r. Qed.
