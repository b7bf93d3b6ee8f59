(** Facts about the Go string functions of [GoBase]. *)
From Verif Require Import GoBase.

Lemma sapp_nil_r (s : string) : (s ++ "")%string = s.
Proof. induction s as [|c s IH]; cbn; congruence. Qed.

Lemma sapp_assoc (a b c : string) : ((a ++ b) ++ c)%string = (a ++ (b ++ c))%string.
Proof. induction a as [|x a IH]; cbn; congruence. Qed.

Lemma slength_app (a b : string) :
  String.length (a ++ b)%string = (String.length a + String.length b)%nat.
Proof. induction a as [|x a IH]; cbn; congruence. Qed.

Lemma sapp_inj_l (a b c : string) : (a ++ b)%string = (a ++ c)%string -> b = c.
Proof. induction a as [|x a IH]; cbn; [auto|intros [= H]; auto]. Qed.

Lemma sapp_inj_r (a b c : string) : (a ++ c)%string = (b ++ c)%string -> a = b.
Proof.
  revert b; induction a as [|x a IH]; intros b H; destruct b as [|y b]; cbn in *; auto.
  - apply (f_equal String.length) in H. cbn in H. rewrite slength_app in H. lia.
  - apply (f_equal String.length) in H. cbn in H. rewrite slength_app in H. lia.
  - injection H as -> H. f_equal. now apply IH.
Qed.

Lemma has_prefix_iff s p : has_prefix s p = true <-> exists r, s = (p ++ r)%string.
Proof.
  revert s; induction p as [|c p IH]; intros s; cbn.
  - split; [exists s; reflexivity|reflexivity].
  - destruct s as [|d s].
    + split; [discriminate|intros [r H]; discriminate].
    + destruct (Ascii.eqb_spec d c) as [->|N].
      * rewrite IH. split; intros [r H]; exists r; [congruence|now injection H].
      * split; [discriminate|intros [r H]; congruence].
Qed.

Lemma sdrop_app a b : sdrop (String.length a) (a ++ b)%string = b.
Proof. induction a as [|c a IH]; cbn; auto. Qed.

Lemma stake_app a b : stake (String.length a) (a ++ b)%string = a.
Proof. induction a as [|c a IH]; cbn; congruence. Qed.

Lemma stake_sdrop n s : (stake n s ++ sdrop n s)%string = s.
Proof. revert s; induction n as [|n IH]; intros [|c s]; cbn; auto. now rewrite IH. Qed.

Lemma has_suffix_iff s x : has_suffix s x = true <-> exists r, s = (r ++ x)%string.
Proof.
  unfold has_suffix. rewrite andb_true_iff, Nat.leb_le, String.eqb_eq. split.
  - intros [L E]. exists (stake (String.length s - String.length x) s).
    rewrite <- E at 2. now rewrite stake_sdrop.
  - intros [r ->]. rewrite slength_app. split; [lia|].
    replace (String.length r + String.length x - String.length x)%nat with (String.length r) by lia.
    apply sdrop_app.
Qed.

Lemma trim_suffix_app r x : trim_suffix (r ++ x)%string x = r.
Proof.
  unfold trim_suffix. replace (has_suffix (r ++ x)%string x) with true.
  - rewrite slength_app.
    replace (String.length r + String.length x - String.length x)%nat with (String.length r) by lia.
    apply stake_app.
  - symmetry. apply has_suffix_iff. eauto.
Qed.

Lemma split_char_nonempty sep s : split_char sep s <> [].
Proof.
  destruct s as [|c s]; cbn; [discriminate|].
  destruct (Ascii.eqb c sep); [discriminate|].
  destruct (split_char sep s); discriminate.
Qed.

Lemma join_split_char sep s : join (String sep EmptyString) (split_char sep s) = s.
Proof.
  induction s as [|c s IH]; cbn; auto.
  destruct (Ascii.eqb_spec c sep) as [->|N].
  - destruct (split_char sep s) as [|x xs] eqn:E; [now apply split_char_nonempty in E|].
    cbn in *. now rewrite IH.
  - destruct (split_char sep s) as [|x xs] eqn:E; [now apply split_char_nonempty in E|].
    rewrite <- IH. destruct xs; reflexivity.
Qed.

(** Itoa is injective on non-negative numbers: read the digits back. *)
Fixpoint read_digits (s : string) (acc : N) : N :=
  match s with
  | EmptyString => acc
  | String c r => read_digits r (10 * acc + (N_of_ascii c - 48))%N
  end.

Lemma digit_ascii_val d : (d < 10)%N -> (N_of_ascii (digit_ascii d) - 48 = d)%N.
Proof.
  intros H. unfold digit_ascii. rewrite N_ascii_embedding by lia. lia.
Qed.

Lemma read_digits_fuel fuel n acc :
  (n < 10 ^ N.of_nat fuel)%N -> (0 < fuel)%nat -> 
  read_digits (digits_fuel fuel n acc) 0 = read_digits acc n.
Proof.
  revert n acc. induction fuel as [|f IH]; intros n acc H H0; [lia|].
  cbn [digits_fuel].
  destruct (N.ltb_spec n 10) as [L|L].
  - cbn [read_digits]. rewrite N.mod_small by lia. rewrite digit_ascii_val by lia.
    f_equal.
  - destruct f as [|f'].
    + cbn in H. lia.
    + rewrite IH.
      * cbn [read_digits]. rewrite digit_ascii_val by (apply N.mod_lt; lia).
        f_equal. rewrite (N.div_mod n 10) at 3 by lia. lia.
      * rewrite Nat2N.inj_succ, N.pow_succ_r' in H.
        apply N.div_lt_upper_bound; lia.
      * lia.
Qed.

Lemma size_nat_pow n : (n < 10 ^ N.of_nat (S (N.size_nat n)))%N.
Proof.
  assert (H : (n < 2 ^ N.of_nat (S (N.size_nat n)))%N).
  { destruct n as [|p]; [cbn; lia|].
    assert (Hp : (Npos p < 2 ^ N.size (Npos p))%N) by apply N.size_gt.
    rewrite Nat2N.inj_succ, N.pow_succ_r'.
    replace (N.of_nat (N.size_nat (N.pos p))) with (N.size (N.pos p)).
    - lia.
    - cbn. clear. induction p as [p IH|p IH|]; cbn [Pos.size Pos.size_nat]; auto;
      rewrite Nat2N.inj_succ, <- IH; lia. }
  eapply N.lt_le_trans; [exact H|].
  apply N.pow_le_mono_l. lia.
Qed.

Lemma itoaN_read n : read_digits (itoaN n) 0 = n.
Proof.
  unfold itoaN.
  rewrite read_digits_fuel; [reflexivity|apply size_nat_pow|lia].
Qed.

Lemma itoaN_inj a b : itoaN a = itoaN b -> a = b.
Proof. intros H. rewrite <- (itoaN_read a), <- (itoaN_read b). now rewrite H. Qed.

Lemma NoDup_app_iff {A} (a b : list A) :
  NoDup (a ++ b) <-> NoDup a /\ NoDup b /\ forall x, In x a -> ~ In x b.
Proof.
  induction a as [|x a IH]; cbn.
  - split; [intros H; repeat split; [constructor|exact H|tauto]|tauto].
  - split.
    + intros H. inversion H as [|? ? H1 H2]; subst. apply IH in H2. destruct H2 as (H2 & H3 & H4).
      rewrite in_app_iff in H1. repeat split; [constructor; tauto|exact H3|].
      intros y [<-|Hy]; [tauto|auto].
    + intros (H1 & H2 & H3). inversion H1; subst. constructor.
      * rewrite in_app_iff. intros [X|X]; [tauto|]. now apply (H3 x); [left|].
      * apply IH. repeat split; auto.
Qed.
