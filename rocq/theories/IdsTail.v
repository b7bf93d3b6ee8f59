(** Proofs for C30: the letters and digits of ids, and their end. *)
From Verif Require Import GoBase GoLemmas Types Attrs Utf8 Ids IdsSpec IdsAlpha IdsShown.

Section Tail.
Variables is_letter is_number : N -> bool.
Variable fmtv : val -> string.
Notation alnum := (is_alnum is_letter is_number).
Notation shown := (shown fmtv).
Hypothesis blank : alnum 32%N = false.

Lemma strip_app sep a b : strip sep (a ++ b) = (strip sep a ++ strip sep b)%string.
Proof. induction a as [|x a IH]; [reflexivity|]. cbn [append strip]. rewrite IH. now destruct (existsb _ _). Qed.
Lemma strip_nil s : strip "" s = s.
Proof. induction s as [|x s IH]; [reflexivity|]. cbn in *. now rewrite IH. Qed.
Lemma strip_self sep : strip sep sep = "".
Proof.
  assert (G : forall s, (forall b, In b (list_ascii_of_string s) -> In b (list_ascii_of_string sep)) -> strip sep s = "").
  { induction s as [|x s IH]; intros H; [reflexivity|]. cbn [strip]. assert (E : existsb (Ascii.eqb x) (list_ascii_of_string sep) = true).
    { apply existsb_exists. exists x. split; [apply H; now left|apply Ascii.eqb_refl]. }
    rewrite E. apply IH. intros b B. apply H. now right. }
  apply G. auto.
Qed.
Lemma strip_trim sep s : strip sep (trim_suffix s sep) = strip sep s.
Proof.
  destruct (trim_suffix_cases s sep) as [(r & -> & ->)|[-> _]]; [|reflexivity]. now rewrite strip_app, strip_self, sapp_nil_r.
Qed.
Lemma strip_high sep s : simple_sep sep -> all_high s -> strip sep s = s.
Proof.
  intros [->|(c & C & ->)] H; [apply strip_nil|]. induction s as [|x s IH]; [reflexivity|]. destruct H as [X H]. cbn [strip list_ascii_of_string existsb].
  destruct (Ascii.eqb_spec x c) as [->|]; [lia|]. cbn [orb]. now rewrite IH.
Qed.
Lemma runes_one c : (N_of_ascii c < 128)%N -> runes (String c "") = [N_of_ascii c].
Proof. intros H. unfold runes. cbn [runes_from]. unfold decode_rune. destruct (N.ltb_spec (N_of_ascii c) 128); [reflexivity|lia]. Qed.
Definition clean (sep : string) : Prop := simple_sep sep /\ forall r, In r (runes sep) -> alnum r = false.
Lemma strip_rune sep r : clean sep -> alnum r = true -> strip sep (encode_rune r) = encode_rune r.
Proof.
  intros [S N] A. destruct (N.lt_ge_cases r 128) as [L|L]; [|apply strip_high; [exact S|now apply encode_high]].
  rewrite encode_ascii by exact L. destruct S as [->|(c & C & ->)]; [reflexivity|]. cbn [strip list_ascii_of_string existsb].
  destruct (Ascii.eqb_spec (chr r) c) as [<-|]; [|reflexivity]. exfalso. rewrite (runes_one _ C) in N. rewrite chr_N in N by lia.
  rewrite (N r (or_introl eq_refl)) in A. discriminate.
Qed.
Lemma strip_rna sep l : clean sep -> forall b, strip sep (rna_loop is_letter is_number l b sep) = encode_runes (filter alnum l).
Proof.
  intros C. induction l as [|r l IH]; intros b; [reflexivity|]. cbn [rna_loop filter]. destruct (alnum r) eqn:A.
  - rewrite strip_app, (strip_rune sep r C A), IH. now rewrite encode_runes_cons.
  - destruct (_ && _); [rewrite strip_app, strip_self|]; apply IH.
Qed.
Lemma strip_dedup sep s : simple_sep sep -> strip sep (dedup_sep s sep) = strip sep s.
Proof.
  intros [->|(c & C & ->)]; [reflexivity|]. unfold dedup_sep, replace_all. cbn [append].
  assert (G : forall s k, (k = 0%nat \/ (k = 1%nat /\ exists r, s = String c r)) -> strip (String c "") (replace_all_from k s (String c (String c "")) (String c "")) = strip (String c "") s).
  { clear s. induction s as [|x s IH]; intros k K; [reflexivity|]. cbn [replace_all_from]. destruct K as [->|[-> (r & E)]].
    - destruct (has_prefix (String x s) (String c (String c ""))) eqn:P.
      + apply has_prefix_iff in P. destruct P as [r P]. cbn [append] in P. injection P as -> ->. rewrite strip_app, strip_self. cbn [append String.length Nat.sub].
        rewrite IH by (right; eauto). cbn [strip list_ascii_of_string existsb]. rewrite Ascii.eqb_refl. reflexivity.
      + cbn [strip]. rewrite IH by now left. reflexivity.
    - injection E as -> ->. rewrite IH by now left. cbn [strip list_ascii_of_string existsb]. now rewrite Ascii.eqb_refl. }
  apply G. now left.
Qed.
Lemma runes_space s : runes (String " " s) = 32%N :: runes s.
Proof. unfold runes. cbn [runes_from]. unfold decode_rune. reflexivity. Qed.
Lemma trim_space_letters s : filter alnum (runes (trim_left_char " " s)) = filter alnum (runes s).
Proof.
  induction s as [|x s IH]; [reflexivity|]. cbn [trim_left_char]. destruct (Ascii.eqb_spec x " ") as [->|]; [|reflexivity].
  rewrite runes_space. cbn [filter]. now rewrite blank.
Qed.
Lemma strip_one sep : clean sep -> forall e first, strip sep (rnae_one is_letter is_number fmtv sep first e) = encode_runes (filter alnum (shown e)).
Proof.
  intros C. assert (SD : simple_sep sep) by apply C. fix F 1. intros e first. destruct e; try reflexivity; cbn [rnae_one shown].
  - unfold replaceNonAlphanumerics. rewrite strip_rna by exact C. destruct first; [now rewrite trim_space_letters|reflexivity].
  - rewrite strip_app, strip_self, sapp_nil_r, strip_dedup, strip_trim by exact SD. generalize true as b. induction elements as [|x l IH]; intros b; [reflexivity|].
    cbn [flat_map]. rewrite filter_app, encode_runes_app, strip_app, F, IH. reflexivity.
  - destruct e; try reflexivity; rewrite strip_app, strip_self, sapp_nil_r; unfold replaceNonAlphanumerics; now rewrite strip_rna.
  - rewrite strip_app, strip_self, sapp_nil_r. unfold replaceNonAlphanumerics. now rewrite strip_rna.
Qed.
Lemma strip_body sep l : clean sep -> forall b, strip sep (rnae_body is_letter is_number fmtv sep b l) = encode_runes (filter alnum (flat_map shown l)).
Proof.
  intros C. induction l as [|x l IH]; intros b; [reflexivity|]. cbn [rnae_body flat_map]. now rewrite filter_app, encode_runes_app, strip_app, strip_one, IH.
Qed.
Lemma strip_id els sep : clean sep ->
  strip sep (trim_suffix (replaceNonAlphanumericsOnElements is_letter is_number fmtv els sep) sep) = encode_runes (filter alnum (flat_map shown els)).
Proof. intros C. unfold replaceNonAlphanumericsOnElements. rewrite strip_trim, strip_dedup, strip_trim by apply C. now apply strip_body. Qed.

(** ** the end *)
Section Char.
Variable c : ascii.
Hypothesis low : (N_of_ascii c < 128)%N.
Hypothesis not_alnum : alnum (N_of_ascii c) = false.
Notation sep := (String c "").
Fixpoint rep (n : nat) : string := match n with O => "" | S n => String c (rep n) end.
(** at most [k] separators at the end, after something else *)
Definition T (k : nat) (s : string) : Prop := exists t x n, s = (t ++ String x (rep n))%string /\ x <> c /\ (n <= k)%nat.
Lemma T_le k j s : T k s -> (k <= j)%nat -> T j s.
Proof. intros (t & x & n & E & X & L) J. exists t, x, n. repeat split; auto. lia. Qed.
Lemma T_pre k a s : T k s -> T k (a ++ s)%string.
Proof. intros (t & x & n & -> & X & L). exists (a ++ t)%string, x, n. now rewrite sapp_assoc. Qed.
Lemma rep_snoc n : (rep n ++ sep)%string = rep (S n).
Proof. induction n as [|n IH]; [reflexivity|]. cbn [rep append] in *. now rewrite IH. Qed.
Lemma T_snoc k s : T k s -> T (S k) (s ++ sep)%string.
Proof. intros (t & x & n & -> & X & L). exists t, x, (S n). rewrite sapp_assoc. cbn [append]. rewrite rep_snoc. repeat split; auto. lia. Qed.
Lemma T_trim k s : T k s -> T (k - 1) (trim_suffix s sep).
Proof.
  intros (t & x & n & -> & X & L). destruct n as [|n].
  - destruct (trim_suffix_cases (t ++ String x (rep 0)) sep) as [(r & E & _)|[-> _]].
    + exfalso. apply app_last_inv in E; [|discriminate]. destruct E as (x' & E & _). cbn [rep] in E. destruct x' as [|y [|]]; cbn in E; congruence.
    + exists t, x, 0%nat. repeat split; auto. lia.
  - rewrite <- (rep_snoc n). change (String x (rep n ++ sep)) with (String x (rep n) ++ sep)%string. rewrite <- sapp_assoc, trim_suffix_app.
    exists t, x, n. repeat split; auto. lia.
Qed.
Notation dd := (fun k s => replace_all_from k s (String c sep) sep).
Lemma dd_pos y s : y <> c -> dd 0%nat (String y s) = String y (dd 0%nat s).
Proof. intros N. cbn [replace_all_from]. cbn [has_prefix]. apply Ascii.eqb_neq in N. now rewrite N. Qed.
Lemma dd_app t : forall x s, x <> c ->
  (exists t', dd 0%nat (t ++ String x s)%string = (t' ++ String x (dd 0%nat s))%string) /\
  (forall t0, t = String c t0 -> exists t', dd 1%nat (t ++ String x s)%string = (t' ++ String x (dd 0%nat s))%string).
Proof.
  induction t as [|y t IH]; intros x s X.
  - split; [|discriminate]. cbn [append]. rewrite dd_pos by exact X. now exists "".
  - destruct (IH x s X) as [I0 I1]. split.
    + cbn [append replace_all_from]. destruct (has_prefix (String y (t ++ String x s)) (String c sep)) eqn:P.
      * apply has_prefix_iff in P. destruct P as [r P]. cbn [append] in P. injection P as -> P. destruct t as [|z t].
        -- cbn [append] in P. congruence.
        -- cbn [append] in P. injection P as -> _. destruct (I1 t eq_refl) as (t' & E). cbn [String.length Nat.sub]. exists (sep ++ t')%string.
           cbn [append]. f_equal. exact E.
      * destruct I0 as (t' & E). exists (String y t'). cbn [append]. f_equal. exact E.
    + intros t0 [= -> ->]. cbn [append replace_all_from]. exact I0.
Qed.
Lemma dd_rep n : exists m, dd 0%nat (rep n) = rep m /\ (m <= Nat.div2 (S n))%nat.
Proof.
  enough (G : forall b n, (n < b)%nat -> exists m, dd 0%nat (rep n) = rep m /\ (m <= Nat.div2 (S n))%nat) by (apply (G (S n)); lia).
  clear n. induction b as [|b IH]; intros n L; [lia|]. destruct n as [|[|n]].
  - exists 0%nat. split; [reflexivity|lia].
  - exists 1%nat. split; [|cbn; lia]. cbn [rep replace_all_from has_prefix]. rewrite Ascii.eqb_refl. reflexivity.
  - destruct (IH n ltac:(lia)) as (m & E & M). exists (S m). split; [|cbn [Nat.div2] in *; lia].
    cbn [rep replace_all_from has_prefix]. rewrite Ascii.eqb_refl. cbn [String.length Nat.sub append rep]. f_equal. exact E.
Qed.
Lemma T_dedup k s : T k s -> T (Nat.div2 (S k)) (dedup_sep s sep).
Proof.
  intros (t & x & n & -> & X & L). unfold dedup_sep, replace_all. cbn [append]. destruct (proj1 (dd_app t x (rep n) X)) as (t' & E). rewrite E.
  destruct (dd_rep n) as (m & -> & M). exists t', x, m. repeat split; auto. etransitivity; [exact M|].
  rewrite !Nat.div2_div. apply Nat.div_le_mono; lia.
Qed.
Lemma rune_last r : alnum r = true -> T 0 (encode_rune r).
Proof.
  intros A. destruct (N.lt_ge_cases r 128) as [L|L].
  - rewrite encode_ascii by exact L. exists "", (chr r), 0%nat. repeat split; auto. intros E. rewrite <- E, chr_N in not_alnum by lia. congruence.
  - destruct (encode_high r L) as [H N]. assert (G : forall s, all_high s -> s <> "" -> T 0 s).
    { clear - low. induction s as [|y s IH]; intros H N; [congruence|]. destruct H as [Y H]. destruct s as [|z s].
      - exists "", y, 0%nat. repeat split; auto. intros ->. lia.
      - apply (T_pre 0 (String y "")). apply IH; [exact H|discriminate]. }
    now apply G.
Qed.
Lemma rna_T l : existsb alnum l = true -> forall b, T 1 (rna_loop is_letter is_number l b sep).
Proof.
  assert (Z : forall l b, existsb alnum l = false -> exists n, rna_loop is_letter is_number l b sep = rep n /\ (n <= if b then 0 else 1)%nat).
  { clear. induction l as [|r l IH]; intros b H; [exists 0%nat; split; [reflexivity|lia]|]. cbn [existsb] in H. apply orb_false_elim in H as [H1 H2].
    cbn [rna_loop]. rewrite H1. destruct (negb b && _) eqn:B.
    - apply andb_prop in B as [B _]. destruct b; [discriminate|]. destruct (IH true H2) as (n & -> & N). exists (S n). split; [reflexivity|lia].
    - now apply IH. }
  induction l as [|r l IH]; intros H b; [discriminate|]. cbn [existsb] in H. cbn [rna_loop]. destruct (existsb alnum l) eqn:X.
  - destruct (alnum r); [apply T_pre; now apply IH|]. destruct (_ && _); [apply T_pre|]; now apply IH.
  - rewrite orb_false_r in H. rewrite H. destruct (Z l false X) as (n & -> & N). destruct (rune_last r H) as (t & x & m & -> & Y & M).
    exists t, x, n. rewrite sapp_assoc. cbn [append]. assert (m = 0%nat) by lia. subst m. repeat split; auto.
Qed.
Lemma existsb_filter l : existsb alnum l = true <-> filter alnum l <> [].
Proof. induction l as [|r l IH]; cbn; [split; [discriminate|congruence]|]. destruct (alnum r); cbn; [split; [discriminate|reflexivity]|exact IH]. Qed.
Lemma ignored_body rest : Forall ignored rest -> forall b, rnae_body is_letter is_number fmtv sep b rest = "".
Proof. induction 1 as [|x l X F IH]; intros b; [reflexivity|]. cbn [rnae_body]. rewrite IH. destruct x; try destruct X; reflexivity. Qed.
Lemma body_app a b l : rnae_body is_letter is_number fmtv sep b (a ++ l) =
  (rnae_body is_letter is_number fmtv sep b a ++ rnae_body is_letter is_number fmtv sep (match a with [] => b | _ => false end) l)%string.
Proof. revert b. induction a as [|x a IH]; intros b; [reflexivity|]. cbn [app rnae_body]. rewrite IH, sapp_assoc. now destruct a. Qed.
Lemma lettered_T e : lettered alnum fmtv e -> forall b, T 2 (rnae_one is_letter is_number fmtv sep b e).
Proof.
  induction 1 as [s H|a loc N H|cl a H|k pre e rest a H IH I]; intros b.
  - cbn [rnae_one]. apply (T_le 1); [|lia]. apply rna_T. destruct b; [|exact H]. apply existsb_filter. rewrite trim_space_letters. now apply existsb_filter.
  - cbn [rnae_one]. destruct loc; try congruence; apply T_snoc, rna_T, H.
  - cbn [rnae_one]. apply T_snoc, rna_T, H.
  - assert (Q : rnae_one is_letter is_number fmtv sep b (QuotedText k (pre ++ e :: rest) a) =
                (dedup_sep (trim_suffix (rnae_body is_letter is_number fmtv sep true (pre ++ e :: rest)) sep) sep ++ sep)%string).
    { cbn [rnae_one]. do 3 f_equal. generalize true. generalize (pre ++ e :: rest). clear. induction l as [|x l IH]; intros b; [reflexivity|]. cbn [rnae_body]. now rewrite IH. }
    rewrite Q. apply T_snoc. apply (T_dedup 1), (T_trim 2). rewrite body_app. apply T_pre. cbn [rnae_body]. rewrite (ignored_body rest I), sapp_nil_r. apply IH.
Qed.
Lemma id_end pre e rest : lettered alnum fmtv e -> Forall ignored rest ->
  forall t, trim_suffix (replaceNonAlphanumericsOnElements is_letter is_number fmtv (pre ++ e :: rest) sep) sep <> (t ++ sep)%string.
Proof.
  intros H I t. assert (G : T 0 (trim_suffix (replaceNonAlphanumericsOnElements is_letter is_number fmtv (pre ++ e :: rest) sep) sep)).
  { apply (T_trim 1). unfold replaceNonAlphanumericsOnElements. apply (T_dedup 1), (T_trim 2). rewrite body_app. apply T_pre. cbn [rnae_body].
    rewrite (ignored_body rest I), sapp_nil_r. now apply lettered_T. }
  destruct G as (t' & x & n & -> & X & L). assert (n = 0%nat) by lia. subst n. cbn [rep]. intros E. apply app_last_inv in E; [|discriminate].
  destruct E as (x' & E & _). destruct x' as [|y [|]]; cbn in E; congruence.
Qed.
Lemma id_nonempty pre e rest : lettered alnum fmtv e -> Forall ignored rest ->
  trim_suffix (replaceNonAlphanumericsOnElements is_letter is_number fmtv (pre ++ e :: rest) sep) sep <> "".
Proof.
  intros H I. assert (G : T 0 (trim_suffix (replaceNonAlphanumericsOnElements is_letter is_number fmtv (pre ++ e :: rest) sep) sep)).
  { apply (T_trim 1). unfold replaceNonAlphanumericsOnElements. apply (T_dedup 1), (T_trim 2). rewrite body_app. apply T_pre. cbn [rnae_body].
    rewrite (ignored_body rest I), sapp_nil_r. now apply lettered_T. }
  destruct G as (t' & x & n & -> & X & L). destruct t'; discriminate.
Qed.
End Char.
End Tail.
