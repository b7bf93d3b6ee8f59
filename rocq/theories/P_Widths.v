(** C33: widths of columns. *)
From Verif Require Import GoBase Tables TableWidths.
From Flocq Require Import Core IEEE754.BinarySingleNaN Relative.
From Coq Require Import Reals Lra QArith Psatz.
Local Open Scope R_scope.

Notation rnd := (round radix2 (SpecFloat.fexp 53 1024) (round_mode mode_NE)).
Lemma round_int n : (Z.abs n < 2 ^ 53)%Z -> rnd (IZR n) = IZR n.
Proof.
  intros H. apply round_generic; [apply valid_rnd_round_mode|].
  apply generic_format_FLT. exists (Float radix2 n 0).
  - unfold F2R. cbn. ring.
  - cbn [Fnum]. change (Zpower radix2 53) with (2 ^ 53)%Z. lia.
  - vm_compute. discriminate.
Qed.
Definition u53 : R := / IZR (2 ^ 53).
Lemma u53_pos : 0 < u53.
Proof. apply Rinv_0_lt_compat. now apply IZR_lt. Qed.
Lemma bpow_u : / 2 * bpow radix2 (- 53 + 1) = u53.
Proof. unfold u53. change (bpow radix2 (-53 + 1)) with (/ IZR (2 ^ 52)). change (2 ^ 53)%Z with (2 * 2 ^ 52)%Z. rewrite mult_IZR. field. apply not_0_IZR. discriminate. Qed.
Lemma round_rel x : (x = 0 \/ / IZR (2 ^ 100) <= Rabs x) -> exists eps, Rabs eps <= u53 /\ rnd x = x * (1 + eps).
Proof.
  intros [->|H].
  - exists 0. rewrite Rabs_R0. split; [apply Rlt_le, u53_pos|]. rewrite round_0; [ring|apply valid_rnd_round_mode].
  - rewrite <- bpow_u. destruct (relative_error_N_FLT_ex radix2 (-1074) 53 eq_refl (fun x => negb (Z.even x)) x) as (eps & E1 & E2).
    + apply Rle_trans with (2 := H). change (/ IZR (2 ^ 100)) with (bpow radix2 (-100)). apply bpow_le. lia.
    + exists eps. split; [exact E1|]. exact E2.
Qed.
Lemma round_small x eps : Rabs eps <= u53 -> rnd x = x * (1 + eps) -> Rabs x <= IZR (2 ^ 100) -> Rlt_bool (Rabs (rnd x)) (bpow radix2 1024) = true.
Proof.
  intros E1 E2 B. apply Rlt_bool_true. rewrite E2, Rabs_mult. apply Rle_lt_trans with (IZR (2 ^ 100) * 2).
  - apply Rmult_le_compat; try apply Rabs_pos; [exact B|]. apply Rle_trans with (1 := Rabs_triang _ _). rewrite Rabs_R1.
    assert (u53 <= 1). { unfold u53. rewrite <- Rinv_1. apply Rinv_le; [lra|]. apply IZR_le. discriminate. } lra.
  - rewrite <- mult_IZR. change (2 ^ 100 * 2)%Z with (Zpower radix2 101). rewrite IZR_Zpower by lia. apply bpow_lt. lia.
Qed.
Lemma of_int_R n : (Z.abs n < 2 ^ 53)%Z -> B2R (of_int n) = IZR n /\ is_finite (of_int n) = true.
Proof.
  intros H. unfold of_int. pose proof (binary_normalize_correct 53 1024 TableWidths.prec_pos TableWidths.prec_small mode_NE n 0 false) as C. cbv zeta in C.
  replace (F2R (Float radix2 n 0)) with (IZR n) in C by (unfold F2R; cbn; ring).
  rewrite round_int in C by exact H. rewrite Rlt_bool_true in C.
  - destruct C as (C1 & C2 & _). auto.
  - rewrite <- abs_IZR. apply Rlt_le_trans with (IZR (2 ^ 53)); [now apply IZR_lt|].
    change (IZR (2 ^ 53)) with (bpow radix2 53). apply bpow_le. lia.
Qed.

Lemma inv_le_one s : (0 < s)%Z -> (s <= 2 ^ 30)%Z -> / IZR (2 ^ 30) <= / IZR s.
Proof. intros H1 H2. apply Rinv_le; [now apply IZR_lt|now apply IZR_le]. Qed.

(** the scaled width, before truncation: close to the exact share *)
Lemma scaled_close w s : (0 <= w <= s)%Z -> (0 < s)%Z -> (s <= 2 ^ 30)%Z ->
  exists z, B2R (fmul (width w s) (of_int 10000)) = z /\ 0 <= z /\
    Rabs (z - IZR (1000000 * w) / IZR s) <= / IZR (2 ^ 31).
Proof.
  intros W S0 S1. assert (SP : 0 < IZR s) by now apply IZR_lt.
  destruct (of_int_R (w * 100)) as [X1 F1]; [lia|]. destruct (of_int_R s) as [X2 F2]; [lia|]. destruct (of_int_R 10000) as [X3 F3]; [lia|].
  set (x := IZR (w * 100) / IZR s).
  assert (XB : 0 <= x <= 100).
  { unfold x, Rdiv. split.
    - apply Rmult_le_pos; [apply IZR_le; lia|apply Rlt_le, Rinv_0_lt_compat, SP].
    - apply Rmult_le_reg_r with (IZR s); [exact SP|]. rewrite Rmult_assoc, Rinv_l, Rmult_1_r by lra. rewrite <- mult_IZR. apply IZR_le. lia. }
  assert (XL : x = 0 \/ / IZR (2 ^ 30) <= x).
  { destruct (Z.eq_dec w 0) as [->|NW]; [left; unfold x, Rdiv; cbn; ring|right].
    apply Rle_trans with (1 := inv_le_one s S0 S1). unfold x, Rdiv. rewrite <- (Rmult_1_l (/ IZR s)) at 1.
    apply Rmult_le_compat_r; [apply Rlt_le, Rinv_0_lt_compat, SP|]. apply IZR_le. lia. }
  assert (U : u53 <= / IZR (2 ^ 53)) by apply Rle_refl. pose proof u53_pos as UP.
  assert (N30 : / IZR (2 ^ 100) <= / IZR (2 ^ 30)) by (apply Rinv_le; [now apply IZR_lt|apply IZR_le; discriminate]).
  assert (BIG : 1000000 <= IZR (2 ^ 100)) by (apply IZR_le; discriminate).
  destruct (round_rel x) as (e1 & E1 & R1).
  { destruct XL as [->|XL]; [now left|right]. rewrite Rabs_pos_eq by lra. lra. }
  assert (V1 : B2R (width w s) = x * (1 + e1) /\ is_finite (width w s) = true).
  { unfold width, fdiv. pose proof (Bdiv_correct 53 1024 TableWidths.prec_pos TableWidths.prec_small mode_NE (of_int (w * 100)) (of_int s)) as C.
    rewrite X1, X2 in C. fold x in C. specialize (C ltac:(lra)). rewrite (round_small x e1 E1 R1) in C by (rewrite Rabs_pos_eq; lra).
    destruct C as (C1 & C2 & _). rewrite C2, F1. split; [|reflexivity]. rewrite C1. exact R1. }
  destruct V1 as [V1 F4]. set (y := x * (1 + e1)) in *.
  assert (E1' : - u53 <= e1 <= u53) by (now apply Rabs_le_inv).
  assert (US : u53 <= / 1000000000000000).
  { unfold u53. apply Rinv_le; [lra|]. apply IZR_le. vm_compute. discriminate. }
  assert (YB : 0 <= y <= 101). { unfold y. split; [apply Rmult_le_pos; lra|]. apply Rle_trans with (100 * (1 + u53)); [apply Rmult_le_compat; lra|lra]. }
  assert (YL : y = 0 \/ / IZR (2 ^ 100) <= y * 10000).
  { destruct XL as [X0|XL]; [left; unfold y; rewrite X0; ring|right]. apply Rle_trans with (1 := N30). apply Rle_trans with (1 := XL). unfold y.
    assert (x * (1 / 2) <= x * (1 + e1)) by (apply Rmult_le_compat_l; lra). lra. }
  destruct (round_rel (y * 10000)) as (e2 & E2 & R2).
  { destruct YL as [Y0|YL]; [left; rewrite Y0; ring|right]. rewrite Rabs_pos_eq by lra. exact YL. }
  exists (y * 10000 * (1 + e2)).
  assert (E2' : - u53 <= e2 <= u53) by (now apply Rabs_le_inv).
  split; [|split].
  - unfold fmul. pose proof (Bmult_correct 53 1024 TableWidths.prec_pos TableWidths.prec_small mode_NE (width w s) (of_int 10000)) as C.
    rewrite V1, X3 in C. fold y in C. rewrite (round_small (y * 10000) e2 E2 R2) in C by (rewrite Rabs_pos_eq; lra).
    destruct C as (C1 & _). rewrite C1. exact R2.
  - apply Rmult_le_pos; lra.
  - replace (IZR (1000000 * w) / IZR s) with (x * 10000).
    2: { unfold x. rewrite !mult_IZR. field. lra. }
    unfold y. replace (x * (1 + e1) * 10000 * (1 + e2) - x * 10000) with (x * 10000 * (e1 + e2 + e1 * e2)) by ring.
    rewrite Rabs_mult, (Rabs_pos_eq (x * 10000)) by lra.
    assert (M : Rabs (e1 + e2 + e1 * e2) <= 3 * u53).
    { apply Rle_trans with (1 := Rabs_triang _ _). apply Rle_trans with (Rabs e1 + Rabs e2 + Rabs (e1 * e2)).
      - pose proof (Rabs_triang e1 e2). lra.
      - rewrite Rabs_mult. assert (Rabs e1 * Rabs e2 <= u53 * 1) by (apply Rmult_le_compat; try apply Rabs_pos; lra). lra. }
    apply Rle_trans with (100 * 10000 * (3 * u53)).
    + apply Rmult_le_compat; try lra. apply Rabs_pos.
    + unfold u53. assert (Q1 : / IZR (2 ^ 31) = IZR (2 ^ 22) * / IZR (2 ^ 53)).
      { change (2 ^ 53)%Z with (2 ^ 31 * 2 ^ 22)%Z. rewrite mult_IZR. field. split; apply not_0_IZR; discriminate. }
      rewrite Q1. rewrite <- Rmult_assoc. apply Rmult_le_compat_r; [apply Rlt_le, u53_pos|]. rewrite <- !mult_IZR. apply IZR_le. vm_compute. discriminate.
Qed.
Lemma trunc_floor x : 0 <= B2R x -> to_int x = Zfloor (B2R x).
Proof.
  intros H. apply eq_IZR. unfold to_int. rewrite (Btrunc_correct 53 1024 TableWidths.prec_small x). unfold round, scaled_mantissa, cexp, FIX_exp, F2R. cbn [bpow Fnum Fexp Z.opp].
  rewrite !Rmult_1_r. now rewrite Ztrunc_floor.
Qed.
(** The part of 1000000 that a column gets is its share rounded down, or one less when the share is a whole number. *)
Lemma units_bounds w s : (0 <= w <= s)%Z -> (0 < s)%Z -> (s <= 2 ^ 30)%Z ->
  (1000000 * w / s - 1 <= width_units w s <= 1000000 * w / s)%Z /\ (0 <= width_units w s)%Z /\
  ((1000000 * w) mod s <> 0 -> width_units w s = 1000000 * w / s)%Z.
Proof.
  intros W S0 S1. destruct (scaled_close w s W S0 S1) as (z & Z1 & Z0 & ZC). unfold width_units. rewrite trunc_floor; rewrite Z1; [|exact Z0].
  assert (SP : 0 < IZR s) by now apply IZR_lt.
  set (N := (1000000 * w)%Z) in *. set (q := (N / s)%Z). set (r := (N mod s)%Z).
  assert (NE : N = (q * s + r)%Z) by (unfold q, r; rewrite (Z.div_mod N s) at 1; lia).
  assert (RB : (0 <= r < s)%Z) by (apply Z.mod_pos_bound; lia).
  assert (TE : IZR N / IZR s = IZR q + IZR r / IZR s) by (rewrite NE, plus_IZR, mult_IZR; field; lra).
  rewrite TE in ZC. apply Rabs_le_inv in ZC.
  assert (I1 : / IZR (2 ^ 31) < / IZR s). { apply Rinv_lt; [exact SP|]. apply IZR_lt. lia. }
  assert (I2 : IZR r / IZR s <= 1 - / IZR s).
  { replace (1 - / IZR s) with ((IZR s - 1) / IZR s) by (field; lra). unfold Rdiv. apply Rmult_le_compat_r; [apply Rlt_le, Rinv_0_lt_compat, SP|]. rewrite <- minus_IZR. apply IZR_le. lia. }
  assert (I3 : 0 <= IZR r / IZR s).
  { unfold Rdiv. apply Rmult_le_pos; [apply IZR_le; lia|apply Rlt_le, Rinv_0_lt_compat, SP]. }
  assert (I4 : / IZR (2 ^ 31) <= 1). { rewrite <- Rinv_1. apply Rinv_le; [lra|apply IZR_le; discriminate]. }
  assert (FL : IZR (Zfloor z) <= z) by apply Zfloor_lb. assert (FU : z < IZR (Zfloor z) + 1) by apply Zfloor_ub.
  split; [split|split].
  - apply Z.lt_succ_r. apply lt_IZR. rewrite minus_IZR, succ_IZR. lra.
  - apply Z.lt_succ_r. apply lt_IZR. rewrite succ_IZR. lra.
  - apply Zfloor_lub. exact Z0.
  - intros NR. apply Zfloor_imp. assert (I5 : / IZR s <= IZR r / IZR s).
    { unfold Rdiv. rewrite <- (Rmult_1_l (/ IZR s)) at 1. apply Rmult_le_compat_r; [apply Rlt_le, Rinv_0_lt_compat, SP|]. apply IZR_le. lia. }
    rewrite plus_IZR. lra.
Qed.
Lemma units_sum s : (0 < s)%Z -> (s <= 2 ^ 30)%Z -> forall ws, Forall (fun w => 0 <= w <= s)%Z ws ->
  let u := fold_right Z.add 0%Z (map (fun w => width_units w s) ws) in
  (0 <= u /\ u * s <= 1000000 * sum_weights ws <= (u + 2 * Z.of_nat (List.length ws)) * s)%Z.
Proof.
  intros S0 S1. induction 1 as [|w ws W F IH]; [cbn; lia|]. cbn [map fold_right List.length sum_weights]. unfold sum_weights in IH |- *. cbn [fold_right].
  cbv zeta in IH. destruct IH as (I1 & I2 & I3). destruct (units_bounds w s W S0 S1) as (B1 & B2 & _).
  pose proof (Z.div_mod (1000000 * w) s ltac:(lia)) as D. pose proof (Z.mod_pos_bound (1000000 * w) s S0) as M.
  set (q := (1000000 * w / s)%Z) in *. set (m := ((1000000 * w) mod s)%Z) in *. set (uw := width_units w s) in *.
  set (u := fold_right Z.add 0%Z (map (fun w0 => width_units w0 s) ws)) in *. set (sw := fold_right Z.add 0%Z ws) in *.
  cbv zeta. rewrite Nat2Z.inj_succ. split; [lia|]. nia.
Qed.
Lemma loop_shape s ws last : forall acc, widths_loop s (ws ++ [last]) acc =
  (map (fun w => width w s) ws ++ [last_width (acc + fold_right Z.add 0%Z (map (fun w => width_units w s) ws))])%list.
Proof.
  induction ws as [|w ws IH]; intros acc; cbn [app map fold_right widths_loop].
  - now rewrite Z.add_0_r.
  - destruct (ws ++ [last])%list eqn:E; [destruct ws; discriminate|]. rewrite IH. cbn [app]. do 4 f_equal. lia.
Qed.
Lemma sum_app ws last : sum_weights (ws ++ [last]) = (sum_weights ws + last)%Z.
Proof. unfold sum_weights. induction ws as [|w ws IH]; cbn; [lia|]. rewrite IH. lia. Qed.
Lemma sum_bounds ws : Forall (fun w => 0 <= w)%Z ws -> (0 <= sum_weights ws)%Z /\ Forall (fun w => 0 <= w <= sum_weights ws)%Z ws.
Proof.
  induction 1 as [|w ws H F [I1 I2]]; [split; [cbn; lia|constructor]|]. unfold sum_weights in *. cbn [fold_right]. split; [lia|].
  constructor; [lia|]. eapply Forall_impl; [|exact I2]. cbv beta. lia.
Qed.
Lemma div_exact x eps y : Rabs eps <= u53 -> y = x * (1 + eps) -> 0 <= x <= 100 -> Rabs (y - x) <= / 1000000000.
Proof.
  intros E -> B. replace (x * (1 + eps) - x) with (x * eps) by ring. rewrite Rabs_mult, (Rabs_pos_eq x) by lra.
  apply Rle_trans with (100 * u53); [apply Rmult_le_compat; try lra; apply Rabs_pos|].
  unfold u53. assert (/ IZR (2 ^ 53) <= / 1000000000000); [|lra]. apply Rinv_le; [lra|apply IZR_le; discriminate].
Qed.
Lemma quot_close a b : (0 <= a < 2 ^ 53)%Z -> (0 < b < 2 ^ 30 + 1)%Z -> (a <= 100 * b)%Z -> Rabs (B2R (fdiv (of_int a) (of_int b)) - IZR a / IZR b) <= / 1000000000.
Proof.
  intros HA HB L. assert (SP : 0 < IZR b) by (apply IZR_lt; lia).
  destruct (of_int_R a) as [X1 F1]; [lia|]. destruct (of_int_R b) as [X2 F2]; [lia|].
  set (x := IZR a / IZR b).
  assert (XB : 0 <= x <= 100).
  { unfold x, Rdiv. split.
    - apply Rmult_le_pos; [apply IZR_le; lia|apply Rlt_le, Rinv_0_lt_compat, SP].
    - apply Rmult_le_reg_r with (IZR b); [exact SP|]. rewrite Rmult_assoc, Rinv_l, Rmult_1_r by lra. rewrite <- mult_IZR. apply IZR_le. lia. }
  destruct (round_rel x) as (e1 & E1 & R1).
  { destruct (Z.eq_dec a 0) as [->|NW]; [left; unfold x, Rdiv; ring|right]. rewrite Rabs_pos_eq by lra.
    apply Rle_trans with (/ IZR b); [apply Rinv_le; [exact SP|apply IZR_le; lia]|]. unfold x, Rdiv. rewrite <- (Rmult_1_l (/ IZR b)) at 1.
    apply Rmult_le_compat_r; [apply Rlt_le, Rinv_0_lt_compat, SP|]. apply IZR_le. lia. }
  unfold fdiv. pose proof (Bdiv_correct 53 1024 TableWidths.prec_pos TableWidths.prec_small mode_NE (of_int a) (of_int b)) as C.
  rewrite X1, X2 in C. fold x in C. specialize (C ltac:(lra)).
  assert (BIG : 100 <= IZR (2 ^ 100)) by (apply IZR_le; discriminate).
  rewrite (round_small x e1 E1 R1) in C by (rewrite Rabs_pos_eq; lra). destruct C as (C1 & _). rewrite C1. eapply div_exact; eauto.
Qed.

(** ** C33 *)
(** Every column but the last gets its share of 100% (as close as floating point numbers allow); the last one gets its share plus
    what truncation left over, less than 0.0002% per other column.  Hence the widths add up to 100% up to these amounts. *)
Theorem C33_shares : forall ws last,
  Forall (fun w => 0 <= w)%Z (ws ++ [last]) -> (0 < sum_weights (ws ++ [last]) <= 2 ^ 30)%Z ->
  let s := IZR (sum_weights (ws ++ [last])) in
  exists xs x, widths (ws ++ [last]) = (xs ++ [x])%list /\
    Forall2 (fun w x => Rabs (B2R x - 100 * IZR w / s) <= / 1000000000) ws xs /\
    100 * IZR last / s - / 1000000000 <= B2R x <= 100 * IZR last / s + 2 / 10000 * INR (List.length ws) + / 1000000000.
Proof.
  intros ws last F S. cbv zeta. set (s := sum_weights (ws ++ [last])) in *. destruct (sum_bounds _ F) as [_ FB]. fold s in FB.
  apply Forall_app in FB. destruct FB as [FB FL]. inversion FL as [|? ? HL _]; subst.
  assert (SP : 0 < IZR s) by (apply IZR_lt; lia).
  assert (SE : s = (sum_weights ws + last)%Z) by apply sum_app. unfold widths. fold s. clearbody s.
  exists (map (fun w => width w s) ws), (last_width (0 + fold_right Z.add 0%Z (map (fun w => width_units w s) ws))).
  split; [apply loop_shape|]. split.
  - clear - FB S SP. induction FB as [|w ws H F IH]; cbn; constructor; [|exact IH]. unfold width.
    replace (100 * IZR w / IZR s) with (IZR (w * 100) / IZR s) by (rewrite mult_IZR; field; lra). apply quot_close; lia.
  - destruct (units_sum s ltac:(lia) ltac:(lia) ws FB) as (U0 & U1 & U2). set (u := fold_right Z.add 0%Z (map (fun w => width_units w s) ws)) in *.
    assert (UB : (u <= 1000000)%Z) by nia.
    unfold last_width. rewrite Z.add_0_l. pose proof (quot_close (1000000 - u) 10000 ltac:(lia) ltac:(lia) ltac:(lia)) as Q. apply Rabs_le_inv in Q.
    assert (L1 : 100 * IZR last / IZR s <= IZR (1000000 - u) / 10000).
    { apply Rmult_le_reg_r with (IZR s * 10000); [lra|]. replace (100 * IZR last / IZR s * (IZR s * 10000)) with (IZR (1000000 * last)) by (rewrite mult_IZR; field; lra).
      replace (IZR (1000000 - u) / 10000 * (IZR s * 10000)) with (IZR ((1000000 - u) * s)) by (rewrite mult_IZR; field). apply IZR_le. nia. }
    assert (L2 : IZR (1000000 - u) / 10000 <= 100 * IZR last / IZR s + 2 / 10000 * INR (List.length ws)).
    { rewrite INR_IZR_INZ. apply Rmult_le_reg_r with (IZR s * 10000); [lra|].
      replace (IZR (1000000 - u) / 10000 * (IZR s * 10000)) with (IZR ((1000000 - u) * s)) by (rewrite mult_IZR; field).
      replace ((100 * IZR last / IZR s + 2 / 10000 * IZR (Z.of_nat (List.length ws))) * (IZR s * 10000))
        with (IZR (1000000 * last + 2 * Z.of_nat (List.length ws) * s)) by (rewrite plus_IZR, !mult_IZR; field; lra).
      apply IZR_le. nia. }
    lra.
Qed.
Fixpoint sum_R (l : list f64) : R := match l with [] => 0 | x :: r => B2R x + sum_R r end.
Theorem C33_sum : forall ws,
  Forall (fun w => 0 <= w)%Z ws -> (0 < sum_weights ws <= 2 ^ 30)%Z ->
  Rabs (sum_R (widths ws) - 100) <= 3 / 10000 * INR (List.length ws).
Proof.
  intros ws F S. destruct (exists_last (l := ws)) as (w0 & last & ->). { intros ->. cbn in S. lia. }
  destruct (C33_shares w0 last F S) as (xs & x & -> & F2 & L). set (s := IZR (sum_weights (w0 ++ [last]))) in *.
  assert (SP : 0 < s) by (apply IZR_lt; lia).
  assert (TOT : 100 * IZR (sum_weights w0) / s + 100 * IZR last / s = 100).
  { unfold s in *. rewrite sum_app, plus_IZR in *. field. lra. }
  clearbody s.
  assert (SR : forall l y, sum_R (l ++ [y]) = sum_R l + B2R y) by (clear; induction l; intros; cbn; rewrite ?IHl; ring).
  rewrite SR, app_length, plus_INR. cbn [List.length INR].
  assert (SX : Rabs (sum_R xs - 100 * IZR (sum_weights w0) / s) <= / 1000000000 * INR (List.length w0)).
  { clear - F2 SP. induction F2 as [|w y ws ys H F IH].
    - cbn. replace (0 - 100 * 0 / s) with 0 by (field; lra). rewrite Rabs_R0. lra.
    - cbn [sum_R List.length]. rewrite S_INR. unfold sum_weights in *. cbn [fold_right]. rewrite plus_IZR.
      replace (B2R y + sum_R ys - 100 * (IZR w + IZR (fold_right Z.add 0%Z ws)) / s)
        with ((B2R y - 100 * IZR w / s) + (sum_R ys - 100 * IZR (fold_right Z.add 0%Z ws) / s)) by (field; lra).
      apply Rle_trans with (1 := Rabs_triang _ _). lra. }
  apply Rabs_le_inv in SX. pose proof (pos_INR (List.length w0)). apply Rabs_le. lra.
Qed.
(** But neither are the parts exactly the rounded shares, nor do the numbers that are displayed add up to 100. *)
Theorem C33_floor_refuted : exists w s, (0 < w < s)%Z /\ (width_units w s < 1000000 * w / s)%Z.
Proof. exists 57%Z, 625%Z. split; [lia|]. vm_compute. reflexivity. Qed.
Theorem C33_displayed_refuted : exists ws, Forall (fun w => 0 < w)%Z ws /\ ~ (fold_right Qplus 0 (map shown (widths ws)) == 100)%Q.
Proof. exists [2; 1]%Z. split; [repeat constructor|]. vm_compute. discriminate. Qed.
(** Columns without any weight have no width at all. *)
Theorem C33_no_weight_refuted : exists ws, Forall (fun w => 0 <= w)%Z ws /\ exists x, In x (widths ws) /\ is_nan x = true.
Proof. exists [0; 0]%Z. split; [repeat constructor; lia|]. eexists. split; [left; reflexivity|]. vm_compute. reflexivity. Qed.
Theorem C33_case : map shown (widths [2; 1]%Z) = [666667 # 10000; 333334 # 10000]%Q /\ map shown (widths [1; 1; 2]%Z) = [250000 # 10000; 250000 # 10000; 500000 # 10000]%Q.
Proof. split; vm_compute; reflexivity. Qed.

Print Assumptions C33_shares.
Print Assumptions C33_sum.
Print Assumptions C33_floor_refuted.
Print Assumptions C33_displayed_refuted.
Print Assumptions C33_no_weight_refuted.
