(** Exactly which tables crash (C34). *)
From Verif Require Import GoBase GoLemmas Types Attrs Tables TableSpec TableLemmas.

Section T.
Context {A : Type}.
Implicit Types (t : table A) (lines : list (line A)).

Lemma regular_tail n (r : list A) rows : regular n (r :: rows) -> regular n rows.
Proof. intros R i row H. destruct (R (S i) row H) as [X Y]. split; [exact X|]. cbn in Y. intros Q. apply Y. lia. Qed.
Lemma regular_count n (rows : list (list A)) : (1 <= n)%nat -> regular n rows -> List.length rows = rows_needed (List.length (List.concat rows)) n.
Proof.
  intros N. unfold rows_needed. induction rows as [|r rows IH]; intros R; cbn [List.concat List.length].
  - rewrite Nat.div_small by lia. reflexivity.
  - rewrite app_length, IH by (eapply regular_tail; eassumption). destruct (R 0%nat r eq_refl) as [X Y].
    destruct rows as [|r2 rows].
    + cbn [List.concat List.length]. replace (0 + (n - 1))%nat with (n - 1)%nat by lia. rewrite Nat.div_small by lia.
      replace (List.length r + 0 + (n - 1))%nat with ((List.length r - 1) + 1 * n)%nat by lia. rewrite Nat.div_add, Nat.div_small by lia. reflexivity.
    + rewrite Y by (cbn; lia). set (k := List.length (List.concat (r2 :: rows))).
      replace (n + k + (n - 1))%nat with ((k + (n - 1)) + 1 * n)%nat by lia. rewrite Nat.div_add by lia. lia.
Qed.

Lemma hasOption_nil name : hasOption [] name = false. Proof. reflexivity. Qed.
Definition b2n (b : bool) : nat := if b then 1 else 0.
Lemma displayed_length t : List.length (displayed t) = (b2n (is_some (t_header t)) + List.length (t_rows t) + b2n (is_some (t_footer t)))%nat.
Proof. unfold displayed. rewrite !app_length. destruct (t_header t), (t_footer t); cbn; lia. Qed.

(** what is known of the table after some groups of attributes *)
Definition good (imp : bool) (final : attributes) t : Prop :=
  (is_some (t_header t) = true -> imp || hasOption final "header" = true) /\
  (imp = true -> is_some (t_header t) = true) /\
  (is_some (t_footer t) = true -> hasOption final "footer" = true) /\
  (hasOption (t_attrs t) "header" = true -> is_some (t_header t) = true \/ t_rows t = []) /\
  (hasOption (t_attrs t) "footer" = true -> is_some (t_footer t) = true \/ t_rows t = []).
Lemma good_add imp final t a : good imp final t ->
  (forall name, hasOption (aaddall (t_attrs t) a) name = true -> hasOption final name = true) -> good imp final (addAttributes t a).
Proof.
  intros (G1 & G2 & G3 & G4 & G5) M. destruct t as [at0 c0 h rows f]. unfold addAttributes, reorganizeRows, take_header. cbn [t_attrs t_cols t_header t_rows t_footer] in *.
  set (a' := aaddall at0 a) in *. clear G4 G5.
  assert (MH := M "header"). assert (MF := M "footer").
  destruct h as [h|], rows as [|r rows].
  1,2,3: unfold take_footer; cbn [t_attrs t_cols t_header t_rows t_footer]; destruct f as [f|]; try destruct (hasOption a' "footer") eqn:OF; try destruct (split_last r rows) as [i z];
     unfold good; cbn [t_attrs t_cols t_header t_rows t_footer is_some]; repeat split; intros; auto; try congruence.
  destruct (hasOption a' "header") eqn:OH; unfold take_footer; cbn [t_attrs t_cols t_header t_rows t_footer].
  - assert (MH' := MH eq_refl). destruct rows as [|r2 rows]; destruct f as [f|]; try destruct (hasOption a' "footer") eqn:OF; try destruct (split_last r2 rows) as [i z];
     unfold good; cbn [t_attrs t_cols t_header t_rows t_footer is_some]; repeat split; intros; auto; try congruence; try (now rewrite MH', orb_true_r).
  - destruct f as [f|]; try destruct (hasOption a' "footer") eqn:OF; try destruct (split_last r rows) as [i z];
     unfold good; cbn [t_attrs t_cols t_header t_rows t_footer is_some]; repeat split; intros; auto; try congruence.
Qed.
Lemma attrs_add t a : t_attrs (addAttributes t a) = aaddall (t_attrs t) a.
Proof.
  destruct t as [at0 c0 h rows f]. unfold addAttributes, reorganizeRows, take_header, take_footer. cbn [t_attrs t_cols t_header t_rows t_footer].
  destruct h, rows as [|r rows], f; try destruct (hasOption (aaddall at0 a) "header"); cbn [t_attrs t_cols t_header t_rows t_footer]; try reflexivity;
    try destruct (hasOption (aaddall at0 a) "footer"); cbn [t_attrs]; try reflexivity; try (destruct (split_last r rows); reflexivity);
    destruct rows as [|r2 rows]; cbn [t_attrs]; try reflexivity; destruct (split_last r2 rows); reflexivity.
Qed.
Lemma good_adds imp final : forall post pre t, t_attrs t = given_attrs pre -> good imp final t ->
  (forall name p q, post = p ++ q -> hasOption (given_attrs (pre ++ p)) name = true -> hasOption final name = true) ->
  good imp final (fold_left addAttributes post t) /\ t_attrs (fold_left addAttributes post t) = given_attrs (pre ++ post).
Proof.
  induction post as [|a post IH]; intros pre t TA G M; cbn [fold_left]; [now rewrite app_nil_r|].
  assert (TA' : t_attrs (addAttributes t a) = given_attrs (pre ++ [a])).
  { rewrite attrs_add, TA. unfold given_attrs. now rewrite fold_left_app. }
  replace (pre ++ a :: post) with ((pre ++ [a]) ++ post) by now rewrite <- app_assoc.
  apply IH; [exact TA'| |].
  - apply good_add; [exact G|]. intros name H. apply (M name [a] post eq_refl). rewrite <- attrs_add, TA' in H. exact H.
  - intros name p q -> H. apply (M name (a :: p) q eq_refl). rewrite <- app_assoc in H. exact H.
Qed.

Lemma newTable_header lines t : newTable lines = Ok t -> is_some (t_header t) = implicit_header lines.
Proof.
  destruct lines as [|[|c] [|[|c2] [|l3 lines]]]; cbn [newTable scanTableElements implicit_header]; intros H;
    try (injection H as <-; reflexivity);
    match type of H with context [organizeTableCells ?x ?y] => destruct (organizeTableCells x y); try discriminate end; injection H as <-; reflexivity.
Qed.
Lemma first_row_pos lines : rows_nonempty lines -> (1 <= first_row lines)%nat.
Proof. intros N. pose proof (flr_pos lines N) as H. rewrite flr_spec in H. lia. Qed.

(** the table with its attributes, before the columns are set *)
Lemma attributed lines attrs : rows_nonempty lines -> options_kept attrs ->
  exists t0, newTable lines = Ok t0 /\ let t := fold_left addAttributes attrs t0 in
    good (implicit_header lines) (given_attrs attrs) t /\ t_attrs t = given_attrs attrs /\
    List.concat (displayed t) = source_cells lines /\ regular (first_row lines) (displayed t).
Proof.
  intros N K. destruct (newTable_ok lines N) as (t0 & E & (F1 & F2 & F3) & CC & R). exists t0. split; [exact E|].
  pose proof (newTable_header lines t0 E) as HH. cbv zeta. rewrite adds_displayed.
  destruct (good_adds (implicit_header lines) (given_attrs attrs) attrs [] t0) as [G1 G2].
  - exact F2.
  - unfold good. rewrite F1, F2, HH. cbn [is_some]. repeat split; try discriminate; auto. intros ->. reflexivity.
  - intros name p q Q H. exact (K name p q Q H).
  - auto.
Qed.

(** parsing crashes exactly when the columns cannot be set *)
Lemma sum_asked cs : sum_mult cs = columns_asked cs.
Proof. induction cs as [|c cs IH]; cbn; [reflexivity|]. unfold columns_asked in IH. now rewrite IH. Qed.
Lemma parse_panic lines attrs cs : rows_nonempty lines -> options_kept attrs ->
  ((exists m, parseTable lines attrs (Some cs) = Panic m) <->
   (columns_asked cs = 0 \/ columns_asked cs < 0 /\ (source_cells lines <> [] \/ (0 < special_rows lines attrs)%nat) \/
    0 < columns_asked cs /\ (rows_needed (List.length (source_cells lines)) (Z.to_nat (columns_asked cs)) < special_rows lines attrs)%nat)%Z).
Proof.
  intros N K. destruct (attributed lines attrs N K) as (t0 & E & G & TA & CC & R). unfold parseTable. rewrite E. cbn [bind]. cbv zeta in *.
  set (t1 := fold_left addAttributes attrs t0) in *. unfold applySubstitutionsOnTable. cbn [t_cols].
  unfold setColumnDefinitions. set (t2 := mkTable (t_attrs t1) (Some cs) (t_header t1) (t_rows t1) (t_footer t1)).
  rewrite table_rows_displayed. assert (D2 : displayed t2 = displayed t1) by reflexivity. rewrite D2.
  set (H := implicit_header lines || hasOption (given_attrs attrs) "header"). set (F := hasOption (given_attrs attrs) "footer").
  assert (EH : is_some (t_header t2) || hasOption (t_attrs t2) "header" = H).
  { destruct G as (G1 & G2 & G3 & _). cbn [t2 t_header t_attrs]. rewrite TA. unfold H. destruct (is_some (t_header t1)) eqn:X.
    - now rewrite G1.
    - destruct (implicit_header lines); [now discriminate G2|]. reflexivity. }
  assert (EF : is_some (t_footer t2) || hasOption (t_attrs t2) "footer" = F).
  { destruct G as (G1 & G2 & G3 & _). cbn [t2 t_footer t_attrs]. rewrite TA. unfold F. destruct (is_some (t_footer t1)) eqn:X; [now rewrite G3|reflexivity]. }
  rewrite EH, EF. assert (SR : special_rows lines attrs = (b2n H + b2n F)%nat) by reflexivity. rewrite SR. rewrite sum_asked.
  set (s := columns_asked cs).
  assert (Rest : forall rows, (exists m, (do (hd, rows) <- (if H then match rows with [] => Panic "index out of range [0]" | r :: rs => Ok (Some r, rs) end else Ok (t_header t2, rows));
      do (ft, rows) <- (if F then match rows with [] => Panic "index out of range [-1]" | r :: rs => let (i, z) := split_last r rs in Ok (Some z, i) end else Ok (t_footer t2, rows));
      Ok (mkTable (t_attrs t2) (t_cols t2) hd rows ft)) = Panic m) <-> (List.length rows < b2n H + b2n F)%nat).
  { intros rows. destruct H, F; cbn [b2n bind Nat.add].
    - destruct rows as [|r [|r2 rows]]; cbn [bind List.length]; [split; [lia|eauto]|split; [lia|eauto]|]. destruct (split_last r2 rows). cbn [bind]. split; [intros [m X]; discriminate|lia].
    - destruct rows as [|r rows]; cbn [bind List.length]; split; try lia; eauto; intros [m X]; discriminate.
    - destruct rows as [|r rows]; cbn [bind List.length]; [split; [lia|eauto]|]. destruct (split_last r rows). cbn [bind]. split; [intros [m X]; discriminate|lia].
    - split; [intros [m X]; discriminate|lia]. }
  destruct (Z.lt_trichotomy s 0) as [L|[Z0|P]].
  - unfold organizeTableCells. destruct (Z.eqb_spec s 0); [lia|]. destruct (Z.ltb_spec s 0); [|lia].
    rewrite cells_eq, source_rows, CC. destruct (source_cells lines) as [|x xs] eqn:SC; cbn [bind].
    + rewrite (Rest []). cbn [List.length]. split; [intros Q; right; left; auto|]. intros [Q|[[_ [Q|Q]]|[Q _]]]; try lia. congruence.
    + split; [intros _; right; left; split; [exact L|left; discriminate]|eauto].
  - unfold organizeTableCells. rewrite Z0. cbn [Z.eqb bind]. split; [auto|eauto].
  - destruct (organize_ok (map LRow (displayed t1)) s P) as (rows & O & RC & RR). rewrite O. cbn [bind]. rewrite (Rest rows).
    rewrite (regular_count (Z.to_nat s) rows) by (auto; lia). rewrite RC, source_rows, CC.
    split; [intros Q; right; right; auto|]. intros [Q|[[Q _]|[_ Q]]]; try lia.
Qed.

(** without columns: no body but a header or a footer *)
Lemma no_body lines attrs t : rows_nonempty lines -> options_kept attrs -> parseTable lines attrs None = Ok t ->
  (t_rows t = [] /\ (t_header t <> None \/ t_footer t <> None) <->
   (1 <= rows_needed (List.length (source_cells lines)) (first_row lines) <= special_rows lines attrs)%nat).
Proof.
  intros N K H. destruct (attributed lines attrs N K) as (t0 & E & (G1 & G2 & G3 & G4 & G5) & TA & CC & R). unfold parseTable in H. rewrite E in H. cbn [bind] in H. cbv zeta in *.
  set (t1 := fold_left addAttributes attrs t0) in *. cbn in H. injection H as <-. cbn [t_rows t_header t_footer].
  pose proof (regular_count _ _ (first_row_pos lines N) R) as RC. rewrite CC in RC. rewrite <- RC, displayed_length.
  change (special_rows lines attrs) with (b2n (implicit_header lines || hasOption (given_attrs attrs) "header") + b2n (hasOption (given_attrs attrs) "footer"))%nat.
  rewrite TA in G4, G5.
  destruct (t_header t1) as [h|] eqn:XH, (t_footer t1) as [f|] eqn:XF, (t_rows t1) as [|r rs] eqn:XR; cbn [is_some b2n List.length] in *;
    destruct (implicit_header lines) eqn:XI; try (now discriminate (G2 eq_refl)); cbn [orb] in *;
    destruct (hasOption (given_attrs attrs) "header") eqn:OH, (hasOption (given_attrs attrs) "footer") eqn:OF; cbn [b2n];
    repeat match goal with
    | G : true = true -> false = true |- _ => discriminate (G eq_refl)
    | G : true = true -> ?X \/ ?Y |- _ => destruct (G eq_refl); [try discriminate|try discriminate]; clear G
    end;
    (split; [intros [Q1 Q2]; try discriminate; try lia; destruct Q2; congruence|intros Q; try lia; split; auto; try (left; discriminate); try (right; discriminate)]).
Qed.
End T.
