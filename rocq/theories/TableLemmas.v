(** Lemmas on the table model. *)
From Verif Require Import GoBase GoLemmas Types Attrs Tables TableSpec.

Section L.
Context {A : Type}.
Implicit Types (cells : list A) (rows : list (list A)) (lines : list (line A)) (t : table A).

Lemma regular_nil n : regular n ([] : list (list A)).
Proof. intros i row H. destruct i; discriminate. Qed.
Lemma regular_cons n r rows : List.length r = n -> (1 <= n)%nat -> regular n rows -> regular n (r :: rows).
Proof.
  intros L N R i row H. destruct i as [|i]; cbn in H.
  - injection H as <-. lia.
  - destruct (R i row H) as [X Y]. split; [exact X|]. cbn. intros Q. apply Y. lia.
Qed.
Lemma regular_one n (r : list A) : (1 <= List.length r <= n)%nat -> regular n [r].
Proof. intros L i row H. destruct i as [|i]; cbn in H; [injection H as <-; cbn; lia|]. destruct i; discriminate. Qed.

Lemma group_concat l : (1 <= l)%nat -> forall f cells, (List.length cells <= f)%nat -> List.concat (group f l cells) = cells.
Proof.
  intros L. induction f as [|f IH]; intros cells H; cbn [group].
  - destruct cells; [reflexivity|cbn in H; lia].
  - destruct cells as [|c cells]; [reflexivity|]. cbn [List.concat]. rewrite IH; [apply firstn_skipn|]. rewrite skipn_length. cbn [List.length] in *. lia.
Qed.
Lemma group_regular l : (1 <= l)%nat -> forall f cells, (List.length cells <= f)%nat -> regular l (group f l cells).
Proof.
  intros L. induction f as [|f IH]; intros cells H; cbn [group]; [apply regular_nil|].
  destruct cells as [|c cells]; [apply regular_nil|].
  assert (H' : (List.length (skipn l (c :: cells)) <= f)%nat) by (rewrite skipn_length; cbn [List.length] in *; lia).
  destruct (Nat.leb_spec l (List.length (c :: cells))) as [LE|GT].
  - apply regular_cons; [rewrite firstn_length; lia|exact L|]. now apply IH.
  - assert (E : skipn l (c :: cells) = []) by (apply skipn_all2; lia). rewrite E.
    replace (group f l []) with ([] : list (list A)) by (destruct f; reflexivity).
    apply regular_one. rewrite firstn_length. cbn [List.length] in *. lia.
Qed.

Lemma cells_eq lines : flat_map line_cells lines = source_cells lines.
Proof. reflexivity. Qed.
Lemma organize_ok lines n : (0 < n)%Z ->
  exists rows, organizeTableCells lines n = Ok rows /\ List.concat rows = source_cells lines /\ regular (Z.to_nat n) rows.
Proof.
  intros N. unfold organizeTableCells. destruct (Z.eqb_spec n 0) as [E|_]; [lia|]. destruct (Z.ltb_spec n 0) as [E|_]; [lia|].
  eexists. split; [reflexivity|]. rewrite <- cells_eq. split; [apply group_concat; lia|apply group_regular; lia].
Qed.
Lemma organize_inv lines n rows : organizeTableCells lines n = Ok rows ->
  List.concat rows = source_cells lines /\ ((0 < n)%Z /\ regular (Z.to_nat n) rows \/ (n < 0)%Z /\ rows = [] /\ source_cells lines = []).
Proof.
  intros H. destruct (Z.ltb_spec 0 n) as [P|P].
  - destruct (organize_ok lines n P) as (rows' & E & C & R). rewrite H in E. injection E as ->. auto.
  - unfold organizeTableCells in H. destruct (Z.eqb_spec n 0); [discriminate|]. destruct (Z.ltb_spec n 0); [|lia].
    rewrite cells_eq in H. destruct (source_cells lines); [injection H as <-|discriminate]. split; [reflexivity|]. right. auto.
Qed.

Lemma flr_pos lines : rows_nonempty lines -> (0 < first_row_length lines)%Z.
Proof.
  induction lines as [|[|c] lines IH]; intros N; cbn; [lia|..].
  - apply IH. intros c H. apply N. now right.
  - assert (c <> []) by (apply N; now left). destruct c; [congruence|cbn; lia].
Qed.
Lemma flr_spec lines : first_row_length lines = Z.of_nat (first_row lines).
Proof. unfold first_row. induction lines as [|[|c] lines IH]; cbn; auto. Qed.

Definition fresh t := t_footer t = None /\ t_attrs t = [] /\ t_cols t = None.
Lemma newTable_ok lines : rows_nonempty lines ->
  exists t, newTable lines = Ok t /\ fresh t /\ List.concat (displayed t) = source_cells lines /\ regular (first_row lines) (displayed t).
Proof.
  intros N. destruct lines as [|l0 lines0].
  { eexists. split; [reflexivity|]. split; [now repeat split|]. split; [reflexivity|apply regular_nil]. }
  unfold newTable. remember (l0 :: lines0) as lines eqn:EL.
  assert (D : (exists h l2 r, lines = LRow h :: LBlank :: l2 :: r) \/
              scanTableElements lines = bind (organizeTableCells lines (first_row_length lines)) (fun body => Ok (None, body))).
  { destruct lines as [|[|h] [|[|c2] [|l2 r]]]; try (right; reflexivity). left; eauto. }
  destruct D as [(h & l2 & r & E)|D].
  - rewrite E in *. clear EL. cbn [scanTableElements skipn].
    assert (H1 : h <> []) by (apply N; now left).
    destruct (organize_ok (l2 :: r) (Z.of_nat (List.length h))) as (rows & O & C & R). { destruct h; [congruence|cbn; lia]. }
    rewrite O. cbn [bind]. eexists. split; [reflexivity|]. split; [now repeat split|]. unfold displayed. cbn [t_header t_rows t_footer]. rewrite app_nil_r. cbn [app List.concat].
    split; [rewrite C; reflexivity|]. unfold first_row. cbn [flat_map app]. rewrite Nat2Z.id in R. apply regular_cons; auto. destruct h; [congruence|cbn; lia].
  - rewrite D. destruct (organize_ok lines (first_row_length lines)) as (rows & O & C & R); [now apply flr_pos|].
    rewrite O. cbn [bind]. rewrite EL. eexists. split; [reflexivity|]. split; [now repeat split|]. unfold displayed. cbn [t_header t_rows t_footer app]. rewrite app_nil_r, <- EL.
    split; [exact C|]. rewrite flr_spec, Nat2Z.id in R. exact R.
Qed.

Lemma split_last_app {B} (x : B) l : forall i z, split_last x l = (i, z) -> i ++ [z] = x :: l.
Proof.
  revert x. induction l as [|y l IH]; intros x i z H; cbn in H; [injection H as <- <-; reflexivity|].
  destruct (split_last y l) as [i' z'] eqn:E. injection H as <- <-. cbn. f_equal. now apply IH.
Qed.
Lemma take_header_displayed t : displayed (take_header t) = displayed t.
Proof. unfold take_header, displayed. destruct t as [a c [h|] [|r rs] f]; cbn; auto. destruct (hasOption a "header"); reflexivity. Qed.
Lemma take_footer_displayed t : displayed (take_footer t) = displayed t.
Proof.
  unfold take_footer, displayed. destruct t as [a c h [|r rs] [f|]]; cbn [t_footer t_rows t_attrs t_header t_cols]; auto.
  destruct (hasOption a "footer"); [|reflexivity]. destruct (split_last r rs) as [i z] eqn:E. cbn [t_footer t_rows t_header].
  apply split_last_app in E. rewrite E. now rewrite app_nil_r.
Qed.
Lemma add_displayed t a : displayed (addAttributes t a) = displayed t.
Proof. unfold addAttributes, reorganizeRows. rewrite take_footer_displayed, take_header_displayed. reflexivity. Qed.
Lemma adds_displayed l : forall t, displayed (fold_left addAttributes l t) = displayed t.
Proof. induction l as [|a l IH]; intros t; cbn; [reflexivity|]. rewrite IH. apply add_displayed. Qed.

Lemma table_rows_displayed t : table_rows t = displayed t.
Proof. reflexivity. Qed.
Lemma source_rows rows : source_cells (map LRow rows) = List.concat rows.
Proof. induction rows as [|r rows IH]; cbn; [reflexivity|]. unfold source_cells in IH. now rewrite IH. Qed.

Lemma set_inv t cols t' : setColumnDefinitions t cols = Ok t' ->
  organizeTableCells (map LRow (displayed t)) (sum_mult cols) = Ok (displayed t') /\ t_cols t' = t_cols t.
Proof.
  unfold setColumnDefinitions. rewrite table_rows_displayed.
  destruct (organizeTableCells (map LRow (displayed t)) (sum_mult cols)) as [rows| |] eqn:O; cbn [bind]; try discriminate.
  assert (X : forall hd rows1 t0 ft0, (t_footer t0 = ft0) ->
    (do (ft, rows2) <- (if (is_some ft0 || hasOption (t_attrs t0) "footer")%bool then
                       match rows1 with [] => Panic "index out of range [-1]"
                       | r :: rs => let (i, z) := split_last r rs in Ok (Some z, i) end
                     else Ok (ft0, rows1)); Ok (mkTable (t_attrs t0) (t_cols t0) hd rows2 ft)) = Ok t' ->
    displayed t' = (match hd with Some h => [h] | None => [] end) ++ rows1 /\ t_cols t' = t_cols t0).
  { intros hd rows1 t0 ft0 F. destruct (is_some ft0 || hasOption (t_attrs t0) "footer")%bool eqn:B.
    - destruct rows1 as [|r rs]; cbn [bind]; [discriminate|]. destruct (split_last r rs) as [i z] eqn:E. cbn [bind]. intros [= <-].
      split; [|reflexivity]. unfold displayed. cbn [t_header t_rows t_footer]. apply split_last_app in E. now rewrite E.
    - apply orb_false_iff in B. destruct B as [B _]. destruct ft0; [discriminate|]. cbn [bind]. intros [= <-].
      split; [|reflexivity]. unfold displayed. cbn [t_header t_rows t_footer]. now rewrite app_nil_r. }
  destruct (is_some (t_header t) || hasOption (t_attrs t) "header")%bool eqn:B.
  - destruct rows as [|r rs]; cbn [bind]; [discriminate|]. intros H. apply X in H; [|reflexivity]. destruct H as [-> ->]. split; reflexivity.
  - apply orb_false_iff in B. destruct B as [B _]. destruct (t_header t) eqn:Hh; [discriminate|]. cbn [bind]. intros H. apply X in H; [|reflexivity]. destruct H as [-> ->]. split; reflexivity.
Qed.

Lemma sum_le cols : (sum_mult cols <= Z.of_nat (List.length (repeat_col cols)))%Z.
Proof. induction cols as [|c cols IH]; cbn; [lia|]. rewrite app_length, repeat_length. lia. Qed.
Lemma sum_eq cols : Forall (fun c => 0 <= c_mult c)%Z cols -> sum_mult cols = Z.of_nat (List.length (repeat_col cols)).
Proof. induction 1 as [|c cols H _ IH]; cbn; [reflexivity|]. rewrite app_length, repeat_length. lia. Qed.
Lemma repeat_asked cols : List.length (repeat_col cols) = asked_columns cols.
Proof. reflexivity. Qed.
Lemma sensible_pos cols : sensible_cols cols -> (0 < sum_mult cols)%Z.
Proof.
  intros [F E]. induction E as [c cols H|c cols H IH]; inversion F; subst; cbn.
  - assert (0 <= sum_mult cols)%Z by (rewrite sum_eq by assumption; lia). lia.
  - specialize (IH H3). lia.
Qed.

(** everything about parsing at once *)
Lemma parse_inv lines attrs cols t : rows_nonempty lines -> parseTable lines attrs cols = Ok t ->
  List.concat (displayed t) = source_cells lines /\ t_cols t = cols /\
  match cols with
  | None => regular (first_row lines) (displayed t)
  | Some cs => (0 < sum_mult cs)%Z /\ regular (Z.to_nat (sum_mult cs)) (displayed t) \/
               (sum_mult cs < 0)%Z /\ displayed t = []
  end.
Proof.
  intros N. unfold parseTable. destruct (newTable_ok lines N) as (t0 & E & F & C & R). rewrite E. cbn [bind].
  pose proof (adds_displayed attrs t0) as AD. set (t1 := fold_left addAttributes attrs t0) in *.
  unfold applySubstitutionsOnTable. cbn [t_cols]. destruct cols as [cs|].
  - intros H. apply set_inv in H. destruct H as [H HC]. cbn [t_cols] in HC.
    assert (DD : displayed (mkTable (t_attrs t1) (Some cs) (t_header t1) (t_rows t1) (t_footer t1)) = displayed t0) by exact AD.
    rewrite DD in H. apply organize_inv in H. destruct H as [HC1 H]. rewrite source_rows, C in HC1. split; [exact HC1|split; [exact HC|]].
    destruct H as [[H1 H2]|(H1 & H2 & _)]; auto.
  - intros [= <-]. assert (DD : displayed (mkTable (t_attrs t1) None (t_header t1) (t_rows t1) (t_footer t1)) = displayed t0) by exact AD.
    rewrite DD. split; [exact C|split; [reflexivity|exact R]].
Qed.
Lemma rows_in_displayed t i r : nth_error (t_rows t) i = Some r -> exists j, nth_error (displayed t) j = Some r /\
  (j = i + List.length (match t_header t with Some h => [h] | None => [] end))%nat.
Proof.
  intros H. unfold displayed. set (h := match t_header t with Some h => [h] | None => [] end). exists (i + List.length h)%nat. split; [|reflexivity].
  rewrite nth_error_app2 by lia. replace (i + List.length h - List.length h)%nat with i by lia.
  rewrite nth_error_app1; [exact H|]. apply nth_error_Some. congruence.
Qed.
End L.
