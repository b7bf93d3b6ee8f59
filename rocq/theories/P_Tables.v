(** C32, C34: tables. *)
From Verif Require Import GoBase GoLemmas Types Attrs Tables TableSpec TableLemmas TableExact.

(** ** C32 *)
(** Cells are grouped in rows of the requested length, and all of them are kept, in order. *)
Theorem C32_organize : forall (A : Type) (lines : list (line A)) n, (0 < n)%Z ->
  exists rows, organizeTableCells lines n = Ok rows /\ List.concat rows = source_cells lines /\ regular (Z.to_nat n) rows.
Proof. intros. now apply organize_ok. Qed.

(** A parsed table, whatever attributes (header, footer) and columns are set on it, displays exactly the cells of the source,
    in order. *)
Theorem C32_cells : forall (A : Type) (lines : list (line A)) attrs cols t,
  rows_nonempty lines -> parseTable lines attrs cols = Ok t -> List.concat (displayed t) = source_cells lines.
Proof. intros A lines attrs cols t N H. now destruct (parse_inv lines attrs cols t N H). Qed.

(** With column definitions, all its rows (header and footer included) have as many cells as there are columns, except the
    last one, which may be shorter. *)
Theorem C32_rows_cols : forall (A : Type) (lines : list (line A)) attrs cs t,
  rows_nonempty lines -> sensible_cols cs -> parseTable lines attrs (Some cs) = Ok t ->
  regular (asked_columns cs) (displayed t) /\ List.length (columns t) = asked_columns cs.
Proof.
  intros A lines attrs cs t N S H. destruct (parse_inv lines attrs (Some cs) t N H) as (_ & TC & [[P R]|[P _]]).
  2: pose proof (sensible_pos cs S); lia.
  assert (E : Z.to_nat (sum_mult cs) = asked_columns cs) by (rewrite sum_eq by apply S; rewrite Nat2Z.id; apply repeat_asked).
  rewrite E in R. split; [exact R|]. unfold columns. rewrite TC. destruct (t_rows t) as [|r rs] eqn:ER; [apply repeat_asked|].
  rewrite app_length, repeat_length, repeat_asked.
  assert (R0 : nth_error (t_rows t) 0 = Some r) by (now rewrite ER). destruct (rows_in_displayed t 0 r R0) as (j & J & _).
  destruct (R j r J) as [X _]. lia.
Qed.
(** Without column definitions, all rows have as many cells as the first row of the source, except the last one, which may be
    shorter.  The number of columns is that of the first row of the body: the same, if it is not the last row. *)
Theorem C32_rows_default : forall (A : Type) (lines : list (line A)) attrs t,
  rows_nonempty lines -> parseTable lines attrs None = Ok t ->
  regular (first_row lines) (displayed t) /\
  List.length (columns t) = (match t_rows t with [] => 0 | r :: _ => List.length r end)%nat /\
  ((2 <= List.length (t_rows t))%nat \/ t_rows t <> [] /\ t_footer t <> None -> List.length (columns t) = first_row lines).
Proof.
  intros A lines attrs t N H. destruct (parse_inv lines attrs None t N H) as (_ & TC & R). split; [exact R|].
  split. { unfold columns. rewrite TC. destruct (t_rows t) as [|r rs]; [reflexivity|]. cbn [app]. rewrite repeat_length. cbn. lia. }
  intros M. unfold columns. rewrite TC. destruct (t_rows t) as [|r rs] eqn:ER.
  { destruct M as [M|[M _]]; [cbn in M; lia|congruence]. }
  cbn [List.length app]. rewrite repeat_length, Nat.sub_0_r.
  assert (R0 : nth_error (t_rows t) 0 = Some r) by (now rewrite ER). destruct (rows_in_displayed t 0 r R0) as (j & J & EJ).
  destruct (R j r J) as [_ X]. apply X. rewrite EJ. unfold displayed. rewrite !app_length, ER.
  destruct (t_header t), (t_footer t), M as [M|[_ M]]; cbn [List.length] in *; lia || congruence.
Qed.
(** Otherwise it is not: with a single, short row in the body, the table gets fewer columns than its header has cells. *)
Theorem C32_columns_refuted : exists (lines : list (line string)) t h, rows_nonempty lines /\ parseTable lines [] None = Ok t /\
  t_header t = Some h /\ (List.length (columns t) < List.length h)%nat.
Proof.
  exists [LRow ["a"; "b"; "c"]; LBlank; LRow ["1"; "2"]]. eexists. eexists. split.
  - intros c [E|[E|[E|[]]]]; try discriminate; injection E as <-; discriminate.
  - split; [vm_compute; reflexivity|]. split; [vm_compute; reflexivity|]. vm_compute. lia.
Qed.
Theorem C32_case : exists t, parseTable [LRow ["a"; "b"; "c"]; LRow ["d"]; LBlank; LRow ["e"; "f"]]
    [[("options", VOptions [VStr "header"; VStr "footer"])]] (Some [newTableColumn (Some 2%Z) None None]) = Ok t /\
  t_header t = Some ["a"; "b"] /\ t_rows t = [["c"; "d"]] /\ t_footer t = Some ["e"; "f"] /\
  sensible_cols [newTableColumn (Some 2%Z) None None] /\ List.length (columns t) = 2%nat.
Proof.
  eexists. split; [vm_compute; reflexivity|]. repeat split; repeat constructor; cbn; lia.
Qed.

(** ** C34 *)
Section Render.
Context {A : Type}.
Variable header_cell footer_cell body_cell : A -> column -> result string.
Variable header_tmpl footer_tmpl row_tmpl body_tmpl : string -> result string.
Variable table_tmpl : list column -> string -> string -> string -> result string.
Let render := renderTable header_cell footer_cell body_cell header_tmpl footer_tmpl row_tmpl body_tmpl table_tmpl.
(** the rendering of the content of single cells, and the templates, do not crash *)
Definition parts_fine : Prop :=
  (forall a c, no_panic (header_cell a c)) /\ (forall a c, no_panic (footer_cell a c)) /\ (forall a c, no_panic (body_cell a c)) /\
  (forall s, no_panic (header_tmpl s)) /\ (forall s, no_panic (footer_tmpl s)) /\ (forall s, no_panic (row_tmpl s)) /\
  (forall s, no_panic (body_tmpl s)) /\ (forall c h b f, no_panic (table_tmpl c h b f)).

Lemma np_bind {X Y} (r : result X) (f : X -> result Y) : no_panic r -> (forall x, r = Ok x -> no_panic (f x)) -> no_panic (bind r f).
Proof. intros H1 H2. destruct r as [x|m|m]; cbn; [now apply H2|discriminate|intros m' E; exact (H1 m eq_refl)]. Qed.
Lemma np_ok {X} (x : X) : no_panic (Ok x). Proof. discriminate. Qed.

Lemma cells_mod_np (f : A -> column -> result string) cols cells : (forall a c, no_panic (f a c)) -> (cells = [] \/ cols <> []) -> forall k, no_panic (cells_mod f cols k cells).
Proof.
  intros F. induction cells as [|c cells IH]; intros H k; cbn [cells_mod]; [apply np_ok|].
  destruct H as [H|H]; [discriminate|]. destruct cols as [|c0 cols]; [congruence|].
  apply np_bind; [apply F|]. intros s _. apply np_bind; [now apply IH; right|]. intros; apply np_ok.
Qed.
Lemma cells_at_np cols cells : (forall a c, no_panic (body_cell a c)) -> forall i, (i + List.length cells <= List.length cols)%nat ->
  no_panic (cells_at body_cell cols i cells).
Proof.
  intros F. induction cells as [|c cells IH]; intros i H; cbn [cells_at]; [apply np_ok|]. cbn in H.
  destruct (nth_error cols i) as [col|] eqn:E; [|apply nth_error_None in E; lia].
  apply np_bind; [apply F|]. intros s _. apply np_bind; [apply IH; lia|]. intros; apply np_ok.
Qed.

Lemma rows_fit (lines : list (line A)) attrs cols t r : rows_nonempty lines -> parseTable lines attrs cols = Ok t ->
  In r (t_rows t) -> (List.length r <= List.length (columns t))%nat.
Proof.
  intros N H I. destruct (parse_inv lines attrs cols t N H) as (_ & TC & R). unfold columns. rewrite TC.
  apply In_nth_error in I. destruct I as [i I]. destruct (rows_in_displayed t i r I) as (j & J & EJ).
  assert (JL : (j < List.length (displayed t))%nat) by (apply nth_error_Some; congruence).
  destruct (t_rows t) as [|r0 rs] eqn:ER; [destruct i; discriminate|].
  rewrite app_length, repeat_length. destruct cols as [cs|].
  - destruct R as [[P R]|[_ R]]; [|rewrite R in J; destruct j; discriminate].
    destruct (R j r J) as [X _]. pose proof (sum_le cs). lia.
  - assert (R0 : nth_error (t_rows t) 0 = Some r0) by (now rewrite ER). destruct (rows_in_displayed t 0 r0 R0) as (j0 & J0 & EJ0).
    destruct (R j r J) as [X _]. destruct (R j0 r0 J0) as [_ X0]. cbn [List.length]. destruct i as [|i].
    + assert (r = r0) by (cbn in I; congruence). subst. lia.
    + rewrite X0 by lia. lia.
Qed.
Lemma rows_loop_np rows cols : parts_fine -> (forall r, In r rows -> (List.length r <= List.length cols)%nat) ->
  no_panic (rows_loop body_cell row_tmpl cols rows).
Proof.
  intros PF. induction rows as [|r rows IH]; intros H; cbn [rows_loop]; [apply np_ok|].
  apply np_bind.
  - unfold renderTableRow. apply np_bind; [apply cells_at_np; [apply PF|]; apply (H r); now left|]. intros s _. apply PF.
  - intros s _. apply np_bind; [apply IH; intros; apply H; now right|]. intros; apply np_ok.
Qed.

(** When parsing gives a table, rendering it crashes exactly when the table has no column definitions and no body, but a header
    or a footer: then it has no column at all. *)
Theorem C34_render_exact : forall (lines : list (line A)) attrs cols t, parts_fine -> rows_nonempty lines ->
  parseTable lines attrs cols = Ok t ->
  ((exists m, render t = Panic m) <-> cols = None /\ t_rows t = [] /\ (t_header t <> None \/ t_footer t <> None)).
Proof.
  intros lines attrs cols t PF N H. destruct (parse_inv lines attrs cols t N H) as (_ & TC & R).
  assert (HN : forall h, t_header t = Some h -> h <> []).
  { intros h E. assert (D : nth_error (displayed t) 0 = Some h) by (unfold displayed; now rewrite E).
    destruct cols as [cs|]; [destruct R as [[_ R]|[_ R]]; [|rewrite R in D; discriminate]|]; destruct (R 0%nat h D) as [X _]; destruct h; cbn in X; [lia|discriminate|lia|discriminate]. }
  assert (FN : forall h, t_footer t = Some h -> h <> []).
  { intros h E. assert (D : exists j, nth_error (displayed t) j = Some h).
    { apply In_nth_error. unfold displayed. rewrite E, !in_app_iff. right; right; now left. }
    destruct D as [j D]. destruct cols as [cs|]; [destruct R as [[_ R]|[_ R]]; [|rewrite R in D; destruct j; discriminate]|]; destruct (R j h D) as [X _]; destruct h; cbn in X; [lia|discriminate|lia|discriminate]. }
  split.
  - intros [m P].
    destruct (list_eq_dec (fun x y : unit => left (match x, y with tt, tt => eq_refl end)) (map (fun _ => tt) (columns t)) []) as [E|E].
    + apply map_eq_nil in E. unfold columns in E. rewrite TC in E.
      assert (RN : t_rows t = []).
      { destruct (t_rows t) as [|r rs] eqn:ER; [reflexivity|]. exfalso.
        assert (L : (List.length r <= List.length (columns t))%nat) by (eapply rows_fit; eauto; rewrite ER; now left).
        unfold columns in L. rewrite TC, ER, E in L. cbn in L.
        assert (R0 : nth_error (t_rows t) 0 = Some r) by (now rewrite ER). destruct (rows_in_displayed t 0 r R0) as (j & J & _).
        destruct cols as [cs|]; [destruct R as [[_ R]|[_ R]]; [|rewrite R in J; destruct j; discriminate]|]; destruct (R j r J) as [X _]; lia. }
      assert (HF : t_header t <> None \/ t_footer t <> None).
      { destruct (t_header t) as [h|] eqn:EH; [left; discriminate|]. destruct (t_footer t) as [f|] eqn:EF; [right; discriminate|].
        exfalso. revert P. unfold render, renderTable. rewrite EH, EF, RN. cbn [renderTableHeader renderTableFooter bind].
        apply np_bind; [apply np_bind; [apply np_ok|intros s _; apply PF]|intros s _; apply PF]. }
      split; [|split; [exact RN|exact HF]]. destruct cols as [cs|]; [|reflexivity]. exfalso. rewrite RN in E.
      destruct R as [[P0 R]|[_ R]].
      * pose proof (sum_le cs). rewrite E in H0. cbn in H0. lia.
      * unfold displayed in R. destruct (t_header t), (t_footer t); destruct HF as [HF|HF]; try congruence; try discriminate; destruct (t_rows t); discriminate.
    + exfalso. revert P. assert (CN : columns t <> []) by (intros C; rewrite C in E; now apply E).
      unfold render, renderTable. apply np_bind.
      { unfold renderTableHeader. destruct (t_header t); [|apply np_ok]. apply np_bind; [apply cells_mod_np; [apply PF|now right]|intros s _; apply PF]. }
      intros hd _. apply np_bind.
      { unfold renderTableFooter. destruct (t_footer t); [|apply np_ok]. apply np_bind; [apply cells_mod_np; [apply PF|now right]|intros s _; apply PF]. }
      intros ft _. apply np_bind; [|intros s _; apply PF].
      apply np_bind; [|intros s _; apply PF]. apply rows_loop_np; [exact PF|]. intros r I. eapply rows_fit; eauto.
  - intros (-> & RN & HF). unfold render, renderTable, columns. rewrite TC, RN. cbn [bind].
    destruct (t_header t) as [h|] eqn:EH.
    + pose proof (HN h eq_refl). destruct h; [congruence|]. cbn. eauto.
    + cbn [renderTableHeader bind]. destruct HF as [HF|HF]; [congruence|]. destruct (t_footer t) as [f|] eqn:EF; [|congruence].
      pose proof (FN f eq_refl). destruct f; [congruence|]. cbn. eauto.
Qed.

Lemma regular_two n (rows : list (list A)) : regular n rows -> (n < List.length (List.concat rows))%nat -> exists r1 r2 rs, rows = r1 :: r2 :: rs.
Proof.
  intros R L. destruct rows as [|r1 [|r2 rs]]; cbn in L; [lia| |eauto].
  destruct (R 0%nat r1 eq_refl) as [X _]. rewrite app_nil_r in L. lia.
Qed.
Lemma regular_three n (rows : list (list A)) : regular n rows -> (2 * n < List.length (List.concat rows))%nat -> exists r1 r2 r3 rs, rows = r1 :: r2 :: r3 :: rs.
Proof.
  intros R L. destruct rows as [|r1 [|r2 [|r3 rs]]]; cbn in L; rewrite ?app_nil_r, ?app_length in L; [lia|..|eauto].
  - destruct (R 0%nat r1 eq_refl) as [X _]. lia.
  - destruct (R 0%nat r1 eq_refl) as [X _]. destruct (R 1%nat r2 eq_refl) as [Y _]. lia.
Qed.

(** The whole way from the source to the output crashes exactly
    - without column definitions: when there are rows, but no more than are asked to be header and footer;
    - with column definitions: when they ask for no column, or fewer than none and there is a cell, a header or a footer, or when
      there are fewer rows than are asked to be header and footer. *)
Theorem C34_crashes_exactly : forall (lines : list (line A)) attrs cols, parts_fine -> rows_nonempty lines -> options_kept attrs ->
  let cells := List.length (source_cells lines) in
  ((exists m, (do t <- parseTable lines attrs cols; render t) = Panic m) <->
   match cols with
   | None => (1 <= rows_needed cells (first_row lines) <= special_rows lines attrs)%nat
   | Some cs =>
       columns_asked cs = 0%Z \/
       (columns_asked cs < 0)%Z /\ (0 < cells \/ 0 < special_rows lines attrs)%nat \/
       (0 < columns_asked cs)%Z /\ (rows_needed cells (Z.to_nat (columns_asked cs)) < special_rows lines attrs)%nat
   end).
Proof.
  intros lines attrs cols PF N K cells. subst cells.
  assert (B : (source_cells lines <> [] \/ (0 < special_rows lines attrs)%nat <-> (0 < List.length (source_cells lines) \/ 0 < special_rows lines attrs)%nat)).
  { destruct (source_cells lines); cbn [List.length]; split; intros [X|X]; auto; try congruence; try lia; left; (lia || discriminate). }
  destruct cols as [cs|].
  - rewrite <- B, <- (parse_panic lines attrs cs N K). split.
    + intros [m P]. destruct (parseTable lines attrs (Some cs)) as [t| |m'] eqn:E; cbn [bind] in P; [|discriminate|eauto].
      destruct (C34_render_exact lines attrs (Some cs) t PF N E) as [X _]. destruct X as (X & _); [eauto|discriminate].
    + intros [m P]. rewrite P. cbn. eauto.
  - destruct (parseTable lines attrs None) as [t| |m'] eqn:E.
    + cbn [bind]. rewrite (C34_render_exact lines attrs None t PF N E), <- (no_body lines attrs t N K E). tauto.
    + exfalso. destruct (attributed lines attrs N K) as (t0 & E0 & _). unfold parseTable in E. rewrite E0 in E. discriminate.
    + exfalso. destruct (attributed lines attrs N K) as (t0 & E0 & _). unfold parseTable in E. rewrite E0 in E. discriminate.
Qed.

(** No table crashes that has enough cells: more than one row with column definitions, more than two rows without. *)
Theorem C34_enough_cells : forall (lines : list (line A)) attrs cols, parts_fine -> rows_nonempty lines ->
  match cols with
  | Some cs => sensible_cols cs /\ (asked_columns cs < List.length (source_cells lines))%nat
  | None => (2 * first_row lines < List.length (source_cells lines))%nat
  end -> no_panic (do t <- parseTable lines attrs cols; render t).
Proof.
  intros lines attrs cols PF N C. apply np_bind.
  - unfold parseTable. destruct (newTable_ok lines N) as (t0 & E & F & CC & R). rewrite E. cbn [bind].
    pose proof (adds_displayed attrs t0) as AD. set (t1 := fold_left addAttributes attrs t0) in *.
    unfold applySubstitutionsOnTable. cbn [t_cols]. destruct cols as [cs|]; [|apply np_ok]. destruct C as [S C].
    unfold setColumnDefinitions. set (t2 := mkTable (t_attrs t1) (Some cs) (t_header t1) (t_rows t1) (t_footer t1)).
    rewrite table_rows_displayed. assert (D2 : displayed t2 = displayed t0) by exact AD. rewrite D2.
    destruct (organize_ok (map LRow (displayed t0)) (sum_mult cs) (sensible_pos cs S)) as (rows & O & RC & RR). rewrite O. cbn [bind].
    rewrite source_rows, CC in RC. rewrite sum_eq, Nat2Z.id, repeat_asked in RR by apply S.
    destruct (regular_two _ _ RR) as (r1 & r2 & rs & ->); [now rewrite RC|].
    destruct (is_some (t_header t2) || hasOption (t_attrs t2) "header")%bool; cbn [bind];
      destruct (is_some (t_footer t2) || hasOption (t_attrs t2) "footer")%bool; cbn [bind]; try apply np_ok;
      match goal with |- context [split_last ?x ?y] => destruct (split_last x y) end; apply np_ok.
  - intros t H m P. destruct (C34_render_exact lines attrs cols t PF N H) as [X _]. destruct X as (-> & RN & HF); [eauto|].
    destruct (parse_inv lines attrs None t N H) as (CC & _ & R). rewrite <- CC in C.
    destruct (regular_three _ _ R C) as (r1 & r2 & r3 & rs & D). unfold displayed in D. rewrite RN in D.
    destruct (t_header t), (t_footer t); discriminate.
Qed.
End Render.

(** Tables that crash: a header without a body, column definitions that ask for no column, and header and footer in one row. *)
Theorem C34_header_only_refuted : exists (lines : list (line string)) t m, rows_nonempty lines /\ parseTable lines [] None = Ok t /\
  renderTable (fun a _ => Ok a) (fun a _ => Ok a) (fun a _ => Ok a) Ok Ok Ok Ok (fun _ _ _ _ => Ok "") t = Panic m.
Proof.
  exists [LRow ["a"]; LBlank; LBlank]. eexists. eexists. split.
  - intros c [E|[E|[E|[]]]]; try discriminate; injection E as <-; discriminate.
  - split; [reflexivity|]. vm_compute. reflexivity.
Qed.
Theorem C34_zero_columns_refuted : exists (lines : list (line string)) cols m, rows_nonempty lines /\ parseTable lines [] (Some cols) = Panic m.
Proof.
  exists [LRow ["a"]], [newTableColumn (Some 0%Z) None None]. eexists. split; [|vm_compute; reflexivity].
  intros c [E|[]]; injection E as <-; discriminate.
Qed.
Theorem C34_header_footer_refuted : exists (lines : list (line string)) attrs cols m, rows_nonempty lines /\ sensible_cols cols /\
  parseTable lines attrs (Some cols) = Panic m.
Proof.
  exists [LRow ["a"]], [[("options", VOptions [VStr "header"; VStr "footer"])]], [newTableColumn None None None]. eexists.
  split; [|split; [|vm_compute; reflexivity]].
  - intros c [E|[]]; injection E as <-; discriminate.
  - split; repeat constructor; cbn; lia.
Qed.
(** options that come in one group of attributes are kept *)
Lemma options_kept_one a : options_kept [a].
Proof. intros name [|x [|y pre]] post E H; cbn in E; try discriminate. injection E as <- <-. exact H. Qed.
Theorem C34_exact_case :
  let lines := [LRow ["a"; "b"]; LRow ["c"]] in let attrs := [[("options", VOptions [VStr "header"; VStr "footer"])]] in
  options_kept attrs /\ rows_nonempty lines /\ rows_needed (List.length (source_cells lines)) (first_row lines) = 2%nat /\ special_rows lines attrs = 2%nat.
Proof.
  split; [apply options_kept_one|]. split; [|split; reflexivity]. intros c [E|[E|[]]]; injection E as <-; discriminate.
Qed.
Theorem C34_case : parts_fine (fun (a : string) _ => Ok a) (fun a _ => Ok a) (fun a _ => Ok a) Ok Ok Ok Ok (fun _ h b f => Ok (h ++ b ++ f)%string) /\
  (do t <- parseTable [LRow ["a"; "b"]; LBlank; LRow ["c"; "d"]] [] None;
   renderTable (fun (a : string) _ => Ok a) (fun a _ => Ok a) (fun a _ => Ok a) Ok Ok Ok Ok (fun _ h b f => Ok (h ++ b ++ f)%string) t) = Ok "abcd".
Proof. split; [|vm_compute; reflexivity]. repeat split; discriminate. Qed.

Print Assumptions C32_organize.
Print Assumptions C32_cells.
Print Assumptions C32_rows_cols.
Print Assumptions C32_rows_default.
Print Assumptions C32_columns_refuted.
Print Assumptions C34_render_exact.
Print Assumptions C34_crashes_exactly.
Print Assumptions C34_enough_cells.
Print Assumptions C34_header_only_refuted.
Print Assumptions C34_zero_columns_refuted.
Print Assumptions C34_header_footer_refuted.
