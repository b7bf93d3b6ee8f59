(** Proofs about the insertion of the preamble and the position of the document header. *)
From Verif Require Import GoBase GoLemmas Types Attrs Utf8 Ids Toc Context Aggregate SecSpec.

Lemma hasContent_substantial p : hasContent p = existsb substantial p.
Proof.
  unfold hasContent. induction p as [|x p IH]; [reflexivity|]. cbn [existsb]. rewrite IH.
  destruct x; reflexivity.
Qed.

Lemma preambleElements_spec pre l a t e rest :
  forallb before_section pre = true ->
  preambleElements (pre ++ Section l a t e :: rest) = Some pre.
Proof.
  induction pre as [|x pre IH]; intros H; [reflexivity|]. cbn in H. apply andb_true_iff in H.
  destruct H as [H1 H2]. specialize (IH H2).
  destruct x; cbn [app preambleElements]; try discriminate; rewrite IH; reflexivity.
Qed.

Definition no_sections (els : list val) : Prop := Forall (fun e => is_section e = false) els.

Lemma preambleElements_none els : no_sections els -> preambleElements els = None.
Proof.
  induction 1 as [|x els Hx _ IH]; [reflexivity|].
  destruct x; cbn in *; try discriminate; rewrite ?IH; reflexivity.
Qed.

Lemma insertPreamble_no_section els : no_sections els -> insertPreamble els = Ok els.
Proof.
  intros H. unfold insertPreamble, newPreamble.
  destruct (docHeader els) as [[h i]|]; [|reflexivity].
  destruct h; try reflexivity. destruct title; [|reflexivity].
  now rewrite preambleElements_none.
Qed.

Lemma insertPreamble_no_header els :
  (forall t a h i, docHeader els <> Some (DocumentHeader (Some t) a h, i)) ->
  insertPreamble els = Ok els.
Proof.
  intros H. unfold insertPreamble, newPreamble.
  destruct (docHeader els) as [[h i]|]; [|reflexivity].
  destruct h; try reflexivity. destruct title; [|reflexivity]. exfalso. eapply H; reflexivity.
Qed.

Lemma copy_fill {A} (front : list A) (d : A) src n :
  n = List.length src ->
  copy_at (front ++ repeat d n) (List.length front) src = Some (front ++ src).
Proof.
  intros ->. unfold copy_at. rewrite app_length, repeat_length.
  destruct (Nat.ltb_spec (List.length front + List.length src) (List.length front)); [lia|].
  replace (Nat.min _ _) with (List.length src) by lia. f_equal.
  rewrite firstn_app, Nat.sub_diag, firstn_all, firstn_O, app_nil_r. f_equal.
  rewrite firstn_all. rewrite skipn_all2, app_nil_r; [reflexivity|].
  rewrite app_length, repeat_length. lia.
Qed.

Lemma insertPreamble_spec front t a h pre l sa st se rest :
  front_matter_only front ->
  forallb before_section pre = true ->
  insertPreamble (front ++ DocumentHeader (Some t) a h :: pre ++ Section l sa st se :: rest) =
  Ok (if existsb substantial pre
      then front ++ DocumentHeader (Some t) a h :: Preamble pre :: Section l sa st se :: rest
      else front ++ DocumentHeader (Some t) a h :: pre ++ Section l sa st se :: rest).
Proof.
  intros F B. unfold insertPreamble.
  set (els := front ++ _).
  assert (DH : docHeader els = Some (DocumentHeader (Some t) a h, List.length front)).
  { unfold els. destruct F as [->|[fa ->]]; reflexivity. }
  assert (NP : newPreamble els = Some pre).
  { unfold newPreamble. rewrite DH. unfold els.
    destruct F as [->|[fa ->]]; cbn [app preambleElements];
      now apply preambleElements_spec. }
  rewrite NP, hasContent_substantial. destruct (existsb substantial pre) eqn:SUB; [|reflexivity].
  cbn [negb].
  assert (LEN : List.length els = (List.length front + 2 + List.length pre + List.length rest)%nat).
  { unfold els. rewrite app_length. cbn. rewrite app_length. cbn. lia. }
  replace (List.length els - List.length pre + 1)%nat
    with (List.length front + 3 + List.length rest)%nat by lia.
  assert (SK : skipn (1 + List.length pre + List.length front) els = Section l sa st se :: rest).
  { unfold els. destruct F as [->|[fa ->]]; cbn [app List.length Nat.add].
    - rewrite Nat.add_0_r. cbn [skipn]. rewrite skipn_app, skipn_all2, Nat.sub_diag by lia. reflexivity.
    - replace (List.length pre + 1)%nat with (S (List.length pre)) by lia. cbn [skipn].
      rewrite skipn_app, skipn_all2, Nat.sub_diag by lia. reflexivity. }
  assert (DF : docFrontMatter els = Ok (match front with x :: _ => Some x | [] => None end)).
  { unfold els. destruct F as [->|[fa ->]]; reflexivity. }
  rewrite DF, DH.
  destruct (Nat.leb_spec (List.length front + 3 + List.length rest) (1 + List.length front)); [lia|].
  destruct (Nat.ltb_spec (List.length els) (1 + List.length pre + List.length front)); [lia|].
  rewrite SK.
  set (fresh2 := upd _ _ (Preamble pre)).
  assert (FR : fresh2 = (front ++ [DocumentHeader (Some t) a h; Preamble pre]) ++ repeat VNil (S (List.length rest))).
  { unfold fresh2. destruct F as [->|[fa ->]]; reflexivity. }
  rewrite FR.
  replace (2 + List.length front)%nat
    with (List.length (front ++ [DocumentHeader (Some t) a h; Preamble pre]))
    by (rewrite app_length; cbn; lia).
  rewrite copy_fill by reflexivity. rewrite <- app_assoc. reflexivity.
Qed.

Lemma docHeader_front front t a h rest :
  front_matter_only front ->
  docHeader (front ++ DocumentHeader t a h :: rest) =
  Some (DocumentHeader t a h, List.length front).
Proof. intros [->|[fa ->]]; reflexivity. Qed.

Lemma split_at_section els : no_sections els \/
  exists pre l a t e rest, els = pre ++ Section l a t e :: rest /\ no_sections pre.
Proof.
  induction els as [|x els IH]; [left; constructor|].
  destruct (is_section x) eqn:S.
  - destruct x; try discriminate. right. exists [], level, attrs, title, elements, els. split; auto. constructor.
  - destruct IH as [IH|(pre & l & a & t & e & rest & -> & NS)].
    + left. now constructor.
    + right. exists (x :: pre), l, a, t, e, rest. split; auto. now constructor.
Qed.

Lemma insertPreamble_header_kept front t a h rest :
  front_matter_only front ->
  forallb (fun v => match v with DocumentHeader _ _ _ | FrontMatter _ => false | _ => true end) rest = true ->
  exists rest', insertPreamble (front ++ DocumentHeader (Some t) a h :: rest) =
     Ok (front ++ DocumentHeader (Some t) a h :: rest').
Proof.
  intros F H.
  destruct (split_at_section rest) as [NS|(pre & l & sa & st & se & rest2 & -> & NS)].
  - exists rest. apply insertPreamble_no_section. unfold no_sections.
    apply Forall_app. split; [destruct F as [->|[fa ->]]; repeat constructor|].
    constructor; auto.
  - rewrite insertPreamble_spec; auto.
    + destruct (existsb substantial pre); eauto.
    + rewrite forallb_app in H. apply andb_true_iff in H. destruct H as [H _].
      rewrite forallb_forall in *. unfold no_sections in NS. rewrite Forall_forall in NS.
      intros x Hx. specialize (H x Hx). specialize (NS x Hx).
      destruct x; try reflexivity; discriminate.
Qed.
