(** Lemmas for C25: the markers of the stack, and items that stay together. *)
From Verif Require Import GoBase GoLemmas Types Attrs Elements Footnotes FilterSpec Lists ListSpec ListLemmas.

Definition mkr (l : olist) : marker := match marker_of (ol_last l) with Some m => m | None => MCallout end.
Definition markers (s : list olist) : list marker := List.map mkr s.
Lemma mkr_ok l : olist_ok l -> marker_of (ol_last l) = Some (mkr l) /\ ol_kind l = kind_of_marker (mkr l) /\
  Forall (fun i => marker_of i = Some (mkr l)) (ol_init l ++ [ol_last l]).
Proof.
  intros (m & K & F). assert (E : marker_of (ol_last l) = Some m).
  { apply Forall_app in F. destruct F as [_ F]. now inversion F. }
  unfold mkr. rewrite E. auto.
Qed.
Lemma marker_eqb_eq a b : marker_eqb a b = true <-> a = b.
Proof.
  destruct a, b; cbn; rewrite ?String.eqb_eq; split; intros H; try discriminate; try congruence; reflexivity.
Qed.
Lemma mkr_attach l p : mkr (attach l p) = mkr l.
Proof. destruct p; [|reflexivity]. unfold mkr. cbn. now rewrite marker_append. Qed.
Lemma item_marker e : item e -> exists m, marker_of e = Some m.
Proof. unfold item. destruct (marker_of e); [eauto|congruence]. Qed.

Lemma canAdd_mkr l e m : olist_ok l -> marker_of e = Some m -> canAdd l e = marker_eqb m (mkr l).
Proof.
  intros O E. destruct (mkr_ok l O) as (L & K & _).
  assert (I : item e) by (unfold item; congruence).
  destruct (canAdd l e) eqn:C; symmetry.
  - destruct (canAdd_item l e I C) as (k & _ & _ & m' & M1 & M2). apply marker_eqb_eq. congruence.
  - destruct (marker_eqb m (mkr l)) eqn:ME; [|reflexivity]. apply marker_eqb_eq in ME. subst m.
    assert (X : canAdd l e = (String.eqb (kind_of_marker (mkr l)) (ol_kind l) && matchesStyle e (ol_last l))%bool).
    { destruct e; cbn in I; try (now destruct I); cbn in E; injection E as <-; reflexivity. }
    rewrite X, K, String.eqb_refl in C. cbn in C. assert (Y : matchesStyle e (ol_last l) = true) by (apply matchesStyle_marker; eauto). congruence.
Qed.

Lemma find_parent_markers s : forall p e m, Forall olist_ok s -> marker_of e = Some m ->
  match find_parent p s e with
  | Some (l, r) => back_to m (markers s) = Some (mkr l :: markers r) /\ mkr l = m
  | None => back_to m (markers s) = None
  end.
Proof.
  induction s as [|x s IH]; intros p e m O M; cbn [find_parent]; [reflexivity|].
  inversion O as [|? ? O1 O2]; subst. cbn [markers List.map back_to]. rewrite (canAdd_mkr x e m O1 M).
  destruct (marker_eqb m (mkr x)) eqn:E.
  - rewrite mkr_attach. split; [reflexivity|]. symmetry. now apply marker_eqb_eq.
  - now apply IH.
Qed.
Lemma pops_markers n : forall p s, markers (pops n p s) = skipn n (markers s).
Proof.
  induction n as [|n IH]; intros p [|l s]; cbn [pops markers List.map skipn]; try reflexivity.
  - now rewrite mkr_attach.
  - apply IH.
Qed.
Lemma bullet_next_spec b : bullet_next b = next_bullet b. Proof. reflexivity. Qed.

Lemma adjust_marker s e m : Forall olist_ok s -> marker_of e = Some m ->
  marker_of (adjustStyle e (match s with [] => None | l :: _ => Some l end)) = Some (adjusted (markers s) m).
Proof.
  intros O E. destruct e; cbn in E; try discriminate; injection E as <-; try (cbn; destruct s; reflexivity).
  cbn [adjustStyle]. destruct s as [|l s]; [reflexivity|]. inversion O as [|? ? O1 O2]; subst.
  destruct (mkr_ok l O1) as (_ & _ & FA). assert (M : marker_of (ol_first l) = Some (mkr l)).
  { unfold ol_first. destruct (ol_init l); inversion FA; assumption. }
  cbn [markers List.map adjusted]. destruct (ol_first l); cbn in M; try discriminate; injection M as <-; cbn; try reflexivity.
Qed.
Lemma newList_mkr e : item e -> mkr (newList e) = match marker_of e with Some m => m | None => MCallout end.
Proof.
  intros I. unfold mkr, newList. cbn [ol_last]. rewrite marker_interactive. replace (marker_of (withAttrs e [])) with (marker_of e); [reflexivity|].
  destruct e; reflexivity.
Qed.

Lemma list_add_mkr l e l' : olist_ok l' -> list_add l e = Ok l' -> list_input e -> mkr l' = mkr l.
Proof.
  intros O A LI. destruct (list_input_cases e LI) as [It|(off & x & -> & N)].
  - assert (E : l' = mkOL (ol_kind l) (ol_attrs l) (ol_init l ++ [ol_last l]) (interactive_if (hasOption (ol_attrs l) "interactive") e)).
    { clear - A It. destruct e; cbn in It; try (now destruct It); unfold list_add in A; cbn [listKind] in A;
          match type of A with context [String.eqb ?a ?b] => destruct (String.eqb a b) end; congruence. }
    subst l'. destruct (mkr_ok _ O) as (L & K & F). cbn [ol_init ol_last] in F. rewrite <- app_assoc in F.
    apply Forall_app in F. destruct F as [_ F]. inversion F as [|? ? X _]; subst. unfold mkr at 2. now rewrite X.
  - rewrite (list_add_cont l off x N) in A. injection A as <-. unfold mkr. cbn. now rewrite marker_append.
Qed.

Lemma step_markers s e s' : Forall olist_ok s -> list_input e -> arrange_step s e = Ok s' ->
  markers s' = open_step (markers s) e.
Proof.
  intros O LI H. destruct (step_read s e s' O LI H) as (O' & _ & _). unfold arrange_step in H.
  destruct (list_input_cases e LI) as [It|(off & x & -> & N)].
  - rewrite (pops_item e s It) in H. destruct (item_marker e It) as [m M].
    assert (OS : open_step (markers s) e = match back_to m (markers s) with Some o => o | None => adjusted (markers s) m :: markers s end).
    { destruct e; cbn in It; try (now destruct It); cbn in M; injection M as <-; reflexivity. }
    rewrite OS. pose proof (find_parent_markers s None e m O M) as F. destruct (find_parent None s e) as [[l r]|].
    + destruct F as [-> _]. destruct (list_add l e) as [l'| |] eqn:A; cbn in H; try discriminate. injection H as <-.
      inversion O' as [|? ? O1 O2]; subst. cbn [markers List.map]. now rewrite (list_add_mkr l e l' O1 A LI).
    + rewrite F. destruct (listKind e); [|discriminate]. injection H as <-. cbn [markers List.map]. f_equal.
      rewrite newList_mkr by now apply marker_adjust. now rewrite (adjust_marker s e m O M).
  - cbn [open_step]. rewrite <- (pops_markers _ None). set (s0 := pops (Z.to_nat off) None s) in *.
    destruct s0 as [|l r]; [discriminate|]. cbn [find_parent canAdd attach] in H. rewrite list_add_cont in H by exact N. cbn in H. injection H as <-.
    cbn [markers List.map]. f_equal. unfold mkr. cbn. now rewrite marker_append.
Qed.

Lemma back_to_suffix m : forall o o', back_to m o = Some o' -> exists a, o = a ++ o'.
Proof.
  induction o as [|x o IH]; cbn; intros o'; [discriminate|]. destruct (marker_eqb m x).
  - intros [= <-]. now exists [].
  - intros H. destruct (IH _ H) as [a ->]. now exists (x :: a).
Qed.
Lemma back_to_none m : forall o, back_to m o = None <-> ~ In m o.
Proof.
  induction o as [|x o IH]; cbn; [intuition|]. destruct (marker_eqb m x) eqn:E.
  - apply marker_eqb_eq in E. subst. split; [discriminate|]. intros H. destruct H. now left.
  - rewrite IH. split; [|tauto]. intros H [->|H']; [|tauto]. assert (X : marker_eqb m m = true) by now apply marker_eqb_eq. congruence.
Qed.
(** ** growth *)
Definition grows (v v' : val) : Prop :=
  marker_of v' = marker_of v /\ exists es more, getElements v = Some es /\ getElements v' = Some (es ++ more).
Lemma grows_refl v : item v -> grows v v.
Proof. intros I. split; [reflexivity|]. destruct (item_elements v I) as [es G]. exists es, []. rewrite app_nil_r. auto. Qed.
Lemma grows_append v b : item v -> grows v (append_element v b).
Proof.
  intros I. split; [apply marker_append|]. destruct (item_elements v I) as [es G]. exists es, [b]. split; [exact G|].
  unfold append_element. rewrite G. exact (get_set _ _ _ G).
Qed.
Lemma extends_grows m e v v' : extends m e v -> grows v v' -> extends m e v'.
Proof.
  intros (es & es' & more & G1 & G2 & R & M) (M' & fs & more' & G3 & G4). rewrite G2 in G3. injection G3 as <-.
  exists es, es', (more ++ more'). rewrite app_assoc. repeat split; congruence.
Qed.
Lemma grows_reached v v' w es0 x : grows v v' -> getElements v = Some es0 -> In x es0 -> reached w x -> reached w v'.
Proof.
  intros (_ & es & more & G & G') G0 I R. rewrite G in G0. injection G0 as <-. eapply reached_in; [exact G'| |exact R].
  apply in_or_app. now left.
Qed.
Lemma grows_attach l p : olist_ok l -> grows (ol_last l) (ol_last (attach l p)).
Proof. intros O. destruct p; [|apply grows_refl; now apply olist_last]. apply grows_append. now apply olist_last. Qed.
Lemma grows_trans u v w : grows u v -> grows v w -> grows u w.
Proof.
  intros (M1 & a & b & G1 & G2) (M2 & c & d & G3 & G4). split; [congruence|]. rewrite G2 in G3. injection G3 as <-.
  exists a, (b ++ d). rewrite app_assoc. auto.
Qed.

(** an item is added as it is, check box and attributes aside *)
Lemma extends_interactive b e m : marker_of e = Some m -> extends m e (interactive_if b e).
Proof.
  intros Me. assert (I : item e) by (unfold item; congruence). destruct (item_elements e I) as [es G].
  destruct (item_elements (interactive_if b e)) as [es' G']; [unfold item; rewrite marker_interactive; exact I|].
  exists es, es', []. rewrite app_nil_r. split; [exact G|]. split; [exact G'|]. split; [|now rewrite marker_interactive].
  assert (I' : item (interactive_if b e)) by (unfold item; rewrite marker_interactive; exact I).
  pose proof (reading_interactive b e) as R. rewrite (reading_item _ _ I' G'), (reading_item _ _ I G) in R. now injection R.
Qed.
Lemma extends_same_elements m e v v' : extends m v v' -> getElements e = getElements v -> extends m e v'.
Proof. intros (es & es' & more & G1 & G2 & R & M) G. exists es, es', more. repeat split; congruence. Qed.

Section Pair.
  Variables (x y : val) (mx my : marker).
  Definition pair_block (w : val) : Prop :=
    exists k a i x' y' j, w = ListBlock k a (i ++ x' :: y' :: j) /\ extends mx x x' /\ extends my y y'.
  Definition hasP (v : val) : Prop := exists w, reached w v /\ pair_block w.
  Definition stackP (s : list olist) : Prop := exists l, In l s /\ hasP (to_block l).

  Lemma hasP_item v : item v -> hasP v -> exists es z, getElements v = Some es /\ In z es /\ hasP z.
  Proof.
    intros I (w & R & P). inversion R as [|? es z G Iz R']; subst.
    - destruct P as (k & a & i & x' & y' & j & -> & _). now destruct I.
    - exists es, z. split; [exact G|]. split; [exact Iz|]. now exists w.
  Qed.
  Lemma hasP_grow l last' : olist_ok l -> grows (ol_last l) last' -> hasP (to_block l) ->
    hasP (ListBlock (ol_kind l) (ol_attrs l) (ol_init l ++ [last'])).
  Proof.
    intros O G (w & R & P). inversion R as [|? es z Gz Iz R']; subst.
    - destruct P as (k & a & i & x' & y' & j & E & Ex & Ey). unfold to_block in E. injection E as E1 E2 E3.
      destruct (exists_last (l := x' :: y' :: j)) as (l1 & z & E4); [discriminate|].
      rewrite E4, app_assoc in E3. apply app_inj_tail in E3. destruct E3 as [E3 E5]. subst z.
      exists (ListBlock (ol_kind l) (ol_attrs l) (ol_init l ++ [last'])). split; [constructor|].
      destruct j as [|z j].
      + assert (L : l1 = [x'] /\ y' = ol_last l) by (change [x'; y'] with ([x'] ++ [y']) in E4; apply app_inj_tail in E4; destruct E4; auto).
        destruct L as [-> ->]. exists (ol_kind l), (ol_attrs l), i, x', last', []. rewrite E3, <- app_assoc. repeat split; [exact Ex|].
        eapply extends_grows; eauto.
      + destruct (exists_last (l := z :: j)) as (j' & z' & E6); [discriminate|]. rewrite E6 in E4.
        change (x' :: y' :: j' ++ [z']) with ((x' :: y' :: j') ++ [z']) in E4. apply app_inj_tail in E4. destruct E4 as [E4 _].
        exists (ol_kind l), (ol_attrs l), i, x', y', (j' ++ [last']). rewrite E3, <- E4, <- app_assoc. repeat split; assumption.
    - cbn in Gz. injection Gz as <-. apply in_app_or in Iz. destruct Iz as [Iz|[Iz|[]]].
      + exists w. split; [|exact P]. eapply reached_in; [reflexivity| |exact R']. apply in_or_app. now left.
      + subst z. destruct (hasP_item (ol_last l)) as (es & z & Ge & Iz & (w' & R2 & P2)); [now apply olist_last|now exists w|].
        exists w'. split; [|exact P2]. eapply reached_in; [reflexivity|apply in_or_app; right; left; reflexivity|].
        eapply grows_reached; eauto.
  Qed.
  Lemma hasP_attach l p : olist_ok l -> hasP (to_block l) -> hasP (to_block (attach l p)).
  Proof.
    intros O H. destruct p as [b|]; [|exact H]. apply (hasP_grow l (append_element (ol_last l) b) O); [|exact H].
    apply grows_append. now apply olist_last.
  Qed.
  Lemma hasP_pending l b : olist_ok l -> hasP b -> hasP (to_block (attach l (Some b))).
  Proof.
    intros O (w & R & P). exists w. split; [|exact P]. eapply reached_in; [reflexivity|cbn; apply in_or_app; right; left; reflexivity|].
    destruct (item_elements (ol_last l) (olist_last l O)) as [es G].
    eapply reached_in; [unfold append_element; rewrite G; exact (get_set _ _ _ G)|apply in_or_app; right; left; reflexivity|exact R].
  Qed.
  Lemma hasP_more l e : hasP (to_block l) ->
    hasP (ListBlock (ol_kind l) (ol_attrs l) ((ol_init l ++ [ol_last l]) ++ [e])).
  Proof.
    intros (w & R & P). inversion R as [|? es z Gz Iz R']; subst.
    - destruct P as (k & a & i & x' & y' & j & E & Ex & Ey). unfold to_block in E. injection E as E1 E2 E3.
      exists (ListBlock (ol_kind l) (ol_attrs l) ((ol_init l ++ [ol_last l]) ++ [e])). split; [constructor|].
      exists (ol_kind l), (ol_attrs l), i, x', y', (j ++ [e]). rewrite E3, <- app_assoc. repeat split; assumption.
    - cbn in Gz. injection Gz as <-. exists w. split; [|exact P]. eapply reached_in; [reflexivity| |exact R']. apply in_or_app. now left.
  Qed.

  Definition pendP (p : option val) : Prop := match p with Some b => hasP b | None => False end.
  Lemma close_all_P s : forall p, Forall olist_ok s -> (stackP s \/ pendP p) -> hasP (close_all p s).
  Proof.
    induction s as [|l r IH]; intros p O H; cbn [close_all].
    - destruct H as [(l & [] & _)|H]. destruct p; [exact H|now destruct H].
    - inversion O as [|? ? O1 O2]; subst. apply IH; [exact O2|]. destruct H as [(l0 & [E|I0] & H)|H].
      + subst l0. right. now apply hasP_attach.
      + left. now exists l0.
      + right. destruct p; [|now destruct H]. now apply hasP_pending.
  Qed.
  Lemma find_parent_P s : forall p e l r, Forall olist_ok s -> (stackP s \/ pendP p) -> find_parent p s e = Some (l, r) -> stackP (l :: r).
  Proof.
    induction s as [|z s IH]; intros p e l r O H; cbn [find_parent]; [discriminate|].
    inversion O as [|? ? O1 O2]; subst. destruct (canAdd z e).
    - intros [= <- <-]. destruct H as [(l0 & [E|I0] & H)|H].
      + subst l0. exists (attach z p). split; [now left|]. now apply hasP_attach.
      + exists l0. split; [now right|exact H].
      + destruct p; [|now destruct H]. exists (attach z (Some v)). split; [now left|]. now apply hasP_pending.
    - apply IH; [exact O2|]. destruct H as [(l0 & [E|I0] & H)|H].
      + subst l0. right. now apply hasP_attach.
      + left. now exists l0.
      + right. destruct p; [|now destruct H]. now apply hasP_pending.
  Qed.
  Lemma pops_P n : forall p s, Forall olist_ok s -> (stackP s \/ pendP p) -> pops n p s <> [] -> stackP (pops n p s).
  Proof.
    induction n as [|n IH]; intros p [|z s] O H N; cbn [pops] in *; try (now destruct N); inversion O as [|? ? O1 O2]; subst.
    - destruct H as [(l0 & [E|I0] & H)|H].
      + subst l0. exists (attach z p). split; [now left|]. now apply hasP_attach.
      + exists l0. split; [now right|exact H].
      + destruct p; [|now destruct H]. exists (attach z (Some v)). split; [now left|]. now apply hasP_pending.
    - apply IH; [exact O2| |exact N]. destruct H as [(l0 & [E|I0] & H)|H].
      + subst l0. right. now apply hasP_attach.
      + left. now exists l0.
      + right. destruct p; [|now destruct H]. now apply hasP_pending.
  Qed.

  Lemma list_add_shape l e l' : list_input e -> list_add l e = Ok l' ->
    (item e /\ l' = mkOL (ol_kind l) (ol_attrs l) (ol_init l ++ [ol_last l]) (interactive_if (hasOption (ol_attrs l) "interactive") e)) \/
    (exists off z, e = ListContinuation off z /\ l' = attach l (Some z)).
  Proof.
    intros LI A. destruct (list_input_cases e LI) as [It|(off & z & -> & N)].
    - left. split; [exact It|]. destruct e; cbn in It; try (now destruct It); unfold list_add in A; cbn [listKind] in A;
        match type of A with context [String.eqb ?a ?b] => destruct (String.eqb a b) end; congruence.
    - right. rewrite (list_add_cont l off z N) in A. injection A as <-. exists off, z. auto.
  Qed.

  Lemma step_P s e s' : Forall olist_ok s -> list_input e -> arrange_step s e = Ok s' -> stackP s -> stackP s'.
  Proof.
    intros O LI H P. unfold arrange_step in H.
    set (s0 := match e with ListContinuation off _ => pops (Z.to_nat off) None s | _ => s end) in H.
    assert (X : s0 <> [] -> Forall olist_ok s0 /\ stackP s0).
    { subst s0. destruct e; auto. intros N. split; [apply pops_read; auto|apply pops_P; auto]. }
    destruct (find_parent None s0 e) as [[l r]|] eqn:F.
    - assert (N : s0 <> []) by (intros C; rewrite C in F; discriminate). destruct (X N) as [O0 P0].
      pose proof (find_parent_P s0 None e l r O0 (or_introl P0) F) as (l0 & [E|I0] & Q).
      + subst l0. destruct (find_parent_read _ _ _ _ _ O0 F) as (_ & OK & _). inversion OK; subst.
        destruct (list_add l e) as [l'| |] eqn:A; cbn in H; try discriminate. injection H as <-. exists l'. split; [now left|].
        destruct (list_add_shape l e l' LI A) as [[It ->]|(off & z & -> & ->)].
        * exact (hasP_more l _ Q).
        * now apply hasP_attach.
      + destruct (list_add l e) as [l'| |] eqn:A; cbn in H; try discriminate. injection H as <-. exists l0. split; [now right|exact Q].
    - destruct (listKind e) as [k|] eqn:K; [|discriminate]. injection H as <-.
      assert (It : item e) by (intros C; rewrite listKind_marker, C in K; discriminate).
      assert (E0 : s0 = s) by (subst s0; now apply pops_item). rewrite E0. destruct P as (l0 & I0 & Q). exists l0. split; [now right|exact Q].
  Qed.
  Lemma loop_P es : forall s s', Forall olist_ok s -> Forall list_input es -> arrange_loop s es = Ok s' -> stackP s -> stackP s'.
  Proof.
    induction es as [|e es IH]; intros s s' O LI; cbn [arrange_loop]; [now intros [= <-]|].
    inversion LI as [|? ? L1 L2]; subst. destruct (arrange_step s e) as [s1| |] eqn:E; cbn; try discriminate. intros H P.
    destruct (step_read s e s1 O L1 E) as (O1 & _). exact (IH s1 s' O1 L2 H (step_P s e s1 O L1 E P)).
  Qed.
End Pair.

(** ** the item stays the last one of its list while deeper items come *)
Lemma find_parent_skip above : forall p s e, (forall l, In l above -> canAdd l e = false) ->
  exists p', find_parent p (above ++ s) e = find_parent p' s e.
Proof.
  induction above as [|l a IH]; intros p s e N; [now exists p|]. cbn [app find_parent]. rewrite (N l (or_introl eq_refl)).
  apply IH. intros l' I. apply N. now right.
Qed.
Lemma find_parent_above above : forall p s e, (forall l, In l s -> canAdd l e = false) ->
  find_parent p (above ++ s) e = match find_parent p above e with Some (l, r) => Some (l, r ++ s) | None => None end.
Proof.
  induction above as [|l a IH]; intros p s e N; cbn [app find_parent].
  - revert p. induction s as [|l s IH]; intros p; [reflexivity|]. cbn [find_parent]. rewrite (N l (or_introl eq_refl)).
    apply IH. intros l' I. apply N. now right.
  - destruct (canAdd l e); [reflexivity|]. now apply IH.
Qed.
Lemma arrange_app a : forall s b s', arrange_loop s (a ++ b) = Ok s' <-> exists s1, arrange_loop s a = Ok s1 /\ arrange_loop s1 b = Ok s'.
Proof.
  induction a as [|e a IH]; intros s b s'; cbn [app arrange_loop].
  - split; [eauto|]. intros (s1 & [= <-] & H). exact H.
  - destruct (arrange_step s e) as [s1| |]; cbn; [apply IH| |]; split; try discriminate; intros (? & ? & ?); discriminate.
Qed.
Lemma loop_markers es : forall s s', Forall olist_ok s -> Forall list_input es -> arrange_loop s es = Ok s' ->
  markers s' = fold_left open_step es (markers s).
Proof.
  induction es as [|e es IH]; intros s s' O LI H; cbn [arrange_loop fold_left] in *; [now injection H as <-|].
  inversion LI; subst. destruct (arrange_step s e) as [s1| |] eqn:E; cbn in H; try discriminate.
  destruct (step_read s e s1) as (O1 & _); auto.
  assert (M : markers s1 = open_step (markers s) e) by (now apply step_markers).
  now rewrite (IH s1 s' O1), M.
Qed.

Lemma mid_step above l below e s' : Forall olist_ok (above ++ l :: below) -> list_input e ->
  (forall m, marker_of e = Some m -> ~ In m (markers (l :: below))) ->
  (forall off z, e = ListContinuation off z -> Z.to_nat off = 0%nat) ->
  arrange_step (above ++ l :: below) e = Ok s' ->
  exists above' l', s' = above' ++ l' :: below /\ grows (ol_last l) (ol_last l') /\ mkr l' = mkr l.
Proof.
  intros O LI N Z0 H. apply Forall_app in O. destruct O as [Oa O]. inversion O as [|? ? Ol Ob]; subst.
  unfold arrange_step in H. destruct (list_input_cases e LI) as [It|(off & z & -> & NR)].
  - rewrite (pops_item e _ It) in H. destruct (item_marker e It) as [m M]. specialize (N m M).
    assert (C : forall l', In l' (l :: below) -> canAdd l' e = false).
    { intros l' I. assert (O' : olist_ok l') by (destruct I as [<-|I]; [exact Ol|rewrite Forall_forall in Ob; now apply Ob]).
      rewrite (canAdd_mkr l' e m O' M). destruct (marker_eqb m (mkr l')) eqn:E; [|reflexivity]. apply marker_eqb_eq in E. subst m.
      destruct N. now apply in_map. }
    rewrite (find_parent_above above None (l :: below) e C) in H. destruct (find_parent None above e) as [[l1 r1]|].
    + destruct (list_add l1 e) as [l'| |]; cbn in H; try discriminate. injection H as <-. exists (l' :: r1), l.
      split; [reflexivity|]. split; [apply grows_refl; now apply olist_last|reflexivity].
    + destruct (listKind e); [|discriminate]. injection H as <-.
      exists (newList (adjustStyle e (match above ++ l :: below with [] => None | x :: _ => Some x end)) :: above), l.
      split; [reflexivity|]. split; [apply grows_refl; now apply olist_last|reflexivity].
  - rewrite (Z0 off z eq_refl) in H. destruct above as [|a above]; cbn [app pops attach find_parent canAdd] in H.
    + rewrite list_add_cont in H by exact NR. cbn in H. injection H as <-. exists [], (attach l (Some z)).
      split; [reflexivity|]. split; [now apply grows_attach|apply mkr_attach].
    + rewrite list_add_cont in H by exact NR. cbn in H. injection H as <-. exists (attach a (Some z) :: above), l.
      split; [reflexivity|]. split; [apply grows_refl; now apply olist_last|reflexivity].
Qed.
Lemma mid_loop mid : forall above l below s', Forall olist_ok (above ++ l :: below) -> Forall list_input mid ->
  (forall e m, In e mid -> marker_of e = Some m -> ~ In m (markers (l :: below))) ->
  (forall e off z, In e mid -> e = ListContinuation off z -> Z.to_nat off = 0%nat) ->
  arrange_loop (above ++ l :: below) mid = Ok s' ->
  exists above' l', s' = above' ++ l' :: below /\ grows (ol_last l) (ol_last l') /\ mkr l' = mkr l.
Proof.
  induction mid as [|e mid IH]; intros above l below s' O LI N Z0; cbn [arrange_loop].
  - intros [= <-]. exists above, l. split; [reflexivity|]. split; [|reflexivity]. apply grows_refl. apply olist_last.
    rewrite Forall_forall in O. apply O. apply in_or_app. right. now left.
  - inversion LI; subst. destruct (arrange_step _ e) as [s1| |] eqn:E; cbn; try discriminate. intros H.
    destruct (step_read _ e s1 O) as (O1 & _); auto.
    destruct (mid_step above l below e s1 O) as (a' & l' & -> & G & M); auto.
    { intros m Me. apply (N e m); [now left|exact Me]. }
    { intros off z Ez. apply (Z0 e off z); [now left|exact Ez]. }
    destruct (IH a' l' below s' O1) as (a2 & l2 & -> & G2 & M2); auto.
    { intros e' m I Me. cbn [markers List.map]. rewrite M. apply (N e' m); [now right|exact Me]. }
    { intros e' off z I Ez. apply (Z0 e' off z); [now right|exact Ez]. }
    exists a2, l2. split; [reflexivity|]. split; [eapply grows_trans; eauto|congruence].
Qed.

(** ** siblings *)
Lemma x_step s x s' : Forall olist_ok s -> item x -> list_input x -> arrange_step s x = Ok s' ->
  exists l r, s' = l :: r /\ extends (mkr l) x (ol_last l).
Proof.
  intros O It LI H. destruct (step_read s x s' O LI H) as (O' & _). unfold arrange_step in H. rewrite (pops_item x s It) in H.
  destruct (item_marker x It) as [m Mx].
  destruct (find_parent None s x) as [[l r]|] eqn:F.
  - destruct (list_add l x) as [l'| |] eqn:A; cbn in H; try discriminate. injection H as <-. exists l', r. split; [reflexivity|].
    inversion O' as [|? ? O1 _]; subst. destruct (mkr_ok l' O1) as (ML & _).
    destruct (list_add_shape l x l' LI A) as [[_ ->]|(off & z & -> & _)]; [|now destruct It]. cbn [ol_last] in *.
    rewrite marker_interactive, Mx in ML. injection ML as <-. now apply extends_interactive.
  - destruct (listKind x); [|discriminate]. injection H as <-. eexists _, s. split; [reflexivity|].
    inversion O' as [|? ? O1 _]; subst. destruct (mkr_ok _ O1) as (ML & _). revert ML.
    set (x1 := adjustStyle x (match s with [] => None | l :: _ => Some l end)). intros ML.
    assert (G1 : getElements x1 = getElements x).
    { subst x1. destruct x; try reflexivity. cbn. destruct s as [|l s]; [reflexivity|]. destruct (ol_first l); reflexivity. }
    eapply extends_same_elements with (v := withAttrs x1 []); [|rewrite <- G1; destruct x1; reflexivity].
    change (ol_last (newList x1)) with (interactive_if (hasOption (getAttributes x1) "interactive") (withAttrs x1 [])).
    apply extends_interactive. rewrite <- ML. symmetry. apply marker_interactive.
Qed.

Lemma siblings pre x mid y post t m o above :
  Forall list_input (pre ++ x :: mid ++ y :: post) ->
  item x -> open_after (pre ++ [x]) = m :: o -> marker_of y = Some m ->
  (forall e m', In e mid -> marker_of e = Some m' -> ~ In m' (m :: o)) ->
  (forall e off z, In e mid -> e = ListContinuation off z -> (off <= 0)%Z) ->
  open_after (pre ++ x :: mid) = above ++ m :: o -> ~ In m above ->
  doArrangeListElements (pre ++ x :: mid ++ y :: post) = Ok t -> hasP x y m m t.
Proof.
  intros LI Ix Mo My D Z0 AB NA H. unfold doArrangeListElements in H.
  destruct (arrange_loop [] _) as [s| |] eqn:E; cbn in H; try discriminate. injection H as <-.
  apply arrange_app in E. destruct E as (s1 & E1 & E). cbn [arrange_loop] in E.
  destruct (arrange_step s1 x) as [s2| |] eqn:E2; cbn in E; try discriminate.
  apply arrange_app in E. destruct E as (s3 & E3 & E). cbn [arrange_loop] in E.
  destruct (arrange_step s3 y) as [s4| |] eqn:E4; cbn in E; try discriminate.
  apply Forall_app in LI. destruct LI as [Lpre LI]. inversion LI as [|? ? Lx LI']; subst.
  apply Forall_app in LI'. destruct LI' as [Lmid LI']. inversion LI' as [|? ? Ly Lpost]; subst.
  assert (Iy : item y) by (unfold item; congruence).
  destruct (loop_read _ _ _ (Forall_nil _) Lpre E1) as (O1 & _).
  assert (M1 : markers s1 = open_after pre) by exact (loop_markers pre [] s1 (Forall_nil _) Lpre E1).
  destruct (step_read s1 x s2 O1 Lx E2) as (O2 & _).
  assert (M2 : markers s2 = m :: o).
  { rewrite (step_markers s1 x s2 O1 Lx E2), M1, <- Mo. unfold open_after. rewrite fold_left_app. reflexivity. }
  destruct (x_step s1 x s2 O1 Ix Lx E2) as (l & r & -> & EXx).
  cbn [markers List.map] in M2. injection M2 as Ml Mr. rewrite Ml in EXx.
  destruct (loop_read _ _ _ O2 Lmid E3) as (O3 & _).
  destruct (mid_loop mid [] l r s3 O2 Lmid) as (ab & l' & -> & G & Ml'); auto.
  { intros e m' I Me. change (markers (l :: r)) with (mkr l :: markers r). unfold markers. rewrite Ml, Mr. now apply (D e m'). }
  { intros e off z I Ez. specialize (Z0 e off z I Ez). lia. }
  assert (MA : markers ab = above).
  { assert (X : markers (ab ++ l' :: r) = above ++ m :: o).
    { rewrite (loop_markers mid (l :: r) _ O2 Lmid E3), <- AB. change (markers (l :: r)) with (mkr l :: List.map mkr r). rewrite Ml, Mr, <- Mo.
      unfold open_after. rewrite <- fold_left_app, <- app_assoc. reflexivity. }
    unfold markers in X. rewrite map_app in X. cbn [List.map] in X. rewrite Mr, Ml', Ml in X.
    now apply app_inv_tail in X. }
  assert (O3' := O3). apply Forall_app in O3'. destruct O3' as [Oa O3']. inversion O3' as [|? ? Ol' Or']; subst.
  unfold arrange_step in E4. rewrite (pops_item y _ Iy) in E4.
  destruct (find_parent_skip ab None (l' :: r) y) as [p' FP].
  { intros a Ia. rewrite Forall_forall in Oa. rewrite (canAdd_mkr a y (mkr l) (Oa a Ia) My). destruct (marker_eqb _ _) eqn:EQ; [|reflexivity].
    apply marker_eqb_eq in EQ. destruct NA. rewrite EQ. now apply in_map. }
  rewrite FP in E4. cbn [find_parent] in E4. rewrite (canAdd_mkr l' y (mkr l) Ol' My) in E4.
  assert (EQ : marker_eqb (mkr l) (mkr l') = true) by (apply marker_eqb_eq; congruence). rewrite EQ in E4.
  destruct (list_add (attach l' p') y) as [l4| |] eqn:A; cbn in E4; try discriminate. injection E4 as <-.
  destruct (list_add_shape _ y l4 Ly A) as [[_ E5]|(off & z & -> & _)]; [|now destruct Iy].
  assert (O4 : Forall olist_ok (l4 :: r)).
  { eapply (step_read (ab ++ l' :: r) y); [exact O3|exact Ly|]. unfold arrange_step. rewrite (pops_item y _ Iy), FP. cbn [find_parent].
    rewrite (canAdd_mkr l' y (mkr l) Ol' My), EQ, A. reflexivity. }
  apply close_all_P; [apply (loop_read _ _ _ O4 Lpost E)|left]. apply (loop_P x y _ _ post (l4 :: r) s O4 Lpost E).
  exists l4. split; [now left|]. exists (to_block l4). split; [constructor|]. subst l4. unfold to_block. cbn [ol_kind ol_attrs ol_init ol_last].
  eexists _, _, (ol_init (attach l' p')), (ol_last (attach l' p')), _, []. split; [rewrite <- app_assoc; reflexivity|].
  split; [|now apply extends_interactive].
  eapply extends_grows; [exact EXx|]. eapply grows_trans; [exact G|]. now apply grows_attach.
Qed.

(** ** depths *)
Definition lvls (d : nat) (l : olist) : list (nat * marker) := flat_map (levels d) (ol_init l ++ [ol_last l]).
Fixpoint slvls (s : list olist) : list (nat * marker) :=
  match s with [] => [] | l :: r => slvls r ++ lvls (List.length s) l end.
Definition plvls (d : nat) (p : option val) : list (nat * marker) := match p with Some b => levels d b | None => [] end.
Lemma levels_item d v m es : marker_of v = Some m -> getElements v = Some es -> levels d v = (d, m) :: flat_map (levels d) es.
Proof. destruct v; cbn; try discriminate; intros [= <-] [= ->]; reflexivity. Qed.
Lemma levels_append d v x : item v -> levels d (append_element v x) = levels d v ++ levels d x.
Proof.
  intros I. destruct (item_elements v I) as [es G]. destruct (item_marker v I) as [m M].
  assert (G' : getElements (append_element v x) = Some (es ++ [x])) by (unfold append_element; rewrite G; exact (get_set _ _ _ G)).
  rewrite (levels_item d _ m (es ++ [x])), (levels_item d v m es); auto; [|now rewrite marker_append].
  rewrite flat_map_app. cbn [flat_map app]. now rewrite app_nil_r.
Qed.
Lemma lvls_attach d l p : olist_ok l -> lvls d (attach l p) = lvls d l ++ plvls d p.
Proof.
  intros O. destruct p as [b|]; cbn [plvls attach]; [|now rewrite app_nil_r]. unfold lvls. cbn [ol_init ol_last].
  rewrite !flat_map_app. cbn [flat_map]. rewrite !app_nil_r, levels_append by now apply olist_last. now rewrite app_assoc.
Qed.
Lemma plvls_block d l : plvls d (Some (to_block l)) = lvls (S d) l.
Proof. reflexivity. Qed.
Lemma close_all_levels s : forall p, Forall olist_ok s -> (s <> [] \/ p <> None) -> levels 0 (close_all p s) = slvls s ++ plvls (List.length s) p.
Proof.
  induction s as [|l r IH]; intros p O N; cbn [close_all].
  - destruct p; [reflexivity|]. destruct N as [N|N]; now destruct N.
  - inversion O as [|? ? O1 O2]; subst. rewrite IH; [|exact O2|right; discriminate].
    rewrite plvls_block, lvls_attach by exact O1. cbn [slvls List.length]. now rewrite app_assoc.
Qed.
Lemma find_parent_levels s : forall p e l r, Forall olist_ok s -> find_parent p s e = Some (l, r) ->
  slvls (l :: r) = slvls s ++ plvls (List.length s) p.
Proof.
  induction s as [|x s IH]; intros p e l r O; cbn [find_parent]; [discriminate|].
  inversion O as [|? ? O1 O2]; subst. destruct (canAdd x e).
  - intros [= <- <-]. cbn [slvls List.length]. rewrite lvls_attach by exact O1. now rewrite app_assoc.
  - intros H. rewrite (IH _ _ _ _ O2 H), plvls_block, lvls_attach by exact O1. cbn [slvls List.length]. now rewrite app_assoc.
Qed.
Lemma pops_levels n : forall p s, Forall olist_ok s -> pops n p s <> [] ->
  slvls (pops n p s) = slvls s ++ plvls (List.length s) p.
Proof.
  induction n as [|n IH]; intros p [|l s] O N; try (now destruct N); inversion O as [|? ? O1 O2]; subst; cbn [pops] in *.
  - cbn [slvls List.length]. rewrite lvls_attach by exact O1. now rewrite app_assoc.
  - rewrite (IH _ _ O2 N), plvls_block, lvls_attach by exact O1. cbn [slvls List.length]. now rewrite app_assoc.
Qed.
Lemma no_list_levels d v : no_list v -> levels d v = [].
Proof. destruct v; cbn; try reflexivity; try discriminate; tauto. Qed.
Lemma no_lists_levels d es : Forall no_list es -> flat_map (levels d) es = [].
Proof. induction 1 as [|v es H _ IH]; [reflexivity|]. cbn. now rewrite (no_list_levels d v H), IH. Qed.
Lemma no_own_item d e m : marker_of e = Some m -> no_own_list e -> forall b, levels d (interactive_if b e) = [(d, m)].
Proof.
  intros M N b. destruct e; cbn in M; try discriminate; injection M as <-; cbn [no_own_list getElements] in N;
    destruct b; cbn [interactive_if interactive levels marker_of app]; rewrite ?(no_lists_levels d _ N); try reflexivity.
  destruct (String.eqb _ _); [now rewrite (no_lists_levels d _ N)|].
  rewrite (no_lists_levels d); [reflexivity|]. destruct elements as [|x r]; [constructor|]. inversion N; subst.
  destruct x; constructor; try assumption; reflexivity.
Qed.
Lemma step_levels s e s' : Forall olist_ok s -> list_input e -> no_own_list e -> arrange_step s e = Ok s' ->
  slvls s' = slvls s ++ match marker_of e, markers s' with Some _, m :: _ => [(List.length s', m)] | _, _ => [] end.
Proof.
  intros O LI NL H. destruct (step_read s e s' O LI H) as (O' & _). unfold arrange_step in H.
  destruct (list_input_cases e LI) as [It|(off & x & -> & N)].
  - rewrite (pops_item e s It) in H. destruct (item_marker e It) as [m M]. rewrite M.
    destruct (find_parent None s e) as [[l r]|] eqn:F.
    + destruct (list_add l e) as [l'| |] eqn:A; cbn in H; try discriminate. injection H as <-.
      pose proof (find_parent_levels s None e l r O F) as X. cbn [plvls] in X. rewrite app_nil_r in X. rewrite <- X.
      inversion O' as [|? ? O1 _]; subst. destruct (mkr_ok l' O1) as (ML & _). cbn [markers List.map slvls List.length].
      destruct (list_add_shape l e l' LI A) as [[_ E]|(off & z & -> & _)]; [|now destruct It].
      rewrite E in ML |- *. cbn [ol_last] in ML. rewrite marker_interactive, M in ML. injection ML as <-.
      unfold lvls. cbn [ol_init ol_last]. rewrite (flat_map_app _ (_ ++ [_])). cbn [flat_map]. rewrite (no_own_item _ e m M NL), app_nil_r, app_assoc. reflexivity.
    + destruct (listKind e); [|discriminate]. injection H as <-. cbn [slvls markers List.map List.length]. f_equal.
      set (e1 := adjustStyle e _) in *.
      assert (I1 : item e1) by now apply marker_adjust. destruct (item_marker e1 I1) as [m1 M1].
      rewrite newList_mkr, M1 by exact I1. unfold lvls, newList. cbn [ol_init ol_last app flat_map]. rewrite app_nil_r.
      apply no_own_item; [destruct e1; exact M1|].
      assert (N1 : no_own_list e1).
      { subst e1. destruct e; cbn in M; try discriminate; try exact NL. cbn [adjustStyle]. destruct s as [|l s]; [exact NL|]. destruct (ol_first l); exact NL. }
      destruct e1; cbn in M1; try discriminate; exact N1.
  - destruct (pops (Z.to_nat off) None s) as [|l r] eqn:P; [discriminate|]. cbn [find_parent canAdd attach] in H.
    rewrite list_add_cont in H by exact N. cbn in H. injection H as <-. cbn [marker_of]. rewrite app_nil_r.
    pose proof (pops_levels (Z.to_nat off) None s O) as X. pose proof (pops_read (Z.to_nat off) None s O) as Y. rewrite P in X, Y.
    specialize (X ltac:(discriminate)). specialize (Y ltac:(discriminate)). cbn [plvls] in X. rewrite app_nil_r in X. rewrite <- X.
    destruct Y as [_ Y]. inversion Y as [|? ? O1 _]; subst. cbn [slvls List.length]. f_equal.
    change (mkOL (ol_kind l) (ol_attrs l) (ol_init l) (append_element (ol_last l) x)) with (attach l (Some x)).
    rewrite lvls_attach by exact O1. cbn [plvls]. rewrite no_list_levels by exact NL. apply app_nil_r.
Qed.
Lemma loop_levels es : forall s s', Forall olist_ok s -> Forall list_input es -> Forall no_own_list es -> arrange_loop s es = Ok s' ->
  slvls s' = slvls s ++ places (markers s) es.
Proof.
  induction es as [|e es IH]; intros s s' O LI NL H; cbn [arrange_loop places] in *; [injection H as <-; now rewrite app_nil_r|].
  inversion LI; inversion NL; subst. destruct (arrange_step s e) as [s1| |] eqn:E; cbn in H; try discriminate.
  destruct (step_read s e s1) as (O1 & _); auto.
  rewrite (IH s1 s' O1) by assumption. rewrite (step_levels s e s1) by assumption. rewrite (step_markers s e s1) by assumption.
  rewrite <- app_assoc. f_equal. f_equal. rewrite <- (step_markers s e s1) by assumption. unfold markers. rewrite map_length. reflexivity.
Qed.
Lemma arrange_levels es t : Forall list_input es -> Forall no_own_list es -> es <> [] -> doArrangeListElements es = Ok t ->
  levels 0 t = places [] es.
Proof.
  intros LI NL NE. unfold doArrangeListElements. destruct (arrange_loop [] es) as [s| |] eqn:E; cbn; try discriminate. intros [= <-].
  destruct (loop_read _ _ _ (Forall_nil _) LI E) as (O & N & _). rewrite close_all_levels; [|exact O|left; apply N; now right].
  cbn [plvls]. rewrite app_nil_r. exact (loop_levels es [] s (Forall_nil _) LI NL E).
Qed.

(** ** the outcome *)
Lemma step_outcome s e : Forall olist_ok s -> list_input e ->
  (closes_all (markers s) e -> arrange_step s e = Err "unable to process element in the list") /\
  (~ closes_all (markers s) e -> exists s', arrange_step s e = Ok s').
Proof.
  intros O LI. split.
  - destruct e; cbn [closes_all]; try tauto. intros H. unfold arrange_step. rewrite <- (pops_markers _ None) in H.
    destruct (pops (Z.to_nat offset) None s); [reflexivity|discriminate].
  - intros H. apply step_total; auto. destruct (list_input_cases e LI) as [It|(off & x & -> & N)]; [now left|right].
    intros C. apply H. cbn [closes_all]. unfold markers. rewrite skipn_map, C. reflexivity.
Qed.
Lemma loop_outcome es : forall s, Forall olist_ok s -> Forall list_input es ->
  ((exists s', arrange_loop s es = Ok s') <->
   forall pre e post, es = pre ++ e :: post -> ~ closes_all (fold_left open_step pre (markers s)) e) /\
  ((exists s', arrange_loop s es = Ok s') \/ arrange_loop s es = Err "unable to process element in the list").
Proof.
  induction es as [|e es IH]; intros s O LI; cbn [arrange_loop].
  - split; [split|]; eauto. intros _ [|? ?] ? ?; discriminate.
  - inversion LI as [|? ? L1 L2]; subst. destruct (step_outcome s e O L1) as [A B].
    assert (DEC : closes_all (markers s) e \/ ~ closes_all (markers s) e).
    { destruct e; cbn; auto. destruct (skipn _ _); [now left|now right]. }
    destruct DEC as [C|C].
    + rewrite (A C). cbn. split; [|now right]. split; [intros (? & ?); discriminate|]. intros H. now destruct (H [] e es eq_refl).
    + destruct (B C) as [s1 E]. rewrite E. cbn. destruct (step_read s e s1 O L1 E) as (O1 & _). destruct (IH s1 O1 L2) as [I1 I2].
      split; [|exact I2]. rewrite I1. rewrite (step_markers s e s1 O L1 E). split.
      * intros H [|a pre] e' post Q; injection Q as <- Q; [exact C|]. exact (H pre e' post Q).
      * intros H pre e' post ->. exact (H (e :: pre) e' post eq_refl).
Qed.
