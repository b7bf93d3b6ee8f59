(** Proofs about preprocessing. *)
From Verif Require Import GoBase GoLemmas Types Attrs Context Cond Include Preprocess PreSpec.

(** ** the stack of conditions *)
Definition ev_stack (s : list bool) (e : event) : list bool :=
  match e with EvOpen v => v :: s | EvClose => tl s | _ => s end.
Definition stack_of (evs : list event) : list bool := fold_left ev_stack evs [].

Lemma opens_app a b : opens (a ++ b) = (opens a + opens b)%nat.
Proof. unfold opens. now rewrite filter_app, app_length. Qed.
Lemma closes_app a b : closes (a ++ b) = (closes a + closes b)%nat.
Proof. unfold closes. now rewrite filter_app, app_length. Qed.

Lemma never_closes_nil : never_closes [].
Proof. intros m1 m2 E. symmetry in E. apply app_eq_nil in E. destruct E as [-> ->]. cbn. lia. Qed.
Lemma never_closes_init a b : never_closes (a ++ b) -> never_closes a.
Proof. intros H m1 m2 E. apply (H m1 (m2 ++ b)). now rewrite E, app_assoc. Qed.
Lemma never_closes_all a : never_closes a -> (closes a <= opens a)%nat.
Proof. intros H. apply (H a []). now rewrite app_nil_r. Qed.
Lemma never_closes_snoc a e : never_closes a -> (closes (a ++ [e]) <= opens (a ++ [e]))%nat ->
  never_closes (a ++ [e]).
Proof.
  intros H1 H2 m1 m2 E. destruct m2 as [|x m2] using rev_ind.
  - rewrite app_nil_r in E. now subst m1.
  - rewrite app_assoc in E. apply app_inj_tail in E. destruct E as [E _]. eapply H1; exact E.
Qed.

Lemma snoc_split {A} (pre : list A) x p y mid :
  pre ++ [x] = p ++ y :: mid ->
  (mid = [] /\ x = y /\ pre = p) \/ (exists m, mid = m ++ [x] /\ pre = p ++ y :: m).
Proof.
  destruct mid as [|z mid] using rev_ind; intros E.
  - apply app_inj_tail in E. destruct E; auto.
  - right. exists mid. change (p ++ y :: mid ++ [z]) with (p ++ (y :: mid) ++ [z]) in E.
    rewrite app_assoc in E. apply app_inj_tail in E. destruct E as [-> ->]. auto.
Qed.

Lemma stack_nth evs : forall d v,
  nth_error (stack_of evs) d = Some v <->
  exists p mid, evs = p ++ EvOpen v :: mid /\ never_closes mid /\ (opens mid = closes mid + d)%nat.
Proof.
  induction evs as [|e evs IH] using rev_ind; intros d v.
  - cbn. split.
    + destruct d; discriminate.
    + intros (p & mid & E & _). destruct p; discriminate.
  - unfold stack_of. rewrite fold_left_app. cbn [fold_left]. fold (stack_of evs).
    destruct e as [s| |v0|]; cbn [ev_stack].
    + rewrite IH. split; intros (p & mid & E & N & D).
      * exists p, (mid ++ [EvText s]). subst. rewrite <- app_assoc. split; [reflexivity|].
        rewrite opens_app, closes_app. cbn. split; [|lia]. apply never_closes_snoc; auto.
        rewrite opens_app, closes_app. cbn. pose proof (never_closes_all _ N). lia.
      * apply snoc_split in E. destruct E as [(_ & E & _)|(m & -> & ->)]; [discriminate|].
        rewrite opens_app, closes_app in D. cbn in D. exists p, m. split; [reflexivity|].
        split; [eapply never_closes_init; exact N|lia].
    + rewrite IH. split; intros (p & mid & E & N & D).
      * exists p, (mid ++ [EvNone]). subst. rewrite <- app_assoc. split; [reflexivity|].
        rewrite opens_app, closes_app. cbn. split; [|lia]. apply never_closes_snoc; auto.
        rewrite opens_app, closes_app. cbn. pose proof (never_closes_all _ N). lia.
      * apply snoc_split in E. destruct E as [(_ & E & _)|(m & -> & ->)]; [discriminate|].
        rewrite opens_app, closes_app in D. cbn in D. exists p, m. split; [reflexivity|].
        split; [eapply never_closes_init; exact N|lia].
    + destruct d as [|d]; cbn [nth_error].
      * split.
        -- intros [= ->]. exists evs, []. split; [reflexivity|]. split; [apply never_closes_nil|reflexivity].
        -- intros (p & mid & E & N & D). apply snoc_split in E.
           destruct E as [(-> & E & _)|(m & -> & _)]; [congruence|].
           apply never_closes_init in N as N'. apply never_closes_all in N'.
           rewrite opens_app, closes_app in D. cbn in D. lia.
      * rewrite IH. split; intros (p & mid & E & N & D).
        -- exists p, (mid ++ [EvOpen v0]). subst. rewrite <- app_assoc. split; [reflexivity|].
           rewrite opens_app, closes_app. cbn. split; [|lia]. apply never_closes_snoc; auto.
           rewrite opens_app, closes_app. cbn. pose proof (never_closes_all _ N). lia.
        -- apply snoc_split in E. destruct E as [(-> & E & _)|(m & -> & ->)]; [cbn in D; lia|].
           rewrite opens_app, closes_app in D. cbn in D. exists p, m. split; [reflexivity|].
           split; [eapply never_closes_init; exact N|lia].
    + assert (TL : nth_error (tl (stack_of evs)) d = nth_error (stack_of evs) (S d)).
      { destruct (stack_of evs); [now destruct d|reflexivity]. }
      rewrite TL, IH. split; intros (p & mid & E & N & D).
      * exists p, (mid ++ [EvClose]). subst. rewrite <- app_assoc. split; [reflexivity|].
        rewrite opens_app, closes_app. cbn. split; [|lia]. apply never_closes_snoc; auto.
        rewrite opens_app, closes_app. cbn. lia.
      * apply snoc_split in E. destruct E as [(_ & E & _)|(m & -> & ->)]; [discriminate|].
        rewrite opens_app, closes_app in D. cbn in D. exists p, m. split; [reflexivity|].
        split; [eapply never_closes_init; exact N|lia].
Qed.

Lemma shown_stack evs : shown evs <-> forallb (fun x => x) (stack_of evs) = true.
Proof.
  rewrite forallb_forall. split.
  - intros H v HV. apply In_nth_error in HV. destruct HV as (d & HV).
    apply stack_nth in HV. destruct HV as (p & mid & E & N & _). eapply H; eauto.
  - intros H p v mid E N. apply H. pose proof (never_closes_all _ N) as L.
    assert (X : nth_error (stack_of evs) (opens mid - closes mid) = Some v).
    { apply stack_nth. exists p, mid. repeat split; auto. lia. }
    eapply nth_error_In; exact X.
Qed.

Lemma cEval_rev s : cEval (List.rev s) = forallb (fun x => x) s.
Proof.
  unfold cEval. induction s as [|x s IH]; [reflexivity|]. cbn. rewrite forallb_app, IH. cbn.
  destruct x, (forallb (fun x => x) s); reflexivity.
Qed.
Lemma removelast_rev {A} (s : list A) : removelast (List.rev s) = List.rev (tl s).
Proof. destruct s as [|x s]; [reflexivity|]. cbn [List.rev tl]. apply removelast_last. Qed.

(** ** the builder *)
Definition text_of (b : builder) (out : list string) : Prop :=
  b_buf b = join LF out /\ b_insertLF b = negb (List.length out =? 0)%nat.
Lemma join_snoc sep out s : out <> [] -> join sep (out ++ [s]) = (join sep out ++ sep ++ s)%string.
Proof.
  induction out as [|x out IH]; intros H; [congruence|].
  destruct out as [|y out]; [reflexivity|].
  change ((x :: y :: out) ++ [s]) with (x :: (y :: out) ++ [s]).
  assert (E : join sep (x :: (y :: out) ++ [s]) = (x ++ sep ++ join sep ((y :: out) ++ [s]))%string) by reflexivity.
  rewrite E, IH by discriminate.
  assert (E2 : join sep (x :: y :: out) = (x ++ sep ++ join sep (y :: out))%string) by reflexivity.
  rewrite E2, !sapp_assoc. reflexivity.
Qed.
Lemma bWrite_on b out s : text_of b out -> b_enabled b = true -> text_of (bWrite b s) (out ++ [s]).
Proof.
  intros [H1 H2] HE. unfold bWrite. rewrite HE. split; cbn [b_buf b_insertLF].
  - rewrite H1, H2. destruct out as [|x out]; [reflexivity|].
    rewrite join_snoc by discriminate. reflexivity.
  - rewrite app_length. cbn. destruct (List.length out); reflexivity.
Qed.
Lemma bWrite_off b s : b_enabled b = false -> bWrite b s = b.
Proof. intros H. unfold bWrite. now rewrite H. Qed.
Lemma bWrite_enabled b s : b_enabled (bWrite b s) = b_enabled b.
Proof. unfold bWrite. destruct (b_enabled b) eqn:E; [reflexivity|exact E]. Qed.

Lemma visible_app_text before s evs out outs :
  shown before -> visible (before ++ [EvText s]) evs out -> outs = s :: out -> visible before (EvText s :: evs) outs.
Proof. intros H1 H2 ->. now constructor. Qed.

Section Pre.
  Variable parseLine : bool -> bool -> string -> option rawelt.
  Variable fileLine : string -> option (list lineitem).
  Variable parseLineRanges : string -> option (list linerange).
  Variable parseTagRanges : string -> option (list tagrange).
  Variable target : ctxattrs -> val -> result string.
  Variable joinPath : string -> string -> string.
  Variable dirOf : string -> string.
  Variable absPath : string -> string -> string.
  Variable isAsciidoc : string -> bool.
  Variable dirOK : string -> bool.
  Variable readFile : string -> option string.
  Notation loop' := (loop parseLine fileLine parseLineRanges parseTagRanges target joinPath dirOf absPath isAsciidoc dirOK readFile).
  Notation preprocess' := (preprocess parseLine fileLine parseLineRanges parseTagRanges target joinPath dirOf absPath isAsciidoc dirOK readFile).

  (** ** C08 *)
  Lemma loop_events pre : forall lines cwd ctx b c t out offs cwd' before done,
    c = List.rev (stack_of before) -> b_enabled b = cEval c -> text_of b done ->
    loop' pre cwd ctx b c t lines = RDone (out, offs) cwd' ->
    exists evs texts,
      line_events parseLine (p_secs ctx) (p_attrs ctx, p_within ctx, t) lines evs /\
      visible before evs texts /\ out = join LF (done ++ texts).
  Proof.
    induction lines as [|l r IH]; intros cwd ctx b c t out offs cwd' before done HC HE HT H.
    - cbn in H. injection H as <- _ _. exists [], []. split; [constructor|]. split; [constructor|].
      rewrite app_nil_r. apply HT.
    - cbn [loop] in H.
      assert (SH : shown before <-> b_enabled b = true).
      { rewrite shown_stack, HE, HC, cEval_rev. reflexivity. }
      (* a line that writes [s] *)
      assert (W : forall s cwd1 ctx1 t1,
        p_secs ctx1 = p_secs ctx ->
        (p_attrs ctx1, p_within ctx1, t1) = line_state parseLine (p_secs ctx) (p_attrs ctx, p_within ctx, t) l ->
        line_event parseLine (p_secs ctx) (p_attrs ctx, p_within ctx, t) l (EvText s) ->
        loop' pre cwd1 ctx1 (bWrite b s) c t1 r = RDone (out, offs) cwd' ->
        exists evs texts,
          line_events parseLine (p_secs ctx) (p_attrs ctx, p_within ctx, t) (l :: r) evs /\
          visible before evs texts /\ out = join LF (done ++ texts)).
      { intros s cwd1 ctx1 t1 HS HL HV HR.
        assert (HC' : c = List.rev (stack_of (before ++ [EvText s]))).
        { unfold stack_of. rewrite fold_left_app. exact HC. }
        assert (HE' : b_enabled (bWrite b s) = cEval c) by (rewrite bWrite_enabled; exact HE).
        destruct (b_enabled b) eqn:EB.
        - assert (HT' : text_of (bWrite b s) (done ++ [s])) by (apply bWrite_on; auto).
          destruct (IH _ _ _ _ _ _ _ _ _ _ HC' HE' HT' HR) as (evs & texts & L & V & ->).
          exists (EvText s :: evs), (s :: texts). split; [constructor; auto|].
          { rewrite <- HL, <- HS. exact L. }
          split; [constructor; [now apply SH|exact V]|]. now rewrite <- app_assoc.
        - rewrite bWrite_off in HR, HE' by exact EB.
          destruct (IH _ _ _ _ _ _ _ _ _ _ HC' HE' HT HR) as (evs & texts & L & V & ->).
          exists (EvText s :: evs), texts. split; [constructor; auto|].
          { rewrite <- HL, <- HS. exact L. }
          split; [|reflexivity]. apply vis_hidden; [|exact V]. intros X. apply SH in X. discriminate. }
      destruct (parseLine (p_secs ctx) (p_within ctx) l) as [e|] eqn:PL.
      2:{ eapply W; [| | |exact H]; auto; unfold line_state, line_event; now rewrite PL. }
      destruct e as [n v|n|path attrs|cd| |k len|lvl].
      + eapply W; [| | |exact H]; auto; unfold line_state, line_event; now rewrite PL.
      + eapply W; [| | |exact H]; auto; unfold line_state, line_event; now rewrite PL.
      + destruct (includeFile _ _ _ _ _ _ _ _ _ _ _ _ _ _) as [[f offs'] d| | |]; try discriminate.
        eapply W; [| | |exact H]; auto; unfold line_state, line_event; rewrite PL; eauto.
      + destruct (singleLineContent cd) as [content|] eqn:SC.
        * destruct (evalCond (callAttributes (p_attrs ctx)) cd) eqn:EV.
          -- eapply W; [| | |exact H]; auto; unfold line_state, line_event; rewrite PL; auto.
             now rewrite SC, EV.
          -- assert (HC' : c = List.rev (stack_of (before ++ [EvNone]))).
             { unfold stack_of. rewrite fold_left_app. exact HC. }
             destruct (IH _ _ _ _ _ _ _ _ _ _ HC' HE HT H) as (evs & texts & L & V & ->).
             exists (EvNone :: evs), texts. split; [|split; [|reflexivity]].
             ++ constructor; unfold line_event, line_state; rewrite PL; [now rewrite SC, EV|exact L].
             ++ apply vis_other; [discriminate|exact V].
        * cbv zeta in H. set (v := evalCond (callAttributes (p_attrs ctx)) cd) in *.
          assert (HC' : cPush c v = List.rev (stack_of (before ++ [EvOpen v]))).
          { unfold stack_of. rewrite fold_left_app. cbn. unfold cPush. now rewrite HC. }
          assert (HT' : text_of (bEnable b (cEval (cPush c v))) done) by exact HT.
          destruct (IH cwd ctx (bEnable b (cEval (cPush c v))) (cPush c v) t out offs cwd' (before ++ [EvOpen v]) done HC' eq_refl HT' H) as (evs & texts & L & V & ->).
          exists (EvOpen v :: evs), texts. split; [|split; [|reflexivity]].
          -- constructor; unfold line_event, line_state; rewrite PL; [now rewrite SC|exact L].
          -- apply vis_other; [discriminate|exact V].
      + cbv zeta in H.
        assert (HC' : cPop c = List.rev (stack_of (before ++ [EvClose]))).
        { unfold stack_of. rewrite fold_left_app. cbn. unfold cPop. rewrite HC. apply removelast_rev. }
        assert (HT' : text_of (bEnable b (cEval (cPop c))) done) by exact HT.
        destruct (IH cwd ctx (bEnable b (cEval (cPop c))) (cPop c) t out offs cwd' (before ++ [EvClose]) done HC' eq_refl HT' H) as (evs & texts & L & V & ->).
        exists (EvClose :: evs), texts. split; [|split; [|reflexivity]].
        * constructor; unfold line_event, line_state; rewrite PL; [reflexivity|exact L].
        * apply vis_other; [discriminate|exact V].
      + eapply W; [| | |exact H]; auto; unfold line_state, line_event; now rewrite PL.
      + destruct (offsApply (p_offs ctx) (lvl, l)) as [[offs' s]| |]; try discriminate.
        eapply W; [| | |exact H]; auto; unfold line_state, line_event; rewrite PL; eauto.
  Qed.

  Lemma preprocess_events fuel cwd ctx source out offs cwd' :
    preprocess' fuel cwd ctx source = RDone (out, offs) cwd' ->
    exists evs texts,
      line_events parseLine (p_secs ctx) (p_attrs ctx, p_within ctx, []) (fst (scan source)) evs /\
      visible [] evs texts /\ out = join LF texts.
  Proof.
    destruct fuel as [|f]; [discriminate|]. cbn [preprocess]. intros H.
    refine (loop_events _ _ _ _ _ _ _ _ _ _ [] [] _ _ _ H); [reflexivity|reflexivity|].
    split; reflexivity.
  Qed.

  (** ** C09 *)
  Lemma region_skip pre secs ls : region parseLine secs ls -> forall cwd ctx b c1 c2 t rest,
    p_secs ctx = secs -> b_enabled b = false -> 
    loop' pre cwd ctx b (c1 ++ false :: c2) t (ls ++ rest) =
    loop' pre cwd ctx b (c1 ++ false :: c2) t rest.
  Proof.
    assert (EV : forall c1 c2, cEval (c1 ++ false :: c2) = false).
    { intros c1 c2. unfold cEval. rewrite forallb_app. cbn. apply andb_false_r. }
    induction 1 as [|l ls HP HR IH|o ls c ls' HO HR1 IH1 HCl HR2 IH2]; intros cwd ctx b c1 c2 t rest HS HE.
    - reflexivity.
    - cbn [app loop]. specialize (HP (p_within ctx)). rewrite <- HS in HP.
      destruct (parseLine (p_secs ctx) (p_within ctx) l) as [e|].
      + destruct e; try contradiction. destruct (singleLineContent c) as [content|]; [|congruence].
        destruct (evalCond _ c); [rewrite bWrite_off by exact HE|]; now apply IH.
      + rewrite bWrite_off by exact HE. now apply IH.
    - assert (BE : bEnable b false = b) by (destruct b; cbn in *; now subst).
      cbn [app loop]. destruct (HO (p_within ctx)) as (cd & PO & SC). rewrite <- HS in PO.
      rewrite PO, SC. cbv zeta. unfold cPush. rewrite <- app_assoc. cbn [app].
      rewrite EV, BE. rewrite <- app_assoc. cbn [app].
      rewrite (IH1 cwd ctx b c1 (c2 ++ [_]) t) by assumption.
      cbn [loop]. rewrite HS, (HCl (p_within ctx)). unfold cPop.
      assert (RL : forall x : bool, removelast (c1 ++ false :: c2 ++ [x]) = c1 ++ false :: c2).
      { intros x. change (c1 ++ false :: c2 ++ [x]) with (c1 ++ (false :: c2) ++ [x]).
        rewrite app_assoc. apply removelast_last. }
      rewrite RL, EV, BE. now apply IH2.
  Qed.

  Lemma region_removed pre pre_lines o ls cl post cwd ctx :
    let st := lines_state parseLine (p_secs ctx) (p_attrs ctx, p_within ctx, []) pre_lines in
    (exists cd, parseLine (p_secs ctx) (snd (fst st)) o = Some (RCond cd) /\
                singleLineContent cd = None /\ evalCond (callAttributes (fst (fst st))) cd = false) ->
    region parseLine (p_secs ctx) ls -> closes_region parseLine (p_secs ctx) cl ->
    forall b c t offs,
    let ctx0 := mkP (p_file ctx) (p_attrs ctx) offs (p_secs ctx) (p_within ctx) in
    b_enabled b = cEval c -> t = [] ->
    loop' pre cwd ctx0 b c t (pre_lines ++ o :: ls ++ cl :: post) =
    loop' pre cwd ctx0 b c t (pre_lines ++ post).
  Proof.
    intros st HO HR HCl b c t offs ctx0 HE HT. subst t.
    unfold st in HO. clear st. unfold ctx0. clear ctx0.
    assert (G : forall pre_lines file attrs within secs t offs cwd b c,
      (exists cd, let st := lines_state parseLine secs (attrs, within, t) pre_lines in
         parseLine secs (snd (fst st)) o = Some (RCond cd) /\
                singleLineContent cd = None /\ evalCond (callAttributes (fst (fst st))) cd = false) ->
      region parseLine secs ls -> closes_region parseLine secs cl ->
      b_enabled b = cEval c ->
      loop' pre cwd (mkP file attrs offs secs within) b c t (pre_lines ++ o :: ls ++ cl :: post) =
      loop' pre cwd (mkP file attrs offs secs within) b c t (pre_lines ++ post)).
    2:{ apply G; auto. }
    clear. induction pre_lines as [|l r IH]; intros file attrs within secs t offs cwd b c HO HR HCl HE.
    - cbn in HO. destruct HO as (cd & PO & SC & EV).
      cbn [app loop p_secs p_within p_attrs]. rewrite PO, SC. cbv zeta. rewrite EV. unfold cPush.
      assert (EF : cEval (c ++ [false]) = false).
      { unfold cEval. rewrite forallb_app. cbn. apply andb_false_r. }
      rewrite EF. rewrite (region_skip pre secs ls HR); [|reflexivity|reflexivity].
      cbn [loop p_secs p_within]. rewrite (HCl within). unfold cPop. rewrite removelast_last.
      rewrite <- HE. destruct b; reflexivity.
    - cbn [app loop p_secs p_within p_attrs].
      cbn [lines_state fold_left line_state] in HO.
      destruct (parseLine secs within l) as [e|] eqn:PL.
      2:{ apply IH; auto. now rewrite bWrite_enabled. }
      destruct e as [n v|n|path attrs0|cd| |k len|lvl]; cbn [p_file p_offs p_attrs].
      + apply IH; auto. now rewrite bWrite_enabled.
      + apply IH; auto. now rewrite bWrite_enabled.
      + destruct (includeFile _ _ _ _ _ _ _ _ _ _ _ _ _ _) as [[f offs'] d| | |]; try reflexivity.
        apply IH; auto. now rewrite bWrite_enabled.
      + destruct (singleLineContent cd) as [content|] eqn:SC.
        * apply IH; auto. destruct (evalCond _ cd); [now rewrite bWrite_enabled|exact HE].
        * cbv zeta. apply IH; auto.
      + cbv zeta. apply IH; auto.
      + apply IH; auto. now rewrite bWrite_enabled.
      + destruct (offsApply offs (lvl, l)) as [[offs' s]| |]; try reflexivity.
        apply IH; auto. now rewrite bWrite_enabled.
  Qed.

  Lemma disabled_region fuel cwd ctx s1 s2 pre_lines o ls cl post :
    fst (scan s1) = pre_lines ++ o :: ls ++ cl :: post ->
    fst (scan s2) = pre_lines ++ post ->
    (exists cd, let st := lines_state parseLine (p_secs ctx) (p_attrs ctx, p_within ctx, []) pre_lines in
       parseLine (p_secs ctx) (snd (fst st)) o = Some (RCond cd) /\
       singleLineContent cd = None /\ evalCond (callAttributes (fst (fst st))) cd = false) ->
    region parseLine (p_secs ctx) ls -> closes_region parseLine (p_secs ctx) cl ->
    preprocess' fuel cwd ctx s1 = preprocess' fuel cwd ctx s2.
  Proof.
    intros E1 E2 HO HR HC. destruct fuel as [|f]; [reflexivity|]. cbn [preprocess].
    rewrite E1, E2. destruct ctx as [file attrs offs secs within].
    apply (region_removed _ pre_lines o ls cl post cwd (mkP file attrs offs secs within)); auto.
  Qed.
End Pre.
