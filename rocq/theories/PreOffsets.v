(** Proofs for C11: level offsets over whole documents. *)
From Verif Require Import GoBase GoLemmas Types Attrs Context Cond Include Preprocess PreSpec PreLemmas InclLemmas PreMore.

(** an offset afterwards: the same, or an absolute one turned into a relative one *)
Definition evolve (o o' : offset) : Prop := o' = o \/ (off_abs o = true /\ off_abs o' = false).
Lemma evolve_refl l : Forall2 evolve l l.
Proof. induction l; constructor; [now left|assumption]. Qed.
Lemma evolve_trans a : forall b c, Forall2 evolve a b -> Forall2 evolve b c -> Forall2 evolve a c.
Proof.
  induction a as [|x a IH]; intros b c H1 H2; inversion H1 as [|? y ? b' A1 A2]; subst; inversion H2 as [|? z ? c' B1 B2]; subst; constructor.
  - unfold evolve in *. intuition congruence.
  - eapply IH; eauto.
Qed.
Lemma offsApply_evolve os : forall s os' t, offsApply os s = Ok (os', t) -> Forall2 evolve os os'.
Proof.
  induction os as [|o os IH]; intros s os' t; cbn [offsApply].
  - intros [= <- _]. constructor.
  - unfold offApply. destruct (offsetLevel s _) as [s'| |]; try discriminate. cbn [bind].
    destruct (offsApply os s') as [[r raw]| |] eqn:E; try discriminate. cbn [bind]. intros [= <- _].
    constructor; [|eapply IH; exact E]. destruct o as [[] v]; cbn; [right; auto|now left].
Qed.
Lemma evolve_relative os : forall l, Forall2 evolve (map (mkOff false) os) l -> l = map (mkOff false) os.
Proof.
  induction os as [|o os IH]; intros l H; inversion H as [|? y ? r H1 H2]; subst; [reflexivity|].
  destruct H1 as [->|[E _]]; [|discriminate]. cbn. f_equal. now apply IH.
Qed.
Lemma evolve_firstn a b l : Forall2 evolve (a ++ b) l -> Forall2 evolve a (firstn (List.length a) l).
Proof.
  revert l. induction a as [|x a IH]; intros l H; [constructor|].
  inversion H as [|? y ? r H1 H2]; subst. cbn. constructor; [exact H1|now apply IH].
Qed.

(** a successful move *)
Lemma offsetLevel_ok l o title s : offsetLevel (l, heading l title) o = Ok s ->
  (-1 <= l)%Z /\ (-1 <= l + o)%Z /\ s = ((l + o)%Z, heading (l + o) title).
Proof.
  intros H. assert (B : (-1 <= l /\ -1 <= l + o)%Z).
  { unfold offsetLevel, repeat_eq in H. destruct (Z.ltb_spec (l + 1) 0); [discriminate|].
    destruct (Z.ltb_spec (l + 1 + o) 0); [discriminate|]. lia. }
  destruct B as [B1 B2]. rewrite offsetLevel_heading in H by assumption. injection H as <-. auto.
Qed.
Lemma offsApply_relative_ok os : forall l title os' t,
  offsApply (map (mkOff false) os) (l, heading l title) = Ok (os', t) -> t = heading (l + zsum os) title.
Proof.
  induction os as [|o os IH]; intros l title os' t; cbn [map offsApply].
  - intros [= _ <-]. cbn. now rewrite Z.add_0_r.
  - unfold offApply. cbn [off_abs off_val]. destruct (offsetLevel _ o) as [s'| |] eqn:E; try discriminate. cbn [bind].
    apply offsetLevel_ok in E. destruct E as (_ & _ & ->).
    destruct (offsApply (map (mkOff false) os) _) as [[r raw]| |] eqn:E; try discriminate. cbn [bind]. intros [= _ <-].
    apply IH in E. rewrite E. f_equal. unfold zsum. cbn [fold_right]. lia.
Qed.
(** an offset list with an absolute offset never occurs behind relative ones *)
Lemma offsApply_absolute_ok n l title os' t :
  offsApply [mkOff true n] (l, heading l title) = Ok (os', t) -> t = heading n title /\ os' = [mkOff false (n - l)].
Proof.
  cbn [offsApply]. unfold offApply. cbn [off_abs off_val fst]. destruct (offsetLevel _ (n - l)) as [s'| |] eqn:E; try discriminate. cbn [bind].
  apply offsetLevel_ok in E. destruct E as (_ & _ & ->). cbn [snd]. intros [= <- <-]. split; [|reflexivity]. f_equal. lia.
Qed.

Section Pre.
  Variable parseLine : bool -> bool -> string -> option rawelt.
  Variable fileLine : string -> option (list lineitem).
  Variable parseLineRanges : string -> option (list linerange).
  Variable parseTagRanges : string -> option (list tagrange).
  Variable target : ctxattrs -> val -> result string.
  Variable joinPath : string -> string -> string.
  Variable dirOf : string -> string.
  Variable absPath : string -> string -> string.
  Variable isAsciidoc : string -> bool.
  Variable dirOK : string -> bool.
  Variable readFile : string -> option string.
  Notation loop' := (loop parseLine fileLine parseLineRanges parseTagRanges target joinPath dirOf absPath isAsciidoc dirOK readFile).
  Notation preprocess' := (preprocess parseLine fileLine parseLineRanges parseTagRanges target joinPath dirOf absPath isAsciidoc dirOK readFile).
  Notation includeFile' := (includeFile fileLine parseLineRanges parseTagRanges target joinPath dirOf absPath isAsciidoc dirOK readFile).
  Notation contentOf' := (contentOf fileLine parseLineRanges parseTagRanges joinPath dirOf absPath isAsciidoc dirOK readFile).

  Definition evolves (pre : string -> pctx -> string -> run (string * list offset)) : Prop :=
    forall cwd ctx s out offs d, pre cwd ctx s = RDone (out, offs) d -> Forall2 evolve (p_offs ctx) offs.

  Lemma includeFile_evolve pre cwd ctx path attrs f offs d : evolves pre ->
    includeFile' pre cwd ctx path attrs = RDone (f, offs) d -> Forall2 evolve (p_offs ctx) offs.
  Proof.
    intros HP. unfold includeFile. destruct (target (p_attrs ctx) path) as [p| |]; try discriminate.
    destruct (contentOf' cwd ctx p attrs) as [[[content adoc] ctx'] d'| | |] eqn:EC; try discriminate.
    destruct adoc; cbn [negb]; [|intros [= _ <- _]; apply evolve_refl].
    match goal with |- context[pre d' ?c content] => destruct (pre d' c content) as [[out offs'] d''| | |] eqn:EP; try discriminate end.
    intros [= _ <- _]. apply HP in EP. cbn [p_offs] in EP. unfold shared_back.
    destruct (getAsString attrs "leveloffset") as [k|] eqn:K.
    - destruct (contentOf_offset _ _ _ _ _ _ _ _ _ _ _ _ _ _ _ _ _ _ EC K) as (z & _ & E). rewrite E in EP.
      destruct (has_prefix k "+" || has_prefix k "-"); [|apply evolve_refl]. eapply evolve_firstn; exact EP.
    - rewrite (contentOf_no_offset _ _ _ _ _ _ _ _ _ _ _ _ _ _ _ _ _ EC K) in EP. exact EP.
  Qed.
  Lemma loop_evolve pre lines : evolves pre -> forall cwd ctx b c t out offs d,
    loop' pre cwd ctx b c t lines = RDone (out, offs) d -> Forall2 evolve (p_offs ctx) offs.
  Proof.
    intros HP. induction lines as [|l r IH]; intros cwd ctx b c t out offs d; cbn [loop].
    - intros [= _ <- _]. apply evolve_refl.
    - destruct (parseLine (p_secs ctx) (p_within ctx) l) as [e|]; [|apply IH].
      destruct e as [n v|n|path attrs|cd| |k len|lvl].
      + intros H. apply IH in H. exact H.
      + intros H. apply IH in H. exact H.
      + destruct (includeFile' pre cwd (pclone ctx) path attrs) as [[f offs'] d'| | |] eqn:EI; try discriminate.
        apply includeFile_evolve in EI; [|exact HP]. intros H. apply IH in H. eapply evolve_trans; [exact EI|exact H].
      + destruct (singleLineContent cd); apply IH.
      + apply IH.
      + intros H. apply IH in H. exact H.
      + destruct (offsApply (p_offs ctx) (lvl, l)) as [[offs' s]| |] eqn:EO; try discriminate.
        apply offsApply_evolve in EO. intros H. apply IH in H. eapply evolve_trans; [exact EO|exact H].
  Qed.
  Lemma preprocess_evolve fuel : evolves (preprocess' fuel).
  Proof.
    induction fuel as [|f IH]; intros cwd ctx s out offs d; cbn [preprocess]; [discriminate|]. now apply loop_evolve.
  Qed.

  (** the events of a document under an offset [m]: a heading line [l] of level [lvl] gets the text [s] only if it is moved so *)
  Lemma loop_events_moved pre d0 (Inv : list offset -> Prop) offs : evolves pre ->
    (forall os os' lvl l s, Inv os -> offsApply os (lvl, l) = Ok (os', s) -> Forall2 evolve os' offs ->
       Inv os' /\ forall title, l = heading lvl title -> s = heading (lvl + d0) title) ->
    (forall os os', Inv os -> Forall2 evolve os os' -> Forall2 evolve os' offs -> Inv os') ->
    forall lines cwd ctx b c t out cwd' before done, Inv (p_offs ctx) ->
    c = List.rev (stack_of before) -> b_enabled b = cEval c -> text_of b done ->
    loop' pre cwd ctx b c t lines = RDone (out, offs) cwd' ->
    Inv offs /\ exists evs texts,
      line_events_moved parseLine (p_secs ctx) d0 (p_attrs ctx, p_within ctx, t) lines evs /\
      visible before evs texts /\ out = join LF (done ++ texts).
  Proof.
    intros HP I1 I2. induction lines as [|l r IH]; intros cwd ctx b c t out cwd' before done HI HC HE HT H.
    - cbn in H. injection H as <- <- _. split; [exact HI|]. exists [], []. split; [constructor|]. split; [constructor|].
      rewrite app_nil_r. apply HT.
    - cbn [loop] in H.
      assert (SH : shown before <-> b_enabled b = true).
      { rewrite shown_stack, HE, HC, cEval_rev. reflexivity. }
      assert (W : forall s cwd1 ctx1 t1, Inv (p_offs ctx1) ->
        p_secs ctx1 = p_secs ctx ->
        (p_attrs ctx1, p_within ctx1, t1) = line_state parseLine (p_secs ctx) (p_attrs ctx, p_within ctx, t) l ->
        line_event parseLine (p_secs ctx) (p_attrs ctx, p_within ctx, t) l (EvText s) ->
        moved_by parseLine (p_secs ctx) d0 (p_within ctx) l (EvText s) ->
        loop' pre cwd1 ctx1 (bWrite b s) c t1 r = RDone (out, offs) cwd' ->
        Inv offs /\ exists evs texts,
          line_events_moved parseLine (p_secs ctx) d0 (p_attrs ctx, p_within ctx, t) (l :: r) evs /\
          visible before evs texts /\ out = join LF (done ++ texts)).
      { intros s cwd1 ctx1 t1 HI1 HS HL HV HM HR.
        assert (HC' : c = List.rev (stack_of (before ++ [EvText s]))).
        { unfold stack_of. rewrite fold_left_app. exact HC. }
        assert (HE' : b_enabled (bWrite b s) = cEval c) by (rewrite bWrite_enabled; exact HE).
        destruct (b_enabled b) eqn:EB.
        - assert (HT' : text_of (bWrite b s) (done ++ [s])) by (apply bWrite_on; auto).
          destruct (IH _ _ _ _ _ _ _ _ _ HI1 HC' HE' HT' HR) as (HI' & evs & texts & L & V & ->).
          split; [exact HI'|]. exists (EvText s :: evs), (s :: texts). split; [constructor; auto|].
          { rewrite <- HL, <- HS. exact L. }
          split; [constructor; [now apply SH|exact V]|]. now rewrite <- app_assoc.
        - rewrite bWrite_off in HR, HE' by exact EB.
          destruct (IH _ _ _ _ _ _ _ _ _ HI1 HC' HE' HT HR) as (HI' & evs & texts & L & V & ->).
          split; [exact HI'|]. exists (EvText s :: evs), texts. split; [constructor; auto|].
          { rewrite <- HL, <- HS. exact L. }
          split; [|reflexivity]. apply vis_hidden; [|exact V]. intros X. apply SH in X. discriminate. }
      assert (NM : (forall lvl, parseLine (p_secs ctx) (p_within ctx) l <> Some (RSection lvl)) ->
                   forall e, moved_by parseLine (p_secs ctx) d0 (p_within ctx) l e).
      { intros N e lvl title P. destruct (N _ P). }
      destruct (parseLine (p_secs ctx) (p_within ctx) l) as [e|] eqn:PL.
      2:{ eapply W; [| | | | |exact H]; auto; [| |apply NM; discriminate]; unfold line_state, line_event; now rewrite PL. }
      destruct e as [n v|n|path attrs|cd| |k len|lvl].
      + eapply W; [| | | | |exact H]; auto; [| |apply NM; discriminate]; unfold line_state, line_event; now rewrite PL.
      + eapply W; [| | | | |exact H]; auto; [| |apply NM; discriminate]; unfold line_state, line_event; now rewrite PL.
      + destruct (includeFile' pre cwd (pclone ctx) path attrs) as [[f offs'] d| | |] eqn:EI; try discriminate.
        eapply W; [| | | | |exact H]; auto; [| | |apply NM; discriminate].
        * apply (I2 (p_offs ctx)); [exact HI| |].
          -- eapply (includeFile_evolve pre cwd (pclone ctx)); [exact HP|exact EI].
          -- eapply loop_evolve in H; [|exact HP]. exact H.
        * unfold line_state, line_event; rewrite PL; eauto.
        * unfold line_state, line_event; rewrite PL; eauto.
      + destruct (singleLineContent cd) as [content|] eqn:SC.
        * destruct (evalCond (callAttributes (p_attrs ctx)) cd) eqn:EV.
          -- eapply W; [| | | | |exact H]; auto; [| |apply NM; discriminate]; unfold line_state, line_event; rewrite PL; auto.
             now rewrite SC, EV.
          -- assert (HC' : c = List.rev (stack_of (before ++ [EvNone]))).
             { unfold stack_of. rewrite fold_left_app. exact HC. }
             destruct (IH _ _ _ _ _ _ _ _ _ HI HC' HE HT H) as (HI' & evs & texts & L & V & ->).
             split; [exact HI'|]. exists (EvNone :: evs), texts. split; [|split; [|reflexivity]].
             ++ constructor; [|apply NM; discriminate|]; unfold line_event, line_state; rewrite PL; [now rewrite SC, EV|exact L].
             ++ apply vis_other; [discriminate|exact V].
        * cbv zeta in H. set (v := evalCond (callAttributes (p_attrs ctx)) cd) in *.
          assert (HC' : cPush c v = List.rev (stack_of (before ++ [EvOpen v]))).
          { unfold stack_of. rewrite fold_left_app. cbn. unfold cPush. now rewrite HC. }
          assert (HT' : text_of (bEnable b (cEval (cPush c v))) done) by exact HT.
          destruct (IH cwd ctx (bEnable b (cEval (cPush c v))) (cPush c v) t out cwd' (before ++ [EvOpen v]) done HI HC' eq_refl HT' H) as (HI' & evs & texts & L & V & ->).
          split; [exact HI'|]. exists (EvOpen v :: evs), texts. split; [|split; [|reflexivity]].
          -- constructor; [|apply NM; discriminate|]; unfold line_event, line_state; rewrite PL; [now rewrite SC|exact L].
          -- apply vis_other; [discriminate|exact V].
      + cbv zeta in H.
        assert (HC' : cPop c = List.rev (stack_of (before ++ [EvClose]))).
        { unfold stack_of. rewrite fold_left_app. cbn. unfold cPop. rewrite HC. apply removelast_rev. }
        assert (HT' : text_of (bEnable b (cEval (cPop c))) done) by exact HT.
        destruct (IH cwd ctx (bEnable b (cEval (cPop c))) (cPop c) t out cwd' (before ++ [EvClose]) done HI HC' eq_refl HT' H) as (HI' & evs & texts & L & V & ->).
        split; [exact HI'|]. exists (EvClose :: evs), texts. split; [|split; [|reflexivity]].
        * constructor; [|apply NM; discriminate|]; unfold line_event, line_state; rewrite PL; [reflexivity|exact L].
        * apply vis_other; [discriminate|exact V].
      + eapply W; [| | | | |exact H]; auto; [| |apply NM; discriminate]; unfold line_state, line_event; now rewrite PL.
      + destruct (offsApply (p_offs ctx) (lvl, l)) as [[offs' s]| |] eqn:EO; try discriminate.
        pose proof (loop_evolve _ _ HP _ _ _ _ _ _ _ _ H) as EV. cbn [p_offs] in EV. destruct (I1 _ _ _ _ _ HI EO EV) as [HI1 HM].
        eapply W; [| | | | |exact H]; auto; try (unfold line_state, line_event; rewrite PL; eauto; fail).
        intros lvl' title PL' EL. rewrite PL in PL'. injection PL' as <-. f_equal. now apply HM.
  Qed.

  Lemma moved_relative fuel cwd ctx source os out offs d :
    p_offs ctx = map (mkOff false) os ->
    preprocess' fuel cwd ctx source = RDone (out, offs) d ->
    offs = p_offs ctx /\ exists evs texts,
      line_events_moved parseLine (p_secs ctx) (zsum os) (p_attrs ctx, p_within ctx, []) (fst (scan source)) evs /\
      visible [] evs texts /\ out = join LF texts.
  Proof.
    destruct fuel as [|f]; [discriminate|]. cbn [preprocess]. intros HO H. rewrite HO.
    refine (loop_events_moved _ (zsum os) (fun x => x = map (mkOff false) os) _ (preprocess_evolve f) _ _ _ _ _ _ _ _ _ _ [] [] HO _ _ _ H); try reflexivity.
    - intros x x' lvl l s -> E _. split.
      + apply evolve_relative. eapply offsApply_evolve; exact E.
      + intros title ->. eapply offsApply_relative_ok; exact E.
    - intros x x' -> E _. now apply evolve_relative.
    - split; reflexivity.
  Qed.

  (** lines before the first heading leave the offsets alone *)
  Lemma loop_no_heading pre a : forall cwd ctx b c t, Forall (no_heading parseLine (p_secs ctx)) a ->
    exists b' c' t' ctx', p_offs ctx' = p_offs ctx /\ p_secs ctx' = p_secs ctx /\
      (p_attrs ctx', p_within ctx', t') = lines_state parseLine (p_secs ctx) (p_attrs ctx, p_within ctx, t) a /\
      forall rest, loop' pre cwd ctx b c t (a ++ rest) = loop' pre cwd ctx' b' c' t' rest.
  Proof.
    induction a as [|l a IH]; intros cwd ctx b c t F.
    - exists b, c, t, ctx. auto.
    - inversion F as [|? ? F1 F2]; subst. specialize (F1 (p_within ctx)). cbn [lines_state fold_left app loop]. unfold line_state at 2.
      destruct (parseLine (p_secs ctx) (p_within ctx) l) as [e|]; [|now apply IH].
      destruct e as [n v|n|path attrs|cd| |k len|lvl]; try contradiction.
      + destruct (IH cwd (mkP (p_file ctx) (cset (p_attrs ctx) n v) (p_offs ctx) (p_secs ctx) (p_within ctx)) (bWrite b l) c t F2) as (b' & c' & t' & ctx' & A & B & C & D).
        exists b', c', t', ctx'. auto.
      + destruct (IH cwd (mkP (p_file ctx) (cunset (p_attrs ctx) n) (p_offs ctx) (p_secs ctx) (p_within ctx)) (bWrite b l) c t F2) as (b' & c' & t' & ctx' & A & B & C & D).
        exists b', c', t', ctx'. auto.
      + destruct (singleLineContent cd); now apply IH.
      + now apply IH.
      + destruct (IH cwd (mkP (p_file ctx) (p_attrs ctx) (p_offs ctx) (p_secs ctx) (withinDelimitedBlock (track t k len))) (bWrite b l) c (track t k len) F2) as (b' & c' & t' & ctx' & A & B & C & D).
        exists b', c', t', ctx'. auto.
  Qed.

  Lemma evolve_absolute n offs : Forall2 evolve [mkOff true n] offs -> offs = [mkOff true n] \/ exists d, offs = [mkOff false d].
  Proof.
    intros H. inversion H as [|? y ? r H1 H2]; subst. inversion H2; subst. destruct H1 as [->|[_ E]]; [auto|].
    destruct y as [[] v]; [discriminate|eauto].
  Qed.
  Lemma evolve_one_relative x offs : Forall2 evolve [mkOff false x] offs -> offs = [mkOff false x].
  Proof. exact (evolve_relative [x] offs). Qed.

  Lemma moved_absolute fuel cwd ctx source n out offs cwd' :
    p_offs ctx = [mkOff true n] ->
    preprocess' fuel cwd ctx source = RDone (out, offs) cwd' ->
    exists d, 
      (forall a l r lvl, fst (scan source) = a ++ l :: r -> Forall (no_heading parseLine (p_secs ctx)) a ->
         parseLine (p_secs ctx) (snd (fst (lines_state parseLine (p_secs ctx) (p_attrs ctx, p_within ctx, []) a))) l = Some (RSection lvl) ->
         d = (n - lvl)%Z) /\
      exists evs texts,
      line_events_moved parseLine (p_secs ctx) d (p_attrs ctx, p_within ctx, []) (fst (scan source)) evs /\
      visible [] evs texts /\ out = join LF texts.
  Proof.
    destruct fuel as [|f]; [discriminate|]. cbn [preprocess]. intros HO H.
    pose proof (loop_evolve _ _ (preprocess_evolve f) _ _ _ _ _ _ _ _ H) as EV. rewrite HO in EV.
    assert (FIRST : forall a l r lvl, fst (scan source) = a ++ l :: r -> Forall (no_heading parseLine (p_secs ctx)) a ->
         parseLine (p_secs ctx) (snd (fst (lines_state parseLine (p_secs ctx) (p_attrs ctx, p_within ctx, []) a))) l = Some (RSection lvl) ->
         offs = [mkOff false (n - lvl)]).
    { intros a l r lvl E F P. rewrite E in H.
      destruct (loop_no_heading (preprocess' f) a cwd ctx (mkB "" false true) [] [] F) as (b' & c' & t' & ctx' & A & B & C & D).
      rewrite D in H. unfold tracker, lstate in *. rewrite <- C in P. cbn [fst snd] in P. cbn [loop] in H. rewrite B, P, A, HO in H.
      destruct (offsApply [mkOff true n] (lvl, l)) as [[os' s]| |] eqn:EO; try discriminate.
      apply (loop_evolve _ _ (preprocess_evolve f)) in H. cbn [p_offs] in H.
      cbn [offsApply] in EO. unfold offApply in EO. cbn [off_abs off_val fst] in EO.
      destruct (offsetLevel (lvl, l) (n - lvl)) as [s'| |]; try discriminate. cbn in EO. injection EO as <- _.
      now apply evolve_one_relative. }
    assert (T0 : text_of (mkB "" false true) []) by (split; reflexivity).
    destruct (evolve_absolute _ _ EV) as [->|(d & ->)].
    - exists 0%Z. split.
      + intros a l r lvl E F P. specialize (FIRST a l r lvl E F P). discriminate.
      + refine (proj2 (loop_events_moved _ 0%Z (fun x => x = [mkOff true n]) _ (preprocess_evolve f) _ _ _ _ _ _ _ _ _ _ [] [] HO _ _ T0 H)); try reflexivity.
        * intros x x' lvl l s -> E EV'. exfalso. cbn [offsApply] in E. unfold offApply in E. cbn [off_abs off_val fst] in E.
          destruct (offsetLevel (lvl, l) (n - lvl)) as [s'| |]; try discriminate. cbn in E. injection E as <- _.
          apply evolve_one_relative in EV'. discriminate.
        * intros x x' -> E EV'. destruct (evolve_absolute _ _ E) as [->|(d & ->)]; [reflexivity|]. apply evolve_one_relative in EV'. discriminate.
    - exists d. split.
      + intros a l r lvl E F P. specialize (FIRST a l r lvl E F P). congruence.
      + refine (proj2 (loop_events_moved _ d (fun x => x = [mkOff true n] \/ x = [mkOff false d]) _ (preprocess_evolve f) _ _ _ _ _ _ _ _ _ _ [] [] (or_introl HO) _ _ T0 H)); try reflexivity.
        * intros x x' lvl l s [->| ->] E EV'.
          -- pose proof E as E'. cbn [offsApply] in E'. unfold offApply in E'. cbn [off_abs off_val fst] in E'.
             destruct (offsetLevel (lvl, l) (n - lvl)) as [s'| |]; try discriminate. cbn in E'. injection E' as <- _.
             apply evolve_one_relative in EV'. injection EV' as ->. split; [now right|].
             intros title ->. apply offsApply_absolute_ok in E. destruct E as [-> _]. f_equal. lia.
          -- assert (X : x' = [mkOff false d]) by (apply evolve_one_relative; eapply offsApply_evolve; exact E). split; [now right|].
             intros title ->. apply (offsApply_relative_ok [d]) in E. rewrite E. f_equal. unfold zsum. cbn [fold_right]. lia.
        * intros x x' [->| ->] E EV'; [|right; now apply evolve_one_relative].
          destruct (evolve_absolute _ _ E) as [->|(d' & ->)]; [now left|]. right. now apply evolve_one_relative in EV'.
  Qed.
End Pre.
