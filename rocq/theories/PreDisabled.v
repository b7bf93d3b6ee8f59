(** Proofs for C09: a disabled region is processed like an enabled one, but not emitted. *)
From Verif Require Import GoBase GoLemmas Types Attrs Context Cond Include Preprocess PreSpec PreLemmas.

Section Pre.
  Variable parseLine : bool -> bool -> string -> option rawelt.
  Variable fileLine : string -> option (list lineitem).
  Variable parseLineRanges : string -> option (list linerange).
  Variable parseTagRanges : string -> option (list tagrange).
  Variable target : ctxattrs -> val -> result string.
  Variable joinPath : string -> string -> string.
  Variable dirOf : string -> string.
  Variable absPath : string -> string -> string.
  Variable isAsciidoc : string -> bool.
  Variable dirOK : string -> bool.
  Variable readFile : string -> option string.
  Notation loop' := (loop parseLine fileLine parseLineRanges parseTagRanges target joinPath dirOf absPath isAsciidoc dirOK readFile).
  Notation preprocess' := (preprocess parseLine fileLine parseLineRanges parseTagRanges target joinPath dirOf absPath isAsciidoc dirOK readFile).

  Definition failed {A} (r : run A) : Prop := match r with RDone _ _ => False | _ => True end.

  (** one line moves on to the rest, or fails whatever follows.  [w]: the text written, if any; [k]: what happens to the conditions *)
  Inductive change := Same | Push (v : bool) | Pop.
  Definition changed (k : change) (c : conditions) : conditions :=
    match k with Same => c | Push v => cPush c v | Pop => cPop c end.
  Definition written (w : option string) (b : builder) : builder := match w with Some s => bWrite b s | None => b end.
  Definition relay (k : change) (c : conditions) (b : builder) : builder :=
    match k with Same => b | _ => bEnable b (cEval (changed k c)) end.

  Lemma loop_step pre cwd ctx t l :
    (exists cwd' ctx' t' w k, p_secs ctx' = p_secs ctx /\
       (p_attrs ctx', p_within ctx', t') = line_state parseLine (p_secs ctx) (p_attrs ctx, p_within ctx, t) l /\
       (k <> Same -> w = None) /\
       k = match parseLine (p_secs ctx) (p_within ctx) l with
           | Some (RCond cd) => match singleLineContent cd with Some _ => Same | None => Push (evalCond (callAttributes (p_attrs ctx)) cd) end
           | Some REnd => Pop
           | _ => Same
           end /\
       forall b c rest, loop' pre cwd ctx b c t (l :: rest) = loop' pre cwd' ctx' (relay k c (written w b)) (changed k c) t' rest) \/
    (exists f, failed f /\ forall b c rest, loop' pre cwd ctx b c t (l :: rest) = f).
  Proof.
    cbn [loop]. unfold line_state. destruct (parseLine (p_secs ctx) (p_within ctx) l) as [e|] eqn:PL.
    2:{ left. exists cwd, ctx, t, (Some l), Same. repeat split; auto; congruence. }
    destruct e as [n v|n|path attrs|cd| |k len|lvl].
    - left. eexists cwd, _, t, (Some l), Same. split; [|split; [|split; [|split; [reflexivity|reflexivity]]]]; [reflexivity..|congruence].
    - left. eexists cwd, _, t, (Some l), Same. split; [|split; [|split; [|split; [reflexivity|reflexivity]]]]; [reflexivity..|congruence].
    - destruct (includeFile _ _ _ _ _ _ _ _ _ _ _ _ _ _) as [[f offs'] d|m d|m d|].
      + left. eexists d, _, t, (Some f), Same. split; [|split; [|split; [|split; [reflexivity|reflexivity]]]]; [reflexivity..|congruence].
      + right. eexists. split; [|reflexivity]. exact I.
      + right. eexists. split; [|reflexivity]. exact I.
      + right. eexists. split; [|reflexivity]. exact I.
    - left. destruct (singleLineContent cd) as [content|].
      + destruct (evalCond (callAttributes (p_attrs ctx)) cd).
        * exists cwd, ctx, t, (Some content), Same. repeat split; auto; congruence.
        * exists cwd, ctx, t, None, Same. repeat split; auto; congruence.
      + eexists cwd, ctx, t, None, _. repeat split; auto.
    - left. exists cwd, ctx, t, None, Pop. repeat split; auto.
    - left. eexists cwd, _, _, (Some l), Same. split; [|split; [|split; [|split; [reflexivity|reflexivity]]]]; [reflexivity..|congruence].
    - destruct (offsApply (p_offs ctx) (lvl, l)) as [[offs' s]|m|m].
      + left. eexists cwd, _, t, (Some s), Same. split; [|split; [|split; [|split; [reflexivity|reflexivity]]]]; [reflexivity..|congruence].
      + right. eexists. split; [|reflexivity]. exact I.
      + right. eexists. split; [|reflexivity]. exact I.
  Qed.

  Lemma written_text w b done : text_of b done -> exists more, text_of (written w b) (done ++ more) /\ b_enabled (written w b) = b_enabled b /\
    (b_enabled b = false -> more = []) .
  Proof.
    intros T. destruct w as [s|]; cbn [written].
    - destruct (b_enabled b) eqn:E.
      + exists [s]. split; [now apply bWrite_on|]. split; [now rewrite bWrite_enabled|discriminate].
      + exists []. rewrite app_nil_r, bWrite_off by exact E. auto.
    - exists []. rewrite app_nil_r. auto.
  Qed.

  (** a beginning of the document *)
  Lemma loop_run pre before : forall cwd ctx b c t done, b_enabled b = cEval c -> text_of b done ->
    (exists cwd' ctx' b' c' t' more, p_secs ctx' = p_secs ctx /\ b_enabled b' = cEval c' /\ text_of b' (done ++ more) /\
       (p_attrs ctx', p_within ctx', t') = lines_state parseLine (p_secs ctx) (p_attrs ctx, p_within ctx, t) before /\
       forall rest, loop' pre cwd ctx b c t (before ++ rest) = loop' pre cwd' ctx' b' c' t' rest) \/
    (exists f, failed f /\ forall rest, loop' pre cwd ctx b c t (before ++ rest) = f).
  Proof.
    induction before as [|l before IH]; intros cwd ctx b c t done HE HT.
    - left. exists cwd, ctx, b, c, t, []. rewrite app_nil_r. repeat split; auto; apply HT.
    - destruct (loop_step pre cwd ctx t l) as [(cwd1 & ctx1 & t1 & w & k & S1 & L1 & WN & _ & E1)|(f & F & E1)].
      2:{ right. exists f. split; [exact F|]. intros rest. apply E1. }
      destruct (written_text w b done HT) as (m1 & T1 & EN1 & _).
      assert (HE1 : b_enabled (relay k c (written w b)) = cEval (changed k c)) by (destruct k; cbn; [now rewrite EN1| |]; reflexivity).
      assert (HT1 : text_of (relay k c (written w b)) (done ++ m1)) by (destruct k; exact T1).
      destruct (IH cwd1 ctx1 _ (changed k c) t1 _ HE1 HT1) as [(cwd2 & ctx2 & b2 & c2 & t2 & m2 & S2 & EN2 & T2 & L2 & E2)|(f & F & E2)].
      + left. exists cwd2, ctx2, b2, c2, t2, (m1 ++ m2). split; [congruence|]. split; [exact EN2|]. split; [now rewrite app_assoc|]. split.
        * cbn [lines_state fold_left]. rewrite <- L1, <- S1. exact L2.
        * intros rest. cbn [app]. rewrite E1. apply E2.
      + right. exists f. split; [exact F|]. intros rest. cbn [app]. rewrite E1. apply E2.
  Qed.

  Lemma cEval_false c x : cEval (c ++ false :: x) = false.
  Proof. unfold cEval. rewrite forallb_app. cbn. apply andb_false_r. Qed.

  (** both ways through a balanced region *)
  Lemma lockstep pre secs ls : balanced parseLine secs ls -> forall cwd ctx t, p_secs ctx = secs ->
    (exists cwd' ctx' t' (F : builder -> conditions -> builder), p_secs ctx' = secs /\
       (forall b c rest, loop' pre cwd ctx b c t (ls ++ rest) = loop' pre cwd' ctx' (F b c) c t' rest) /\
       (forall b c x, b_enabled b = false -> F b (c ++ false :: x) = b) /\
       (forall b c done, b_enabled b = cEval c -> text_of b done ->
          exists more, b_enabled (F b c) = cEval c /\ text_of (F b c) (done ++ more))) \/
    (exists f, failed f /\ forall b c rest, loop' pre cwd ctx b c t (ls ++ rest) = f).
  Proof.
    induction 1 as [|l ls HL HB IH|o ls cl ls' HO HB1 IH1 HC HB2 IH2]; intros cwd ctx t HS.
    - left. exists cwd, ctx, t, (fun b _ => b). split; [exact HS|]. split; [reflexivity|]. split; [reflexivity|].
      intros b c done E T. exists []. rewrite app_nil_r. auto.
    - destruct (loop_step pre cwd ctx t l) as [(cwd1 & ctx1 & t1 & w & k & S1 & _ & _ & K & E1)|(f & F & E1)].
      2:{ right. exists f. split; [exact F|]. intros b c rest. apply E1. }
      assert (KS : k = Same).
      { specialize (HL (p_within ctx)). rewrite K, HS. destruct (parseLine secs (p_within ctx) l) as [[]|]; try reflexivity; try contradiction.
        destruct (singleLineContent c); [reflexivity|congruence]. }
      clear K. subst k. cbn [relay changed] in E1.
      destruct (IH cwd1 ctx1 t1 ltac:(congruence)) as [(cwd2 & ctx2 & t2 & F & S2 & L & A & B)|(f & F & A)].
      + left. exists cwd2, ctx2, t2, (fun b c => F (written w b) c). split; [exact S2|]. split; [|split].
        * intros b c rest. cbn [app]. now rewrite E1.
        * intros b c x E. replace (written w b) with b; [now apply A|].
          destruct w; cbn; [now rewrite bWrite_off|reflexivity].
        * intros b c done E T. destruct (written_text w b done T) as (m1 & T1 & EN1 & _).
          destruct (B (written w b) c (done ++ m1) ltac:(congruence) T1) as (m2 & E' & T').
          exists (m1 ++ m2). split; [exact E'|]. now rewrite app_assoc.
      + right. exists f. split; [exact F|]. intros b c rest. cbn [app]. rewrite E1. apply A.
    - destruct (HO (p_within ctx)) as (cd & PO & SC).
      assert (EO : forall b c rest, loop' pre cwd ctx b c t (o :: rest) =
        loop' pre cwd ctx (bEnable b (cEval (cPush c (evalCond (callAttributes (p_attrs ctx)) cd)))) (cPush c (evalCond (callAttributes (p_attrs ctx)) cd)) t rest).
      { intros b c rest. cbn [loop]. rewrite HS, PO, SC. reflexivity. }
      set (v := evalCond (callAttributes (p_attrs ctx)) cd) in *.
      destruct (IH1 cwd ctx t HS) as [(cwd1 & ctx1 & t1 & F1 & S1 & L1 & A1 & B1)|(f & F & A1)].
      2:{ right. exists f. split; [exact F|]. intros b c rest. cbn [app]. rewrite EO, <- app_assoc. apply A1. }
      assert (EC : forall b c rest, loop' pre cwd1 ctx1 b c t1 (cl :: rest) = loop' pre cwd1 ctx1 (bEnable b (cEval (cPop c))) (cPop c) t1 rest).
      { intros b c rest. cbn [loop]. now rewrite S1, HC. }
      set (G := fun b c => bEnable (F1 (bEnable b (cEval (cPush c v))) (cPush c v)) (cEval c)).
      assert (LG : forall b c rest, loop' pre cwd ctx b c t (o :: ls ++ cl :: rest) = loop' pre cwd1 ctx1 (G b c) c t1 rest).
      { intros b c rest. rewrite EO, L1, EC. unfold cPop, G. replace (removelast (cPush c v)) with c; [reflexivity|].
        unfold cPush. now rewrite removelast_last. }
      assert (AG : forall b c x, b_enabled b = false -> G b (c ++ false :: x) = b).
      { intros b c x E. assert (BE : bEnable b false = b) by (destruct b; cbn in *; now subst).
        unfold G, cPush. rewrite <- (app_assoc c). cbn [app]. rewrite !cEval_false, BE, A1 by exact E. exact BE. }
      destruct (IH2 cwd1 ctx1 t1 S1) as [(cwd2 & ctx2 & t2 & F2 & S2 & L2 & A2 & B2)|(f & F & A2)].
      + left. exists cwd2, ctx2, t2, (fun b c => F2 (G b c) c). split; [exact S2|]. split; [|split].
        * intros b c rest. cbn [app]. rewrite <- app_assoc. cbn [app]. now rewrite LG.
        * intros b c x E. rewrite AG by exact E. now apply A2.
        * intros b c done E T.
          destruct (B1 (bEnable b (cEval (cPush c v))) (cPush c v) done eq_refl T) as (m1 & E1' & T1).
          destruct (B2 (G b c) c (done ++ m1) eq_refl T1) as (m2 & E2' & T2).
          exists (m1 ++ m2). split; [exact E2'|]. now rewrite app_assoc.
      + right. exists f. split; [exact F|]. intros b c rest. cbn [app]. rewrite <- app_assoc. cbn [app]. rewrite LG. apply A2.
  Qed.

  (** what follows: the same texts after different beginnings *)
  Lemma loop_tail pre lines : forall cwd ctx b1 b2 c t A B,
    b_enabled b1 = cEval c -> b_enabled b2 = cEval c -> text_of b1 A -> text_of b2 B ->
    (exists C offs d, loop' pre cwd ctx b1 c t lines = RDone (join LF (A ++ C), offs) d /\
                      loop' pre cwd ctx b2 c t lines = RDone (join LF (B ++ C), offs) d) \/
    (failed (loop' pre cwd ctx b1 c t lines) /\ loop' pre cwd ctx b2 c t lines = loop' pre cwd ctx b1 c t lines).
  Proof.
    induction lines as [|l r IH]; intros cwd ctx b1 b2 c t A B E1 E2 T1 T2.
    - left. exists [], (p_offs ctx), cwd. cbn [loop]. rewrite !app_nil_r. destruct T1 as [-> _], T2 as [-> _]. auto.
    - destruct (loop_step pre cwd ctx t l) as [(cwd1 & ctx1 & t1 & w & k & _ & _ & _ & _ & E)|(f & F & E)].
      2:{ right. rewrite !E. auto. }
      rewrite !E.
      assert (X : exists m, text_of (written w b1) (A ++ m) /\ text_of (written w b2) (B ++ m)).
      { destruct w as [s|]; [|exists []; rewrite !app_nil_r; auto]. cbn [written]. destruct (cEval c) eqn:CE.
        - exists [s]. split; now apply bWrite_on.
        - exists []. rewrite !app_nil_r, !bWrite_off by congruence. auto. }
      destruct X as (m & X1 & X2).
      assert (N1 : b_enabled (written w b1) = cEval c) by (destruct w; cbn; [now rewrite bWrite_enabled|exact E1]).
      assert (N2 : b_enabled (written w b2) = cEval c) by (destruct w; cbn; [now rewrite bWrite_enabled|exact E2]).
      destruct (IH cwd1 ctx1 (relay k c (written w b1)) (relay k c (written w b2)) (changed k c) t1 (A ++ m) (B ++ m)) as [(C & offs & d & R1 & R2)|R].
      + destruct k; [exact N1| |]; reflexivity.
      + destruct k; [exact N2| |]; reflexivity.
      + destruct k; exact X1.
      + destruct k; exact X2.
      + left. exists (m ++ C), offs, d. rewrite !app_assoc. auto.
      + right. exact R.
  Qed.

  Lemma disabled_like_enabled fuel cwd ctx s0 s1 s2 before o1 o2 ls e after :
    fst (scan s0) = before ->
    fst (scan s1) = before ++ o1 :: ls ++ e :: after ->
    fst (scan s2) = before ++ o2 :: ls ++ e :: after ->
    (exists cd1 cd2, let st := lines_state parseLine (p_secs ctx) (p_attrs ctx, p_within ctx, []) before in
       parseLine (p_secs ctx) (snd (fst st)) o1 = Some (RCond cd1) /\ singleLineContent cd1 = None /\
       evalCond (callAttributes (fst (fst st))) cd1 = false /\
       parseLine (p_secs ctx) (snd (fst st)) o2 = Some (RCond cd2) /\ singleLineContent cd2 = None /\
       evalCond (callAttributes (fst (fst st))) cd2 = true) ->
    balanced parseLine (p_secs ctx) ls -> closes_region parseLine (p_secs ctx) e ->
    (exists A B C offs0 d0 offs d,
       preprocess' fuel cwd ctx s0 = RDone (join LF A, offs0) d0 /\
       preprocess' fuel cwd ctx s1 = RDone (join LF (A ++ C), offs) d /\
       preprocess' fuel cwd ctx s2 = RDone (join LF (A ++ B ++ C), offs) d) \/
    (failed (preprocess' fuel cwd ctx s1) /\ preprocess' fuel cwd ctx s2 = preprocess' fuel cwd ctx s1).
  Proof.
    intros E0 E1 E2 (cd1 & cd2 & HO) HB HC. cbv zeta in HO. destruct HO as (P1 & SC1 & V1 & P2 & SC2 & V2). destruct fuel as [|f]; [right; split; [exact I|reflexivity]|].
    cbn [preprocess]. rewrite E0, E1, E2. clear E0 E1 E2.
    assert (T0 : text_of (mkB "" false true) []) by (split; reflexivity).
    destruct (loop_run (preprocess' f) before cwd ctx (mkB "" false true) [] [] [] eq_refl T0)
      as [(cwd1 & ctx1 & b1 & c1 & t1 & A & S1 & EN & T & LS & R)|(g & F & R)].
    2:{ right. rewrite !R. auto. }
    cbn [app] in T. pose proof (R []) as R0. rewrite app_nil_r in R0. rewrite R0, !R. unfold tracker, lstate in *. rewrite <- LS in P1, V1, P2, V2. cbn [fst snd] in P1, V1, P2, V2.
    cbn [loop]. rewrite S1, P1, P2, SC1, SC2, V1, V2. cbv zeta.
    replace (cEval (cPush c1 false)) with false by (symmetry; apply cEval_false).
    replace (cEval (cPush c1 true)) with (cEval c1) by (unfold cPush, cEval; rewrite forallb_app; cbn; now rewrite andb_true_r).
    destruct (lockstep (preprocess' f) (p_secs ctx) ls HB cwd1 ctx1 t1 S1) as [(cwd2 & ctx2 & t2 & G & S2 & L & GA & GB)|(g & F & L)].
    2:{ right. rewrite !L. auto. }
    rewrite !L. assert (GF : G (bEnable b1 false) (cPush c1 false) = bEnable b1 false) by (apply (GA _ c1 []); reflexivity). rewrite GF.
    assert (CT : cEval (cPush c1 true) = cEval c1) by (unfold cPush, cEval; rewrite forallb_app; cbn; now rewrite andb_true_r).
    assert (TT : text_of (bEnable b1 (cEval c1)) A) by exact T.
    destruct (GB (bEnable b1 (cEval c1)) (cPush c1 true) A (eq_sym CT) TT) as (B & EB & TB).
    cbn [loop]. rewrite !S2, !(HC (p_within ctx2)). assert (PP : forall v, cPop (cPush c1 v) = c1) by (intros v; apply removelast_last). rewrite !PP.
    destruct (loop_tail (preprocess' f) after cwd2 ctx2 (bEnable (bEnable b1 false) (cEval c1))
      (bEnable (G (bEnable b1 (cEval c1)) (cPush c1 true)) (cEval c1)) c1 t2 A (A ++ B) eq_refl eq_refl T TB) as [(C & offs & d & R1 & R2)|R1].
    - left. exists A, B, C, (p_offs ctx1), cwd1, offs, d. rewrite <- app_assoc in R2. split; [now rewrite <- (proj1 T)|]. split; [exact R1|exact R2].
    - right. exact R1.
  Qed.
End Pre.
