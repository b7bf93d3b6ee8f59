(** C38, C39: the parsing pipeline. *)
From Verif Require Import GoBase Types Footnotes Lists Filter Pipeline PipelineSpec PipelineLemmas.
From Verif Require Aggregate AggDoc Context.
From Coq Require Import Lia.

Section General.
  Variables F S A E : Type.
  Variable agg : A -> F -> A + E.
  (** the start of ParseDocument: [todo] the fragments of the document, [err] the error fragment that ends it, if any, [fs]
      the stages and their initial states, [a] the initial state of the aggregation *)
  Definition started (todo : list F) (err : option F) (fs : list ((S -> F -> S * F) * S)) (a : A) : system F S A E :=
    mkSys (start_chain todo err fs) (Running a).
  Definition fragments (todo : list F) (err : option F) : list F := todo ++ match err with Some e => [e] | None => [] end.

  Lemma inv_start todo err fs a : inv F S A E agg
    (run_agg agg a (snd (run_stages fs (fragments todo err)))) (fst (run_stages fs (fragments todo err))) (started todo err fs a).
  Proof.
    unfold inv, started. cbn [sys_caller sys_chain]. split; [apply start_wf|].
    destruct (start_rest F S fs (Src todo err [] false) eq_refl) as [R1 R2]. unfold start_chain. rewrite R1, R2. cbn [rest fin app].
    unfold fragments, opt. auto.
  Qed.

  (** C38: whatever the interleaving, when ParseDocument returns its result is that of the stages run one after another on
      all the fragments in order; and when it succeeds, so are the states of the stages (the footnotes collected), and all
      goroutines have ended already. *)
  Theorem C38_deterministic : forall todo err fs a y r,
    steps agg (started todo err fs a) y -> sys_caller y = Returned r ->
    r = run_agg agg a (snd (run_stages fs (fragments todo err))) /\
    forall a', r = inl a' -> ended (sys_chain y) /\ states (sys_chain y) = fst (run_stages fs (fragments todo err)).
  Proof.
    intros todo err fs a y r H R. pose proof (inv_steps _ _ _ _ _ _ _ _ _ H (inv_start todo err fs a)) as I.
    unfold inv in I. rewrite R in I. exact I.
  Qed.

  (** every execution ends: a document of [n] fragments takes at most (2s+2)n + s + 2 steps with [s] stages *)
  Fixpoint exec (n : nat) (x y : system F S A E) : Prop :=
    match n with O => x = y | Datatypes.S n' => exists z, step agg x z /\ exec n' z y end.
  Theorem C38_terminates : forall todo err fs a n y,
    exec n (started todo err fs a) y ->
    (n <= List.length (fragments todo err) * (2 * List.length fs + 2) + List.length fs + 2)%nat.
  Proof.
    intros todo err fs a n y H.
    assert (X : forall n x y, exec n x y -> (n <= size F S A E x)%nat).
    { clear. induction n as [|n IH]; intros x y H; [lia|]. destruct H as (z & S1 & H). pose proof (step_size _ _ _ _ _ _ _ S1). specialize (IH _ _ H). lia. }
    specialize (X _ _ _ H). unfold size, started in X. cbn [sys_chain sys_caller] in X. rewrite start_mu in X.
    unfold fragments. rewrite app_length. unfold opt in X. lia.
  Qed.

  (** no deadlock: as long as ParseDocument has not returned, some goroutine can move *)
  Theorem C38_no_deadlock : forall (c : chain F S) a, exists y, step agg (mkSys c (Running a)) y.
  Proof.
    intros c a. destruct (progress_running F S c) as [[c' M]|[B|[B C]]].
    - eexists. apply st_move. exact M.
    - destruct (buf c) as [|x r] eqn:EB; [congruence|]. eexists. eapply st_recv. exact EB.
    - eexists. now apply st_return.
  Qed.

  (** so ParseDocument returns, along every schedule: an execution can only stop after it has returned *)
  Theorem C38_returns : forall todo err fs a y,
    steps agg (started todo err fs a) y -> (forall z, ~ step agg y z) ->
    sys_caller y = Returned (run_agg agg a (snd (run_stages fs (fragments todo err)))).
  Proof.
    intros todo err fs a [c [a'|r]] H N.
    - destruct (C38_no_deadlock c a') as [z S1]. now apply N in S1.
    - destruct (C38_deterministic _ _ _ _ _ _ H eq_refl) as [-> _]. reflexivity.
  Qed.

  (** C39: no goroutine is left behind when the aggregation never stops early, or when parsing does not end with an error
      fragment: an execution can only stop when all goroutines have ended. *)
  Theorem C39_all_end : forall todo err fs a y,
    (forall a x, exists a', agg a x = inl a') \/ err = None ->
    steps agg (started todo err fs a) y -> (forall z, ~ step agg y z) -> ended (sys_chain y).
  Proof.
    intros todo err fs a y T H N.
    pose proof (C38_returns _ _ _ _ _ H N) as R. destruct (C38_deterministic _ _ _ _ _ _ H R) as [_ X].
    destruct T as [T| ->].
    - assert (Y : forall l a, exists a', run_agg agg a l = inl a').
      { clear - T. induction l as [|x l IH]; intros a; cbn [run_agg]; [eauto|]. destruct (T a x) as [a' ->]. apply IH. }
      destruct (Y (snd (run_stages fs (fragments todo err))) a) as [a' E1]. now apply (X a').
    - assert (NE : no_error F S (sys_chain y)).
      { assert (Z : forall x y, steps agg x y -> no_error F S (sys_chain x) -> no_error F S (sys_chain y)).
        { clear. induction 1; auto. intros Q. apply IHsteps. eapply step_no_error; eauto. }
        apply (Z _ _ H). apply start_no_error. }
      destruct (progress_done F S (sys_chain y) NE) as [[c' M]|En]; [|exact En].
      destruct y as [c k]. cbn [sys_caller sys_chain] in *. subst k. destruct (N (mkSys c' (Returned (run_agg agg a (snd (run_stages fs (fragments todo None))))))). now apply st_move.
  Qed.
End General.

(** ** ParseDocument *)
Section ParseDocument.
  (** the stages RefineFragments and ApplySubstitutions, whatever they are (they call the generated parser) *)
  Variables R T : Type.
  Variable refine : R -> fragment -> R * fragment.
  Variable subst_ : T -> fragment -> T * fragment.
  Variable is_letter is_number : N -> bool.
  Variable fmtv : val -> string.

  (** the private states of the stages *)
  Inductive pstate := PRefine (r : R) | PSubst (t : T) | PNotes (n : footnotes) | PNone.
  Definition refine_stage (s : pstate) (x : fragment) : pstate * fragment :=
    match s with PRefine r => let (r', y) := refine r x in (PRefine r', y) | _ => (s, x) end.
  Definition subst_stage (s : pstate) (x : fragment) : pstate * fragment :=
    match s with PSubst t => let (t', y) := subst_ t x in (PSubst t', y) | _ => (s, x) end.
  Definition notes_stage (s : pstate) (x : fragment) : pstate * fragment :=
    match s with PNotes n => let (n', y) := collectFootnotes n x in (PNotes n', y) | _ => (s, x) end.
  Definition arrange_stage (s : pstate) (x : fragment) : pstate * fragment := (s, arrangeLists x).
  Definition filter_stage (s : pstate) (x : fragment) : pstate * fragment := (s, filterOut x).
  (** document_processing.go:16-46 ParseDocument: the stages, the first one first *)
  Definition stages (r : R) (t : T) : list ((pstate -> fragment -> pstate * fragment) * pstate) :=
    [(refine_stage, PRefine r); (subst_stage, PSubst t); (notes_stage, PNotes newFootnotes); (arrange_stage, PNone); (filter_stage, PNone)].
  (** the body of the loop of document_processing_aggregate.go:26-109 aggregate *)
  Definition agg_fragment (a : Aggregate.aggstate) (x : fragment) : Aggregate.aggstate + string :=
    match x with
    | inr _ => inl a
    | inl es => match Aggregate.aggElements is_letter is_number fmtv a es with Some a' => inl a' | None => inr "out of fuel" end
    end.
  Definition to_frag (x : fragment) : Aggregate.fragment := match x with inl es => Aggregate.Frag es | inr e => Aggregate.ErrFrag e end.

  Lemma agg_never_stops a x : exists a', agg_fragment a x = inl a'.
  Proof.
    destruct x as [es|e]; [|now exists a]. unfold agg_fragment. destruct (AggDoc.aggElements_run is_letter is_number fmtv es a) as (_ & a' & -> & _). now exists a'.
  Qed.
  Lemma run_agg_fragments : forall l a, Some (run_agg agg_fragment a l) =
    option_map inl (Aggregate.aggFragments is_letter is_number fmtv a (map to_frag l)).
  Proof.
    induction l as [|x l IH]; intros a; [reflexivity|]. cbn [run_agg map]. destruct x as [es|e]; cbn [agg_fragment to_frag Aggregate.aggFragments]; [|apply IH].
    destruct (AggDoc.aggElements_run is_letter is_number fmtv es a) as (_ & a' & -> & _). apply IH.
  Qed.
  Lemma run_refine r l : run_stage refine_stage (PRefine r) l = (PRefine (fst (run_stage refine r l)), snd (run_stage refine r l)).
  Proof.
    revert r. induction l as [|x l IH]; intros r; [reflexivity|]. cbn [run_stage refine_stage]. destruct (refine r x) as [r' y]. rewrite IH.
    destruct (run_stage refine r' l). reflexivity.
  Qed.
  Lemma run_subst t l : run_stage subst_stage (PSubst t) l = (PSubst (fst (run_stage subst_ t l)), snd (run_stage subst_ t l)).
  Proof.
    revert t. induction l as [|x l IH]; intros t; [reflexivity|]. cbn [run_stage subst_stage]. destruct (subst_ t x) as [t' y]. rewrite IH.
    destruct (run_stage subst_ t' l). reflexivity.
  Qed.
  Lemma run_notes n l : run_stage notes_stage (PNotes n) l = (PNotes (fst (collectStage n l)), snd (collectStage n l)).
  Proof.
    revert n. induction l as [|x l IH]; intros n; [reflexivity|]. cbn [run_stage notes_stage collectStage]. destruct (collectFootnotes n x) as [n' y]. rewrite IH.
    destruct (collectStage n' l). reflexivity.
  Qed.
  Lemma run_pure (g : fragment -> fragment) l : forall s, run_stage (fun (s : pstate) x => (s, g x)) s l = (s, map g l).
  Proof. induction l as [|x l IH]; intros s; [reflexivity|]. cbn. now rewrite IH. Qed.

  (** the fragments that come out of the first two stages, run one after the other *)
  Definition substituted (r : R) (t : T) (l : list fragment) : list fragment := snd (run_stage subst_ t (snd (run_stage refine r l))).

  (** C38 for ParseDocument: along every schedule it returns, all goroutines having ended, the document aggregated from the
      fragments in order, and the footnotes collected in order. *)
  Theorem C38_parse_document : forall r t c todo err y,
    steps agg_fragment (started fragment pstate Aggregate.aggstate string todo err (stages r t) (Aggregate.aggInit c)) y ->
    (forall z, ~ step agg_fragment y z) ->
    exists st,
      sys_caller y = Returned (inl st) /\ ended (sys_chain y) /\
      let frs := substituted r t (fragments fragment todo err) in
      Aggregate.aggFragments is_letter is_number fmtv (Aggregate.aggInit c)
        (map to_frag (filterStage (map arrangeLists (snd (collectStage newFootnotes frs))))) = Some st /\
      nth_error (states (sys_chain y)) 2 = Some (PNotes (fst (collectStage newFootnotes frs))).
  Proof.
    intros r t c todo err y H N. pose proof (C38_returns _ _ _ _ _ _ _ _ _ _ H N) as RET.
    destruct (C38_deterministic _ _ _ _ _ _ _ _ _ _ _ H RET) as [_ ST].
    assert (RS : run_stages (stages r t) (fragments fragment todo err) =
      ([PRefine (fst (run_stage refine r (fragments fragment todo err)));
        PSubst (fst (run_stage subst_ t (snd (run_stage refine r (fragments fragment todo err)))));
        PNotes (fst (collectStage newFootnotes (substituted r t (fragments fragment todo err)))); PNone; PNone],
       filterStage (map arrangeLists (snd (collectStage newFootnotes (substituted r t (fragments fragment todo err))))))).
    { unfold stages, arrange_stage, filter_stage. cbn [run_stages]. rewrite run_refine, run_subst, run_notes.
      rewrite (run_pure arrangeLists), (run_pure filterOut). reflexivity. }
    rewrite RS in RET, ST. cbn [fst snd] in RET, ST.
    pose proof (run_agg_fragments (filterStage (map arrangeLists (snd (collectStage newFootnotes (substituted r t (fragments fragment todo err)))))) (Aggregate.aggInit c)) as RA.
    destruct (Aggregate.aggFragments is_letter is_number fmtv (Aggregate.aggInit c) _) as [st|] eqn:EA; cbn in RA; [|discriminate].
    injection RA as RA. rewrite RA in RET, ST. exists st. split; [exact RET|]. destruct (ST st eq_refl) as [EN STS].
    split; [exact EN|]. cbv zeta. split; [exact EA|]. now rewrite STS.
  Qed.

  (** C39 for ParseDocument, from any reachable state *)
  Theorem C39_parse_document : forall r t c todo err y,
    steps agg_fragment (started fragment pstate Aggregate.aggstate string todo err (stages r t) (Aggregate.aggInit c)) y ->
    (exists z, step agg_fragment y z) \/ ended (sys_chain y).
  Proof.
    intros r t c todo err [ch k] H. destruct k as [a|res].
    - left. apply C38_no_deadlock.
    - right. destruct (C38_deterministic _ _ _ _ _ _ _ _ _ _ _ H eq_refl) as [E1 X].
      assert (Y : forall l a, exists a', run_agg agg_fragment a l = inl a').
      { induction l as [|x l IH]; intros a; cbn [run_agg]; [eauto|]. destruct (agg_never_stops a x) as [a' ->]. apply IH. }
      destruct (Y (snd (run_stages (stages r t) (fragments fragment todo err))) (Aggregate.aggInit c)) as [a' E2].
      apply (X a'). congruence.
  Qed.

  Lemma returned_stuck (ch : chain fragment pstate) res z : ended ch -> ~ step agg_fragment (mkSys ch (Returned res)) z.
  Proof. intros EN H. inversion H; subst. eapply ended_stuck; eauto. Qed.
  (** ... and every execution can be, and is, continued until then: ParseDocument always returns *)
  Theorem C38_parse_document_returns : forall r t c todo err y,
    steps agg_fragment (started fragment pstate Aggregate.aggstate string todo err (stages r t) (Aggregate.aggInit c)) y ->
    exists z, steps agg_fragment y z /\ (forall w, ~ step agg_fragment z w) /\ ended (sys_chain z).
  Proof.
    intros r t c todo err y. remember (size _ _ _ _ y) as n eqn:En. revert y En.
    induction n as [n IH] using lt_wf_ind. intros y En H.
    destruct y as [ch k]. destruct k as [a|res].
    - destruct (C38_no_deadlock _ _ _ _ agg_fragment ch a) as [z S1]. pose proof (step_size _ _ _ _ _ _ _ S1) as L.
      assert (H' : steps agg_fragment (started fragment pstate Aggregate.aggstate string todo err (stages r t) (Aggregate.aggInit c)) z).
      { clear - H S1. remember (mkSys ch (Running a)) as m. revert Heqm. induction H; intros ->.
        - econstructor; [exact S1|constructor].
        - econstructor; [eassumption|]. now apply IHsteps. }
      destruct (IH (size _ _ _ _ z)) with (y := z) as (w & W1 & W2 & W3); [lia|reflexivity|exact H'|].
      exists w. split; [econstructor; eassumption|auto].
    - destruct (C39_parse_document _ _ _ _ _ _ H) as [[z S1]|EN].
      + destruct (C38_deterministic _ _ _ _ _ _ _ _ _ _ _ H eq_refl) as [E1 X].
        assert (Y : forall l a, exists a', run_agg agg_fragment a l = inl a').
        { induction l as [|x l IHl]; intros a; cbn [run_agg]; [eauto|]. destruct (agg_never_stops a x) as [a' ->]. apply IHl. }
        destruct (Y (snd (run_stages (stages r t) (fragments fragment todo err))) (Aggregate.aggInit c)) as [a' E2].
        destruct (X a') as [EN _]; [congruence|]. now apply (returned_stuck ch res z) in EN.
      + exists (mkSys ch (Returned res)). split; [constructor|]. split; [|exact EN]. intros w. now apply returned_stuck.
  Qed.
End ParseDocument.

(** ** C39 would fail if the aggregation stopped early (with an error or a panic) while parsing ends with an error: the error
    fragment is sent without listening to [done], so with a full channel the first goroutine waits forever. *)
Section Act.
  Variables F S : Type.
  (** a move chosen by a schedule: [n] tells the goroutine, the last one being 0; [pd]: listen to [done] if possible *)
  Fixpoint act (d pd : bool) (n : nat) (c : chain F S) : option (chain F S) :=
    match n, c with
    | O, Src (f :: t) e b false => if (d && pd)%bool then Some (Src t e b true)
                                   else if (List.length b <? bufferSize)%nat then Some (Src t e (b ++ [f]) false) else None
    | O, Src [] (Some f) b false => if (List.length b <? bufferSize)%nat then Some (Src [] None (b ++ [f]) false) else None
    | O, Src [] None b false => Some (Src [] None b true)
    | O, Stg up f s None b false =>
        match buf up with
        | x :: r => Some (Stg (set_buf up r) f (fst (f s x)) (Some (snd (f s x))) b false)
        | [] => if closed up then Some (Stg up f s None b true) else None
        end
    | O, Stg up f s (Some x) b false => if (d && pd)%bool then Some (Stg up f s None b true)
                                        else if (List.length b <? bufferSize)%nat then Some (Stg up f s None (b ++ [x]) false) else None
    | Datatypes.S n, Stg up f s h b x => match act d pd n up with Some up' => Some (Stg up' f s h b x) | None => None end
    | _, _ => None
    end.
  Lemma act_move d pd : forall n c c', act d pd n c = Some c' -> move d c c'.
  Proof.
    induction n as [|n IH]; intros [t e b x|up f s h b x] c' H; cbn [act] in H; try discriminate.
    - destruct x; [destruct t; [destruct e|]; discriminate|]. destruct t as [|f t].
      + destruct e as [f|]; [|injection H as <-; apply src_end]. destruct (Nat.ltb_spec (List.length b) bufferSize); [|discriminate].
        injection H as <-. now apply src_error.
      + destruct d, pd; cbn [andb] in H; try (injection H as <-; now apply src_done);
          (destruct (Nat.ltb_spec (List.length b) bufferSize); [|discriminate]; injection H as <-; now apply src_send).
    - destruct x; [destruct h; discriminate|]. destruct h as [y|].
      + destruct d, pd; cbn [andb] in H; try (injection H as <-; now apply stg_done);
          (destruct (Nat.ltb_spec (List.length b) bufferSize); [|discriminate]; injection H as <-; now apply stg_send).
      + destruct (buf up) as [|y r] eqn:B; [|injection H as <-; now apply stg_recv].
        destruct (closed up) eqn:C; [|discriminate]. injection H as <-. now apply stg_end.
    - destruct (act d pd n up) as [up'|] eqn:E; [|discriminate]. injection H as <-. apply stg_up. now apply IH.
  Qed.
  Fixpoint acts (d : bool) (l : list (nat * bool)) (c : chain F S) : option (chain F S) :=
    match l with [] => Some c | (n, pd) :: r => match act d pd n c with Some c' => acts d r c' | None => None end end.
  Variables A E : Type.
  Variable agg : A -> F -> A + E.
  Lemma acts_steps k l : forall c c', acts (is_done A E k) l c = Some c' -> steps agg (mkSys c k) (mkSys c' k).
  Proof.
    induction l as [|[n pd] l IH]; intros c c' H; cbn [acts] in H; [injection H as <-; constructor|].
    destruct (act (is_done A E k) pd n c) as [c1|] eqn:E1; [|discriminate]. econstructor; [apply st_move; eapply act_move; eauto|now apply IH].
  Qed.
  Lemma steps_trans (x y z : system F S A E) : steps agg x y -> steps agg y z -> steps agg x z.
  Proof. induction 1; auto. intros H'. econstructor; eauto. Qed.
End Act.

Definition id_stage (s : unit) (x : nat) : unit * nat := (s, x).
Definition stop_agg (a : unit) (x : nat) : unit + unit := inr tt.
Theorem C39_early_stop_leaks : exists (todo : list nat) (err : option nat) (y : system nat unit unit unit),
  steps stop_agg (started nat unit unit unit todo err (repeat (id_stage, tt) 5) tt) y /\
  sys_caller y = Returned (inr tt) /\ (forall z, ~ step stop_agg y z) /\ ~ ended (sys_chain y).
Proof.
  exists (seq 1 12), (Some 0). eexists. split.
  - eapply steps_trans.
    + (* the first fragment goes through *)
      apply (acts_steps nat unit unit unit stop_agg (Running tt)
        [(5, false); (4, false); (4, false); (3, false); (3, false); (2, false); (2, false); (1, false); (1, false); (0, false); (0, false)]%nat).
      vm_compute. reflexivity.
    + econstructor; [eapply st_recv; reflexivity|].
      (* the second one is taken by the first stage, ten more fill its channel, then the stages see that [done] is closed *)
      apply (acts_steps nat unit unit unit stop_agg (Returned (inr tt))
        ([(5, false); (4, false)] ++ repeat (5, false) 10 ++ [(4, true); (3, true); (2, true); (1, true); (0, true)])%nat).
      vm_compute. reflexivity.
  - split; [reflexivity|]. split.
    + intros z H. inversion H as [c c' k M| |]; subst.
      repeat match goal with M : move _ _ _ |- _ => inversion M; clear M; subst; try discriminate end.
      match goal with R : room _ |- _ => unfold room, bufferSize in R; cbn in R; lia end.
    + cbn. intuition discriminate.
Qed.

(** non-vacuity: a pipeline with a footnote and a list, from the first fragment to the document *)
Theorem C38_case : exists y,
  steps (agg_fragment (fun _ => true) (fun _ => true) (fun _ => ""))
    (started fragment (pstate unit unit) Aggregate.aggstate string
      [inl [Paragraph [] [Footnote 0 VNil [StringElement "n"]]]; inl [BlankLine]] (Some (inr "no match found"))
      (stages unit unit (fun r x => (r, x)) (fun t x => (t, x)) tt tt) (Aggregate.aggInit (Context.mkCtx [] []))) y /\
  (forall w, ~ step (agg_fragment (fun _ => true) (fun _ => true) (fun _ => "")) y w).
Proof.
  destruct (C38_parse_document_returns unit unit (fun r x => (r, x)) (fun t x => (t, x)) (fun _ => true) (fun _ => true) (fun _ => "")
    tt tt (Context.mkCtx [] []) [inl [Paragraph [] [Footnote 0 VNil [StringElement "n"]]]; inl [BlankLine]] (Some (inr "no match found")) _ (steps_refl _ _ _ _ _ _))
    as (y & H & N & _). exists y. split; [exact H|exact N].
Qed.

Print Assumptions C38_deterministic.
Print Assumptions C38_terminates.
Print Assumptions C38_no_deadlock.
Print Assumptions C38_returns.
Print Assumptions C38_parse_document.
Print Assumptions C38_parse_document_returns.
Print Assumptions C39_all_end.
Print Assumptions C39_parse_document.
Print Assumptions C39_early_stop_leaks.

