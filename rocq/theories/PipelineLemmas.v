(** Lemmas about the pipeline. *)
From Verif Require Import GoBase Pipeline PipelineSpec.
From Coq Require Import Lia.

Section Lemmas.
  Variables F S A E : Type.
  Variable agg : A -> F -> A + E.
  Notation chain := (chain F S). Notation system := (system F S A E).
  Implicit Types (c : chain) (b : list F).

  Definition opt {X} (o : option X) : list X := match o with Some x => [x] | None => [] end.

  (** what will still come out of a chain, and the states its stages will end with, if nobody stops *)
  Fixpoint rest (c : chain) : list F :=
    match c with
    | Src t e b x => b ++ (if x then [] else t ++ opt e)
    | Stg u f s h b x => b ++ (if x then [] else opt h ++ snd (run_stage f s (rest u)))
    end.
  Fixpoint fin (c : chain) : list S :=
    match c with
    | Src _ _ _ _ => []
    | Stg u f s h b x => fin u ++ [if x then s else fst (run_stage f s (rest u))]
    end.
  (** a stage which has ended has seen the end of its input *)
  Fixpoint wf (c : chain) : Prop :=
    match c with
    | Src _ _ _ _ => True
    | Stg u _ _ _ _ x => wf u /\ (x = true -> buf u = [] /\ closed u = true)
    end.

  Lemma rest_recv c x r : buf c = x :: r -> rest c = x :: rest (set_buf c r).
  Proof. destruct c; cbn; intros ->; reflexivity. Qed.
  Lemma fin_recv c r : fin (set_buf c r) = fin c.
  Proof. destruct c; reflexivity. Qed.
  Lemma rest_end c : buf c = [] -> closed c = true -> rest c = [].
  Proof. destruct c; cbn; intros -> ->; reflexivity. Qed.
  Lemma run_cons (f : S -> F -> S * F) s x l : run_stage f s (x :: l) = (fst (run_stage f (fst (f s x)) l), snd (f s x) :: snd (run_stage f (fst (f s x)) l)).
  Proof. cbn. destruct (f s x) as [s1 y]. cbn. destruct (run_stage f s1 l). reflexivity. Qed.

  Lemma move_rest c c' : move false c c' -> rest c' = rest c /\ fin c' = fin c.
  Proof.
    induction 1 as [f t e b R|f t e b D|f b R|b|up f s b x r B|up f s b B C|up f s x b R|up f s x b D|up up' f s h b c M IH]; try discriminate; cbn [rest fin opt].
    - split; [|reflexivity]. rewrite <- app_assoc. reflexivity.
    - split; [|reflexivity]. now rewrite !app_nil_r.
    - auto.
    - rewrite (rest_recv up x r B), run_cons, fin_recv. cbn [fst snd]. auto.
    - rewrite (rest_end up B C). cbn. auto.
    - split; [|reflexivity]. rewrite <- app_assoc. reflexivity.
    - destruct IH as [-> ->]. auto.
  Qed.
  Lemma buf_set c r : buf (set_buf c r) = r. Proof. now destruct c. Qed.
  Lemma closed_set c r : closed (set_buf c r) = closed c. Proof. now destruct c. Qed.
  Lemma wf_set c r : wf (set_buf c r) <-> wf c. Proof. now destruct c. Qed.
  Lemma move_closed d c c' : move d c c' -> closed c = true -> closed c' = true /\ buf c' = buf c.
  Proof. destruct 1; cbn; auto; discriminate. Qed.
  Lemma move_wf c c' : move false c c' -> wf c -> wf c'.
  Proof.
    induction 1 as [f t e b R|f t e b D|f b R|b|up f s b x r B|up f s b B C|up f s x b R|up f s x b D|up up' f s h b c M IH]; cbn [wf]; try tauto; try discriminate.
    - rewrite wf_set. intros [W _]. split; [exact W|discriminate].
    - intros [W X]. split; [now apply IH|]. intros C. destruct (X C) as [X1 X2]. destruct (move_closed _ _ _ M X2) as [Y1 Y2]. split; congruence.
  Qed.
  Lemma wf_ended c : wf c -> closed c = true -> ended c /\ states c = fin c.
  Proof.
    induction c as [t e b x|u IH f s h b x]; cbn; [auto|]. intros [W X] ->. destruct (X eq_refl) as [_ C]. destruct (IH W C) as [I ->]. auto.
  Qed.
  Lemma ended_stuck d c c' : ended c -> ~ move d c c'.
  Proof.
    intros En M. revert En. induction M; cbn; try discriminate; try (intros [X _]; discriminate). intros [_ X]. now apply IHM.
  Qed.
  Lemma ended_closed c : ended c -> closed c = true.
  Proof. destruct c; cbn; [auto|now intros [-> _]]. Qed.

  (** *** start *)
  Lemma start_rest fs : forall c, closed c = false ->
    rest (fold_left (fun c (p : (S -> F -> S * F) * S) => Stg c (fst p) (snd p) None [] false) fs c) = snd (run_stages fs (rest c)) /\
    fin (fold_left (fun c (p : (S -> F -> S * F) * S) => Stg c (fst p) (snd p) None [] false) fs c) = fin c ++ fst (run_stages fs (rest c)).
  Proof.
    induction fs as [|[f s] fs IH]; intros c C; cbn [fold_left run_stages]; [cbn; now rewrite app_nil_r|].
    destruct (IH (Stg c f s None [] false) eq_refl) as [R1 R2]. cbn [fst snd]. rewrite R1, R2. cbn [rest fin opt app].
    destruct (run_stage f s (rest c)) as [s' l']. cbn [fst snd]. destruct (run_stages fs l') as [ss out]. cbn. rewrite <- app_assoc. auto.
  Qed.
  Lemma start_wf todo err fs : wf (start_chain todo err fs).
  Proof.
    unfold start_chain. assert (X : wf (Src todo err [] false)) by exact I. revert X. generalize (@Src F S todo err [] false) as c.
    induction fs as [|[f s] fs IH]; intros c W; cbn [fold_left]; [exact W|]. apply IH. cbn. split; [exact W|discriminate].
  Qed.

  (** *** the invariant *)
  Definition inv (R : A + E) (ss : list S) (y : system) : Prop :=
    match sys_caller y with
    | Running a => wf (sys_chain y) /\ run_agg agg a (rest (sys_chain y)) = R /\ fin (sys_chain y) = ss
    | Returned r => r = R /\ (forall a, r = inl a -> ended (sys_chain y) /\ states (sys_chain y) = ss)
    end.
  Lemma inv_step R ss y y' : step agg y y' -> inv R ss y -> inv R ss y'.
  Proof.
    destruct 1 as [c c' k M|c x r a B|c a B C]; unfold inv; cbn [sys_caller sys_chain].
    - destruct k as [a|r]; cbn [is_done] in M.
      + intros (W & RR & FF). destruct (move_rest _ _ M) as [-> ->]. split; [eapply move_wf; eauto|auto].
      + intros (-> & X). split; [reflexivity|]. intros a ->. destruct (X a eq_refl) as [EN _]. now apply (ended_stuck true c c') in EN.
    - intros (W & RR & FF). rewrite (rest_recv c x r B) in RR. cbn [run_agg] in RR. destruct (agg a x) as [a'|e].
      + split; [now apply wf_set|]. split; [exact RR|]. now rewrite fin_recv.
      + split; [exact RR|]. discriminate.
    - intros (W & RR & FF). rewrite (rest_end c B C) in RR. cbn in RR. split; [exact RR|]. intros a' _.
      destruct (wf_ended c W C) as [EN ST]. split; [exact EN|congruence].
  Qed.
  Lemma inv_steps R ss y y' : steps agg y y' -> inv R ss y -> inv R ss y'.
  Proof. induction 1; auto. intros I. apply IHsteps. eapply inv_step; eauto. Qed.

  (** *** termination *)
  Definition nb (x : bool) : nat := if x then 0 else 1.
  Fixpoint mu (d : nat) (c : chain) : nat :=
    match c with
    | Src t e b x => (List.length t + List.length (opt e)) * (Datatypes.S d) + List.length b * d + nb x
    | Stg u f s h b x => List.length b * d + List.length (opt h) * (Datatypes.S d) + mu (2 + d) u + nb x
    end.
  Lemma mu_set d c x r : buf c = x :: r -> mu d c = mu d (set_buf c r) + d.
  Proof. destruct c as [t e b0 z|u f s h b0 z]; cbn [buf set_buf mu]; intros ->; cbn [List.length]; lia. Qed.
  Lemma move_mu d c c' : move d c c' -> forall k, mu k c' < mu k c.
  Proof.
    induction 1 as [f t e b R|f t e b D|f b R|b|up f s b x r B|up f s b B C|up f s x b R|up f s x b D|up up' f s h b c M IH];
      intros k; cbn [mu opt nb]; rewrite ?app_length; cbn [List.length]; try lia.
    - rewrite (mu_set (2 + k) up x r B). lia.
    - specialize (IH (2 + k)). lia.
  Qed.
  Definition size (y : system) : nat := mu 1 (sys_chain y) + match sys_caller y with Running _ => 1 | Returned _ => 0 end.
  Lemma step_size y y' : step agg y y' -> size y' < size y.
  Proof.
    destruct 1 as [c c' k M|c x r a B|c a B C]; unfold size; cbn [sys_chain sys_caller].
    - pose proof (move_mu _ _ _ M 1). lia.
    - rewrite (mu_set 1 c x r B). destruct (agg a x); lia.
    - lia.
  Qed.
  Fixpoint depth (c : chain) : nat := match c with Src _ _ _ _ => 0 | Stg u _ _ _ _ _ => Datatypes.S (depth u) end.
  Lemma start_mu todo err (fs : list ((S -> F -> S * F) * S)) : forall d,
    mu d (start_chain todo err fs) = (List.length todo + List.length (opt err)) * (2 * List.length fs + d + 1) + List.length fs + 1.
  Proof.
    unfold start_chain. induction fs as [|[f s] fs IH] using rev_ind; intros d.
    - cbn [fold_left mu List.length nb]. lia.
    - rewrite fold_left_app. cbn [fold_left mu opt List.length nb fst snd]. rewrite IH, app_length. cbn [List.length]. lia.
  Qed.

  (** *** progress *)
  Lemma room_or b : room b \/ b <> [].
  Proof. destruct b; [left; unfold room, bufferSize; cbn; lia|right; discriminate]. Qed.
  Lemma progress_running c : (exists c', move false c c') \/ buf c <> [] \/ (buf c = [] /\ closed c = true).
  Proof.
    induction c as [t e b x|u IH f s h b x]; cbn [buf closed].
    - destruct x; [destruct b; [right; right; auto|right; left; discriminate]|]. destruct t as [|y t].
      + destruct e as [y|]; [|left; eexists; apply src_end]. destruct (room_or b); [left; eexists; now apply src_error|auto].
      + destruct (room_or b); [left; eexists; now apply src_send|auto].
    - destruct x; [destruct b; [right; right; auto|right; left; discriminate]|]. destruct h as [y|].
      + destruct (room_or b); [left; eexists; now apply stg_send|auto].
      + destruct IH as [[u' M]|[B|[B C]]].
        * left. eexists. apply stg_up. exact M.
        * left. destruct (buf u) as [|y r] eqn:EB; [congruence|]. eexists. eapply stg_recv. exact EB.
        * left. eexists. now apply stg_end.
  Qed.
  Fixpoint no_error (c : chain) : Prop := match c with Src _ e _ _ => e = None | Stg u _ _ _ _ _ => no_error u end.
  Lemma no_error_set c r : no_error (set_buf c r) <-> no_error c. Proof. now destruct c. Qed.
  Lemma move_no_error d c c' : move d c c' -> no_error c -> no_error c'.
  Proof. induction 1; cbn; auto. now rewrite no_error_set. Qed.
  Lemma progress_done c : no_error c -> (exists c', move true c c') \/ ended c.
  Proof.
    induction c as [t e b x|u IH f s h b x]; cbn [no_error ended]; intros NE.
    - destruct x; [now right|left]. destruct t; [subst e; eexists; apply src_end|eexists; now apply src_done].
    - destruct (IH NE) as [[u' M]|EN]; [left; eexists; apply stg_up; exact M|]. destruct x; [auto|left]. destruct h as [y|].
      + eexists. now apply stg_done.
      + destruct (buf u) as [|y r] eqn:EB; [eexists; apply stg_end; [exact EB|now apply ended_closed]|]. eexists. eapply stg_recv. exact EB.
  Qed.
  Lemma start_no_error todo (fs : list ((S -> F -> S * F) * S)) : no_error (start_chain todo None fs).
  Proof.
    unfold start_chain. assert (X : no_error (@Src F S todo None [] false)) by reflexivity. revert X. generalize (@Src F S todo None [] false) as c.
    induction fs as [|[f s] fs IH]; intros c W; cbn [fold_left]; [exact W|]. now apply IH.
  Qed.
  Lemma step_no_error y y' : step agg y y' -> no_error (sys_chain y) -> no_error (sys_chain y').
  Proof. destruct 1; cbn; auto; [eapply move_no_error; eauto|now rewrite no_error_set]. Qed.
End Lemmas.
