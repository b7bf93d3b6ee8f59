(** A grammar that passes the checks of PegAna.v always terminates. *)
From Coq Require Import List String NArith ZArith Bool Arith Lia.
From Verif Require Import Peg PegAna P_PegAna.
Import ListNotations.
Open Scope list_scope.

Section ExprInd.
  Variable P : expr -> Prop.
  Hypothesis HLit : forall w ic, P (ELit w ic).
  Hypothesis HCls : forall a b c d, P (ECls a b c d).
  Hypothesis HAny : P EAny.
  Hypothesis HSeq : forall l, Forall P l -> P (ESeq l).
  Hypothesis HAlt : forall l, Forall P l -> P (EAlt l).
  Hypothesis HStar : forall e, P e -> P (EStar e).
  Hypothesis HPlus : forall e, P e -> P (EPlus e).
  Hypothesis HOpt : forall e, P e -> P (EOpt e).
  Hypothesis HAnd : forall e, P e -> P (EAnd e).
  Hypothesis HNot : forall e, P e -> P (ENot e).
  Hypothesis HPred : forall q, P (EPred q).
  Hypothesis HState : forall c, P (EState c).
  Hypothesis HAct : forall a e, P e -> P (EAct a e).
  Hypothesis HLab : forall l e, P e -> P (ELab l e).
  Hypothesis HRef : forall r, P (ERef r).
  Fixpoint expr_ind2 (e : expr) : P e :=
    match e with
    | ELit w ic => HLit w ic
    | ECls a b c d => HCls a b c d
    | EAny => HAny
    | ESeq l => HSeq l ((fix go l : Forall P l := match l with [] => Forall_nil _ | x :: l' => Forall_cons _ (expr_ind2 x) (go l') end) l)
    | EAlt l => HAlt l ((fix go l : Forall P l := match l with [] => Forall_nil _ | x :: l' => Forall_cons _ (expr_ind2 x) (go l') end) l)
    | EStar e => HStar e (expr_ind2 e)
    | EPlus e => HPlus e (expr_ind2 e)
    | EOpt e => HOpt e (expr_ind2 e)
    | EAnd e => HAnd e (expr_ind2 e)
    | ENot e => HNot e (expr_ind2 e)
    | EPred q => HPred q
    | EState c => HState c
    | EAct a e => HAct a e (expr_ind2 e)
    | ELab l e => HLab l e (expr_ind2 e)
    | ERef r => HRef r
    end.
End ExprInd.

Section Mono.
  Variable H : host.
  Variable G : grammar.
  Definition ev_le (ev ev' : evaluator H) : Prop :=
    forall e p en s r, ev e p en s = Some r -> ev' e p en s = Some r.
  Lemma seq_mono : forall ev ev', ev_le ev ev' -> forall l p0 s0 p en s acc r,
    seq_from H ev l p0 s0 p en s acc = Some r -> seq_from H ev' l p0 s0 p en s acc = Some r.
  Proof.
    intros ev ev' L. induction l as [|x l IH]; intros p0 s0 p en s acc r E; cbn [seq_from] in *; auto.
    destruct (ev x p en s) as [rx|] eqn:Ex; [|discriminate]. rewrite (L _ _ _ _ _ Ex). destruct rx; auto.
  Qed.
  Lemma alt_mono : forall ev ev', ev_le ev ev' -> forall l p en s r,
    alt_from H ev l p en s = Some r -> alt_from H ev' l p en s = Some r.
  Proof.
    intros ev ev' L. induction l as [|x l IH]; intros p en s r E; cbn [alt_from] in *; auto.
    destruct (ev x p [] s) as [rx|] eqn:Ex; [|discriminate]. rewrite (L _ _ _ _ _ Ex). destruct rx; auto.
  Qed.
  Lemma star_mono : forall ev ev', ev_le ev ev' -> forall n m e b p en s acc r, n <= m ->
    star_from H ev n e b p en s acc = Some r -> star_from H ev' m e b p en s acc = Some r.
  Proof.
    intros ev ev' L. induction n as [|n IH]; intros m e b p en s acc r Le E; cbn [star_from] in *; [discriminate|].
    destruct m as [|m]; [lia|]. cbn [star_from].
    destruct (ev e p [] s) as [rx|] eqn:Ex; [|discriminate]. rewrite (L _ _ _ _ _ Ex). destruct rx; auto.
    apply IH; auto. lia.
  Qed.
  Lemma eval_mono1 : forall n, ev_le (eval H G n) (eval H G (S n)).
  Proof.
    induction n as [|n IH]; intros e p en s r E; [discriminate|].
    destruct e as [w ic|cs rs us inv| |l|l|e|e|e|e|e|q|c|a e|l e|rr]; remember (S n) as m eqn:Em;
      cbn [eval]; rewrite Em in E; cbn [eval] in E; auto; subst m.
    - eapply seq_mono; eauto.
    - eapply alt_mono; eauto.
    - eapply star_mono; [eauto| |exact E]. lia.
    - eapply star_mono; [eauto| |exact E]. lia.
    - destruct (eval H G n e p [] s) as [rx|] eqn:Ex; [|discriminate]. now rewrite (IH _ _ _ _ _ Ex).
    - destruct (eval H G n e p [] s) as [rx|] eqn:Ex; [|discriminate]. now rewrite (IH _ _ _ _ _ Ex).
    - destruct (eval H G n e p [] s) as [rx|] eqn:Ex; [|discriminate]. now rewrite (IH _ _ _ _ _ Ex).
    - destruct (eval H G n e p en s) as [rx|] eqn:Ex; [|discriminate]. now rewrite (IH _ _ _ _ _ Ex).
    - destruct (eval H G n e p [] s) as [rx|] eqn:Ex; [|discriminate]. now rewrite (IH _ _ _ _ _ Ex).
    - destruct (rule_of G rr) as [e1|]; auto.
      destruct (eval H G n e1 p [] s) as [rx|] eqn:Ex; [|discriminate]. now rewrite (IH _ _ _ _ _ Ex).
  Qed.
  Lemma eval_mono : forall n m, n <= m -> ev_le (eval H G n) (eval H G m).
  Proof.
    intros n m L. induction L as [|m L IH]; intros e p en s r E; auto. apply eval_mono1. now apply IH.
  Qed.
End Mono.

Section Term.
  Variable H : host.
  Variable G : grammar.
  Variable T : table.
  Variable RK : list (string * list nat).
  Hypothesis TOK : table_ok G T = true.
  Hypothesis LOK : loops_all_ok G T = true.
  Hypothesis ROK : ranks_ok G T RK = true.

  Definition halts (e : expr) (p : pos) (en : labels (HV H)) (s : soft (HS H) (HT H)) : Prop :=
    exists n r, eval H G n e p en s = Some r.

  Lemma rule_loops : forall r e, rule_of G r = Some e -> loops_ok T e = true.
  Proof.
    intros r e E. apply rule_of_in in E. unfold loops_all_ok in LOK. rewrite forallb_forall in LOK. apply (LOK _ E).
  Qed.
  Lemma rule_calls : forall r e h, rule_of G r = Some e -> calls T RK e h (Some []) <= tab_get 0 RK r h.
  Proof.
    intros r e h E. apply rule_of_in in E. pose proof ROK as K. unfold ranks_ok in K. rewrite forallb_forall in K.
    specialize (K _ E). rewrite forallb_forall in K. specialize (K h). cbn [fst snd] in K.
    apply Nat.leb_le, K. destruct h; cbn; tauto.
  Qed.
  Lemma body_reads : forall e h, forallb (fun h => match a_null (fst (an T e h (Some []))) with None => true | _ => false end) heads = true ->
    a_null (fst (an T e h (Some []))) = None.
  Proof.
    intros e h E. rewrite forallb_forall in E. specialize (E h).
    destruct (a_null _); auto. discriminate E. destruct h; cbn; tauto.
  Qed.

  Lemma seq_halts : forall l p0 s0 p en s acc ae,
    (forall q, List.length (rest q) < List.length (rest p0) -> forall e en s, loops_ok T e = true -> halts e q en s) ->
    forall k, Forall (fun x => forall ae en s, loops_ok T x = true -> env_ok H ae en -> calls T RK x (head_of p0) ae <= k -> halts x p0 en s) l ->
    forallb (loops_ok T) l = true -> reach p0 p -> (p = p0 -> env_ok H ae en /\ seq_calls T RK (head_of p0) l ae <= k) ->
    exists n r, seq_from H (eval H G n) l p0 s0 p en s acc = Some r.
  Proof.
    intros l. induction l as [|x l IH]; intros p0 s0 p en s acc ae Hshort k F LO Rp Hp.
    { exists 0. eexists. reflexivity. }
    cbn [forallb] in LO. apply andb_true_iff in LO. destruct LO as [L1 L2].
    assert (halts x p en s) as (n1 & r1 & E1).
    { destruct (pos_dec p p0) as [->|Ne].
      - destruct (Hp eq_refl) as [Hp1 Hp2]. inversion F; subst. eapply H2; eauto.
        cbn [seq_calls] in Hp2. destruct (an T x (head_of p0) ae). lia.
      - apply Hshort; auto. now apply reach_lt. }
    destruct r1 as [v p' en' s'|p' s'|].
    - pose proof (eval_sound H G T TOK n1 _ _ _ _ None _ E1 Logic.I) as (R' & _ & _).
      pose (ae' := snd (an T x (head_of p0) ae)).
      assert (exists n2 r2, seq_from H (eval H G n2) l p0 s0 p' en' s' (v :: acc) = Some r2) as (n2 & r2 & E2).
      { eapply (IH p0 s0 p' en' s' (v :: acc) ae' Hshort k); auto.
        - now inversion F.
        - eapply reach_trans; eauto.
        - intros ->. assert (p = p0) as ->.
          { destruct (pos_dec p p0) as [|Ne]; auto. elim (reach_antisym_ne _ _ _ Rp R' Ne eq_refl). }
          destruct (Hp eq_refl) as [Hp1 Hp2].
          destruct (eval_sound H G T TOK n1 _ _ _ _ ae _ E1 Hp1) as (_ & B & _).
          destruct (B eq_refl) as (kk & K1 & K2 & K3). split; auto.
          cbn [seq_calls] in Hp2. subst ae'. destruct (an T x (head_of p0) ae) as [rr aer]. cbn [fst snd] in *.
          rewrite K1 in Hp2. lia. }
      exists (Nat.max n1 n2), r2. cbn [seq_from].
      rewrite (eval_mono H G n1 (Nat.max n1 n2) ltac:(lia) _ _ _ _ _ E1).
      eapply seq_mono; [|exact E2]. apply eval_mono. lia.
    - exists n1. eexists. cbn [seq_from]. rewrite E1. reflexivity.
    - exists n1. eexists. cbn [seq_from]. rewrite E1. reflexivity.
  Qed.

  Lemma alt_halts : forall l p en s,
    (forall x, In x l -> forall s, halts x p [] s) ->
    exists n r, alt_from H (eval H G n) l p en s = Some r.
  Proof.
    induction l as [|x l IH]; intros p en s F.
    { exists 0. eexists. reflexivity. }
    destruct (F x (or_introl eq_refl) s) as (n1 & r1 & E1). destruct r1 as [v p' en' s'|p' s'|].
    - exists n1. eexists. cbn [alt_from]. rewrite E1. reflexivity.
    - destruct (eval_sound H G T TOK n1 _ _ _ _ None _ E1 Logic.I) as (-> & _).
      destruct (IH p en (back s s')) as (n2 & r2 & E2). { intros y I. apply F. now right. }
      exists (Nat.max n1 n2), r2. cbn [alt_from].
      rewrite (eval_mono H G n1 (Nat.max n1 n2) ltac:(lia) _ _ _ _ _ E1).
      eapply alt_mono; [|exact E2]. apply eval_mono. lia.
    - exists n1. eexists. cbn [alt_from]. rewrite E1. reflexivity.
  Qed.

  Lemma star_halts : forall e b p0 en,
    (forall h, a_null (fst (an T e h (Some []))) = None) ->
    (forall q, reach p0 q -> forall s, halts e q [] s) ->
    forall m p, List.length (rest p) < m -> reach p0 p -> forall s acc,
    exists n r, star_from H (eval H G n) n e b p en s acc = Some r.
  Proof.
    intros e b p0 en NN F. induction m as [|m IH]; intros p L Rp s acc; [lia|].
    destruct (F p Rp s) as (n1 & r1 & E1).
    assert (eval H G (S n1) e p [] s = Some r1) as E1' by now apply eval_mono1.
    destruct r1 as [v p' en' s'|p' s'|].
    - destruct (eval_sound H G T TOK n1 _ _ _ _ (Some []) _ E1 (env_nil H)) as (R' & B & _).
      assert (p' <> p) as Ne.
      { intros Ep. destruct (B Ep) as (k & K & _). rewrite NN in K. discriminate. }
      pose proof (reach_lt _ _ R' Ne).
      destruct (IH p' ltac:(lia) (reach_trans _ _ _ Rp R') s' (v :: acc)) as (n2 & r2 & E2).
      exists (S (Nat.max n1 n2)), r2. cbn [star_from].
      rewrite (eval_mono H G n1 (S (Nat.max n1 n2)) ltac:(lia) _ _ _ _ _ E1).
      eapply star_mono; [| |exact E2]; [apply eval_mono; lia|lia].
    - exists (S n1). destruct acc, b; eexists; cbn [star_from]; rewrite E1'; reflexivity.
    - exists (S n1). eexists. cbn [star_from]. rewrite E1'. reflexivity.
  Qed.

  Theorem always_halts : forall m p, List.length (rest p) < m ->
    forall k e ae en s, loops_ok T e = true -> env_ok H ae en -> calls T RK e (head_of p) ae <= k -> halts e p en s.
  Proof.
    induction m as [|m IHm]; intros p Lp; [lia|].
    assert (forall q, List.length (rest q) < List.length (rest p) -> forall e en s, loops_ok T e = true -> halts e q en s) as Hshort.
    { intros q Lq e en s LO. eapply (IHm q ltac:(lia) (calls T RK e (head_of q) None) e None); auto. exact Logic.I. }
    assert (forall e, loops_ok T e = true -> (forall s, halts e p [] s) -> forall q, reach p q -> forall s, halts e q [] s) as Hall.
    { intros e LO F q Rq s. destruct (pos_dec q p) as [->|Ne]; auto. apply Hshort; auto. now apply reach_lt. }
    induction k as [k IHk] using lt_wf_ind.
    intros e. induction e as [w ic|cs rs us inv| |l IHl|l IHl|e IHe|e IHe|e IHe|e IHe|e IHe|q|c|a e IHe|l e IHe|rr] using expr_ind2;
      intros ae en s LO O C; try (exists 1; eexists; cbn [eval]; reflexivity).
    - change (calls T RK (ESeq l) (head_of p) ae) with (seq_calls T RK (head_of p) l ae) in C.
      destruct (seq_halts l p s p en s [] ae Hshort k) as (n & r & E); auto; [apply reach_refl|].
      exists (S n), r. exact E.
    - change (calls T RK (EAlt l) (head_of p) ae) with (alt_calls T RK (head_of p) l) in C.
      cbn [loops_ok] in LO.
      destruct (alt_halts l p en s) as (n & r & E).
      + intros x I s'. rewrite Forall_forall in IHl. eapply (IHl x I (Some [])); [|apply env_nil|].
        * rewrite forallb_forall in LO. now apply LO.
        * clear - C I. induction l as [|y l IH]; [destruct I|]. cbn [alt_calls] in C. fold (alt_calls T RK (head_of p)) in C.
          destruct I as [->|I]; [lia|]. apply IH; auto. lia.
      + exists (S n), r. exact E.
    - cbn [loops_ok] in LO. apply andb_true_iff in LO. destruct LO as [LO L2].
      destruct (star_halts e false p en (fun h => body_reads e h L2)) with (m := S (List.length (rest p))) (p := p) (s := s) (acc := @nil (value (HV H))) as (n & r & E); [|lia|apply reach_refl|].
      + apply Hall; auto. intros s'. eapply (IHe (Some [])); auto. apply env_nil.
      + exists (S n), r. exact E.
    - cbn [loops_ok] in LO. apply andb_true_iff in LO. destruct LO as [LO L2].
      destruct (star_halts e true p en (fun h => body_reads e h L2)) with (m := S (List.length (rest p))) (p := p) (s := s) (acc := @nil (value (HV H))) as (n & r & E); [|lia|apply reach_refl|].
      + apply Hall; auto. intros s'. eapply (IHe (Some [])); auto. apply env_nil.
      + exists (S n), r. exact E.
    - destruct (IHe (Some []) [] s LO (env_nil H) C) as (n & r & E).
      exists (S n). destruct r; eexists; cbn [eval]; rewrite E; reflexivity.
    - destruct (IHe (Some []) [] s LO (env_nil H) C) as (n & r & E).
      exists (S n). destruct r; eexists; cbn [eval]; rewrite E; reflexivity.
    - destruct (IHe (Some []) [] s LO (env_nil H) C) as (n & r & E).
      exists (S n). destruct r; eexists; cbn [eval]; rewrite E; reflexivity.
    - destruct (IHe ae en s LO O C) as (n & r & E).
      exists (S n). destruct r; eexists; cbn [eval]; rewrite E; reflexivity.
    - destruct (IHe (Some []) [] s LO (env_nil H) C) as (n & r & E).
      exists (S n). destruct r; eexists; cbn [eval]; rewrite E; reflexivity.
    - destruct (rule_of G rr) as [e1|] eqn:Er.
      + cbn [calls] in C. pose proof (rule_calls rr e1 (head_of p) Er) as Rc.
        destruct (IHk (tab_get 0 RK rr (head_of p)) ltac:(lia) e1 (Some []) [] s (rule_loops _ _ Er) (env_nil H) Rc) as (n & r & E).
        exists (S n). destruct r; eexists; cbn [eval]; rewrite Er, E; reflexivity.
      + exists 1. eexists. cbn [eval]. rewrite Er. reflexivity.
  Qed.

  Theorem parse_halts : forall entry text g, exists n r, parse H G n entry text g = Some r.
  Proof.
    intros entry text g. unfold parse. eapply (always_halts _ (Pos [] text) (Nat.lt_succ_diag_r _) _ (ERef entry) None); auto.
    exact Logic.I.
  Qed.
End Term.
