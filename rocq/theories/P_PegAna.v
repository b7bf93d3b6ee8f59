(** Soundness of the analysis of PegAna.v with respect to the semantics of Peg.v. *)
From Coq Require Import List String NArith ZArith Bool Arith Lia.
From Verif Require Import Peg PegAna.
Import ListNotations.
Open Scope list_scope.

(** [p'] is [p] after reading some runes *)
Definition reach (p p' : pos) : Prop :=
  exists t, rest p = t ++ rest p' /\ before p' = rev t ++ before p.
Lemma reach_refl : forall p, reach p p.
Proof. intros p; exists []; auto. Qed.
Lemma reach_trans : forall p q r, reach p q -> reach q r -> reach p r.
Proof.
  intros p q r (t & A & B) (u & C & D). exists (t ++ u). rewrite A, C, D, B, rev_app_distr, !app_assoc. auto.
Qed.
Lemma reach_advance : forall p, reach p (advance p).
Proof.
  intros [b [|r t]]; unfold advance; cbn [rest before].
  - apply reach_refl.
  - exists [r]. auto.
Qed.
Lemma advance_neq : forall p, at_eof p = false -> advance p <> p.
Proof.
  intros [b [|r t]]; unfold at_eof, advance; cbn [rest before]; intros E; try discriminate.
  intros C. injection C as C _. apply (f_equal (@List.length _)) in C. cbn in C. lia.
Qed.
Lemma reach_len : forall p q, reach p q -> List.length (rest q) <= List.length (rest p).
Proof. intros p q (t & A & _). rewrite A, app_length. lia. Qed.
Lemma reach_eq : forall p q, reach p q -> List.length (rest q) = List.length (rest p) -> q = p.
Proof.
  intros [b r] [b' r'] (t & A & B) L. cbn [rest before] in *.
  rewrite A, app_length in L. destruct t; [|cbn in L; lia]. cbn in A, B. now subst.
Qed.
Lemma pos_dec : forall p q : pos, {p = q} + {p <> q}.
Proof. decide equality; apply list_eq_dec, N.eq_dec. Qed.
Lemma reach_lt : forall p q, reach p q -> q <> p -> List.length (rest q) < List.length (rest p).
Proof.
  intros p q A B. pose proof (reach_len _ _ A).
  destruct (Nat.eq_dec (List.length (rest q)) (List.length (rest p))) as [E|]; [|lia].
  elim B. now apply reach_eq.
Qed.
Lemma reach_antisym_ne : forall p q r, reach p q -> reach q r -> q <> p -> r <> p.
Proof.
  intros p q r A B C E. subst r. pose proof (reach_lt _ _ A C). pose proof (reach_len _ _ B). lia.
Qed.

Lemma has_hall : forall h, has h hall = true.
Proof. now intros []. Qed.
Lemma has_union : forall h a b, has h (hunion a b) = has h a || has h b.
Proof. now intros []. Qed.
Lemma has_of : forall h f, has h (hset_of f) = f h.
Proof. now intros []. Qed.
Lemma hsub_has : forall a b h, hsub a b = true -> has h a = true -> has h b = true.
Proof.
  intros a b h A B. unfold hsub in A. rewrite forallb_forall in A.
  assert (In h heads) as I by (destruct h; cbn; tauto).
  specialize (A _ I). rewrite B in A. exact A.
Qed.
Lemma can_ok_next : forall a h, has h (a_next a) = true -> can_ok a = true.
Proof.
  intros a h A. unfold can_ok. apply orb_true_iff. right. apply existsb_exists. exists h. split; auto.
  destruct h; cbn; tauto.
Qed.
Lemma can_ok_null : forall a k, a_null a = Some k -> can_ok a = true.
Proof. intros a k A. unfold can_ok. now rewrite A. Qed.
Lemma some_next : forall s h, has h s = true -> existsb (fun x => has x s) heads = true.
Proof. intros s h A. apply existsb_exists. exists h. split; auto. destruct h; cbn; tauto. Qed.

Section Sound.
  Variable H : host.
  Variable G : grammar.
  Variable T : table.

  Definition vk (k : kind) (v : value (HV H)) : Prop :=
    match k with
    | KNil => v = VNil
    | KEmpty => v = VList []
    | KAllNil => all_nil_entry v = true
    | KAny => True
    end.
  Definition env_ok (ae : aenv) (en : labels (HV H)) : Prop :=
    match ae with None => True | Some a => forall l, vk (klabel a l) (label en l) end.

  Lemma vk_nilish : forall k v, vk k v -> nilish k = true -> all_nil_entry v = true.
  Proof. intros [] v A B; cbn in *; subst; auto; discriminate. Qed.
  Lemma vk_join_l : forall a b v, vk a v -> vk (kjoin a b) v.
  Proof. intros [] [] v A; cbn in *; subst; auto. Qed.
  Lemma vk_join_r : forall a b v, vk b v -> vk (kjoin a b) v.
  Proof. intros [] [] v A; cbn in *; subst; auto. Qed.
  Lemma vk_le : forall a b v, kle a b = true -> vk a v -> vk b v.
  Proof. intros [] [] v A B; cbn in *; subst; auto; discriminate. Qed.
  Lemma env_nil : env_ok (Some []) [].
  Proof. intros l. reflexivity. Qed.

  Definition gamma (A : ares * aenv) (p : pos) (r : res H) : Prop :=
    match r with
    | RPanic => True
    | RFail p' _ => p' = p /\ a_fail (fst A) = true
    | ROk v p' en' _ =>
        reach p p' /\
        (p' = p -> exists k, a_null (fst A) = Some k /\ vk k v /\ env_ok (snd A) en') /\
        (p' <> p -> has (head_of p') (a_next (fst A)) = true)
    end.

  Definition evaluator_ok (ev : evaluator H) : Prop :=
    forall e p en s ae r, ev e p en s = Some r -> env_ok ae en -> gamma (an T e (head_of p) ae) p r.

  (** literals *)
  Lemma lit_reach : forall w ic p p', lit_from H w ic p = Some p' -> reach p p'.
  Proof.
    induction w as [|c w IH]; intros ic p p' E; cbn [lit_from] in E.
    - injection E as <-. apply reach_refl.
    - destruct (N.eqb _ c); [|discriminate]. eapply reach_trans; [apply reach_advance|]. eapply IH, E.
  Qed.
  Lemma peek_head : forall p, head_of p = HOther -> special (peek p) = false /\ at_eof p = false.
  Proof.
    intros [b [|r t]]; unfold head_of, peek, at_eof, special; cbn [rest]; try discriminate.
    destruct (N.eqb r 10), (N.eqb r 13), (N.eqb r 124); try discriminate. auto.
  Qed.
  Lemma peek_rune : forall p r, rune_of (head_of p) = Some r -> peek p = r /\ at_eof p = false.
  Proof.
    intros [b [|x t]] r; unfold head_of, peek, at_eof; cbn [rest]; [discriminate|].
    destruct (N.eqb_spec x 10); [intros [= <-]; auto|].
    destruct (N.eqb_spec x 13); [intros [= <-]; auto|].
    destruct (N.eqb_spec x 124); [intros [= <-]; auto|]. discriminate.
  Qed.
  Lemma head_eof : forall p, head_of p = HEof -> at_eof p = true.
  Proof.
    intros [b [|x t]]; unfold head_of, at_eof; cbn [rest]; auto.
    destruct (N.eqb x 10), (N.eqb x 13), (N.eqb x 124); discriminate.
  Qed.
  Lemma eof_advance : forall p, at_eof p = true -> advance p = p.
  Proof. intros [b [|x t]]; unfold at_eof, advance; cbn [rest]; [reflexivity|discriminate]. Qed.
  Lemma eof_peek : forall p, at_eof p = true -> peek p = RuneError.
  Proof. intros [b [|x t]]; unfold at_eof, peek; cbn [rest]; [reflexivity|discriminate]. Qed.
  Lemma eof_reach : forall p q, at_eof p = true -> reach p q -> q = p.
  Proof.
    intros p q A R. apply reach_eq; auto. pose proof (reach_len _ _ R).
    destruct p as [b [|x t]]; [|discriminate]. cbn in *. lia.
  Qed.

  Lemma lit_sound : forall w ic p en s ae, env_ok ae en ->
    gamma (lit_an w ic (head_of p), ae) p
      (match lit_from H w ic p with
       | Some p' => ROk (VBytes (slice p p')) p' en s
       | None => RFail p s
       end).
  Proof.
    intros w ic p en s ae O. unfold lit_an. destruct w as [|c w].
    { cbn [lit_from]. repeat split; try (apply reach_refl); try congruence.
      intros _. exists KAny. cbn. auto. }
    destruct ic.
    { destruct (lit_from H (c :: w) true p) as [p'|] eqn:E.
      - apply lit_reach in E. repeat split; auto.
        + intros ->. exists KAny. cbn; auto.
        + intros _. apply has_hall.
      - split; reflexivity. }
    cbn [lit_from].
    destruct (head_of p) eqn:Eh.
    - apply head_eof in Eh. rewrite (eof_peek _ Eh), (eof_advance _ Eh).
      destruct (N.eqb_spec RuneError c) as [<-|N1].
      + rewrite N.eqb_refl. destruct (lit_from H w false p) as [p'|] eqn:E.
        * apply lit_reach in E. pose proof (eof_reach _ _ Eh E) as ->. repeat split; auto; try congruence.
          intros _. exists KAny. cbn; auto.
        * split; reflexivity.
      + destruct (N.eqb_spec c RuneError) as [->|]; [congruence|]. split; reflexivity.
    - destruct (peek_rune p 10%N) as [E1 E2]; [now rewrite Eh|]. rewrite E1. cbn [rune_of].
      destruct (N.eqb_spec 10 c) as [<-|]; [|split; reflexivity].
      destruct w as [|c2 w].
      + cbn [lit_from]. repeat split; [apply reach_advance| |intros _; apply has_hall].
        intros E. elim (advance_neq _ E2 E).
      + destruct (lit_from H (c2 :: w) false (advance p)) as [p'|] eqn:E; [|split; reflexivity].
        apply lit_reach in E. pose proof (reach_antisym_ne _ _ _ (reach_advance p) E (advance_neq _ E2)) as Ne.
        repeat split; [eapply reach_trans; [apply reach_advance|exact E]| |intros _; apply has_hall]. now intros.
    - destruct (peek_rune p 13%N) as [E1 E2]; [now rewrite Eh|]. rewrite E1. cbn [rune_of].
      destruct (N.eqb_spec 13 c) as [<-|]; [|split; reflexivity].
      destruct w as [|c2 w].
      + cbn [lit_from]. repeat split; [apply reach_advance| |intros _; apply has_hall].
        intros E. elim (advance_neq _ E2 E).
      + destruct (lit_from H (c2 :: w) false (advance p)) as [p'|] eqn:E; [|split; reflexivity].
        apply lit_reach in E. pose proof (reach_antisym_ne _ _ _ (reach_advance p) E (advance_neq _ E2)) as Ne.
        repeat split; [eapply reach_trans; [apply reach_advance|exact E]| |intros _; apply has_hall]. now intros.
    - destruct (peek_rune p 124%N) as [E1 E2]; [now rewrite Eh|]. rewrite E1. cbn [rune_of].
      destruct (N.eqb_spec 124 c) as [<-|]; [|split; reflexivity].
      destruct w as [|c2 w].
      + cbn [lit_from]. repeat split; [apply reach_advance| |intros _; apply has_hall].
        intros E. elim (advance_neq _ E2 E).
      + destruct (lit_from H (c2 :: w) false (advance p)) as [p'|] eqn:E; [|split; reflexivity].
        apply lit_reach in E. pose proof (reach_antisym_ne _ _ _ (reach_advance p) E (advance_neq _ E2)) as Ne.
        repeat split; [eapply reach_trans; [apply reach_advance|exact E]| |intros _; apply has_hall]. now intros.
    - destruct (peek_head _ Eh) as [E1 E2].
      destruct (N.eqb_spec (peek p) c) as [<-|].
      + rewrite E1. destruct (lit_from H w false (advance p)) as [p'|] eqn:E; [|split; reflexivity].
        apply lit_reach in E. pose proof (reach_antisym_ne _ _ _ (reach_advance p) E (advance_neq _ E2)) as Ne.
        repeat split; [eapply reach_trans; [apply reach_advance|exact E]| |intros _; apply has_hall]. now intros.
      + destruct (special c); split; reflexivity.
  Qed.

  Lemma step_sound : forall f p en s ae, env_ok ae en -> at_eof p = false ->
    gamma (Ares f None hall, ae) p (ROk (VBytes (slice p (advance p))) (advance p) en s).
  Proof.
    intros f p en s ae O E. repeat split; [apply reach_advance| |intros _; apply has_hall].
    intros C. elim (advance_neq _ E C).
  Qed.
  Lemma cls_sound : forall cs rs us inv p en s ae, env_ok ae en ->
    gamma (cls_an cs rs us inv (head_of p), ae) p
      (if at_eof p then RFail p s
       else if Bool.eqb (in_cls H cs rs us (peek p)) inv then RFail p s
       else ROk (VBytes (slice p (advance p))) (advance p) en s).
  Proof.
    intros cs rs us inv p en s ae O.
    assert (forall r, rune_of (head_of p) = Some r -> us = [] ->
       gamma ((let m := existsb (N.eqb r) cs || existsb (fun ab => N.leb (fst ab) r && N.leb r (snd ab)) rs in
             if Bool.eqb m inv then Ares true None hnone else Ares false None hall), ae) p
      (if at_eof p then RFail p s
       else if Bool.eqb (in_cls H cs rs us (peek p)) inv then RFail p s
       else ROk (VBytes (slice p (advance p))) (advance p) en s)) as X.
    { intros r Er ->. destruct (peek_rune _ _ Er) as [E1 E2]. rewrite E1, E2. unfold in_cls. cbn [existsb].
      rewrite orb_false_r. cbv zeta. destruct (Bool.eqb _ inv); [split; reflexivity|]. now apply step_sound. }
    assert (gamma (Ares true None hall, ae) p
      (if at_eof p then RFail p s
       else if Bool.eqb (in_cls H cs rs us (peek p)) inv then RFail p s
       else ROk (VBytes (slice p (advance p))) (advance p) en s)) as Y.
    { destruct (at_eof p) eqn:E; [split; reflexivity|]. destruct (Bool.eqb _ inv); [split; reflexivity|].
      now apply step_sound. }
    unfold cls_an. destruct (head_of p) eqn:Eh.
    - rewrite (head_eof _ Eh). split; reflexivity.
    - destruct us; [apply X; reflexivity|exact Y].
    - destruct us; [apply X; reflexivity|exact Y].
    - destruct us; [apply X; reflexivity|exact Y].
    - destruct rs as [|]; [|exact Y]. destruct us; [|exact Y].
      destruct (forallb special cs) eqn:F; [|exact Y].
      destruct (peek_head _ Eh) as [E1 E2]. rewrite E2. unfold in_cls. cbn [existsb]. rewrite !orb_false_r.
      assert (existsb (N.eqb (peek p)) cs = false) as ->.
      { destruct (existsb (N.eqb (peek p)) cs) eqn:Ex; auto. apply existsb_exists in Ex. destruct Ex as (c & I1 & I2).
        apply N.eqb_eq in I2. subst c. rewrite (proj1 (forallb_forall _ _) F _ I1) in E1. discriminate. }
      destruct inv; cbn [Bool.eqb]; [now apply step_sound|split; reflexivity].
  Qed.

  Lemma pred_sound : forall q p en s ae, env_ok ae en ->
    gamma (pred_an q ae, ae) p
      (match run_pred H q en s with
       | None => RPanic
       | Some (true, s') => ROk VNil p en s'
       | Some (false, s') => RFail p s'
       end).
  Proof.
    intros q p en s ae O.
    assert (forall k, gamma (Ares true (Some KNil) hnone, ae) p
      (match k with None => RPanic | Some (true, s') => ROk VNil p en s' | Some (false, s') => RFail p s' end)) as U.
    { intros [[[] s']|]; cbn; auto. repeat split; try apply reach_refl; try congruence.
      intros _. exists KNil. cbn. auto. }
    assert (forall s', gamma (Ares true None hnone, ae) p (RFail p s')) as F.
    { intros s'. split; reflexivity. }
    destruct ae as [a|]; [|apply U]. unfold pred_an. cbn in O.
    destruct q; try apply U.
    - destruct (forallb _ ls) eqn:E; [|apply U].
      rewrite forallb_forall in E. cbn [run_pred].
      assert (existsb (fun l => match label en l with VNil => false | _ => true end) ls = false) as ->; [|apply F].
      destruct (existsb _ ls) eqn:X; auto. apply existsb_exists in X. destruct X as (l & I1 & I2).
      specialize (E _ I1). specialize (O l). destruct (klabel a l); try discriminate. cbn in O. rewrite O in I2. discriminate.
    - pose proof (O m) as Om. pose proof (O x) as Ox. destruct (klabel a m); try apply U. destruct (klabel a x); try apply U.
      cbn in Om, Ox. cbn [run_pred]. rewrite Om, Ox. apply F.
    - destruct (nilish (klabel a l)) eqn:E; [|apply U]. pose proof (vk_nilish _ _ (O l) E) as V.
      cbn [run_pred]. destruct (label en l); cbn [all_nil_entry] in V; try discriminate; try exact Logic.I.
      rewrite V. apply F.
  Qed.

  (** sequences *)
  Definition seq_inv (st : sst) (p0 p : pos) (en : labels (HV H)) (acc : list (value (HV H))) : Prop :=
    reach p0 p /\
    (p = p0 -> exists emp alln ae, q_null st = Some (emp, alln, ae) /\ env_ok ae en /\
        (emp = true -> acc = []) /\ (alln = true -> forallb all_nil_entry acc = true)) /\
    (p <> p0 -> has (head_of p) (q_next st) = true).

  Lemma forallb_rev : forall (f : value (HV H) -> bool) l, forallb f l = true -> forallb f (rev l) = true.
  Proof. intros f l A. rewrite forallb_forall in *. intros x I. apply A. now apply in_rev. Qed.

  Lemma seq_step_fail_null : forall f h st emp alln ae, q_null st = Some (emp, alln, ae) ->
    a_fail (fst (f h ae)) = true -> q_fail (seq_step f h st) = true.
  Proof.
    intros f h st emp alln ae E F. unfold seq_step. rewrite E. destruct (f h ae) as [r ae']. cbn [fst] in F.
    cbn [q_fail]. rewrite F. destruct (q_fail st); reflexivity.
  Qed.
  Lemma seq_step_fail_next : forall f h st h2, has h2 (q_next st) = true ->
    a_fail (fst (f h2 None)) = true -> q_fail (seq_step f h st) = true.
  Proof.
    intros f h st h2 E F. unfold seq_step.
    destruct (match q_null st with Some _ => _ | None => _ end) as [[f0 n0] x0]. cbn [q_fail].
    apply orb_true_iff. right. apply existsb_exists. exists (h2, fst (f h2 None)). split; [|exact F].
    apply in_map_iff. exists h2. rewrite E. split; [reflexivity|]. destruct h2; cbn; tauto.
  Qed.
  Lemma seq_step_old_fail : forall f h st, q_fail st = true -> q_fail (seq_step f h st) = true.
  Proof.
    intros f h st E. unfold seq_step.
    destruct (match q_null st with Some _ => _ | None => _ end) as [[f0 n0] x0]. cbn [q_fail]. now rewrite E.
  Qed.
  Lemma seq_step_null : forall f h st emp alln ae k, q_null st = Some (emp, alln, ae) ->
    a_null (fst (f h ae)) = Some k ->
    q_null (seq_step f h st) = Some (false, alln && nilish k, snd (f h ae)).
  Proof.
    intros f h st emp alln ae k E F. unfold seq_step. rewrite E. destruct (f h ae) as [r ae']. cbn [fst snd] in *.
    cbn [q_null]. now rewrite F.
  Qed.
  Lemma seq_step_next_null : forall f h st emp alln ae h', q_null st = Some (emp, alln, ae) ->
    has h' (a_next (fst (f h ae))) = true -> has h' (q_next (seq_step f h st)) = true.
  Proof.
    intros f h st emp alln ae h' E F. unfold seq_step. rewrite E. destruct (f h ae) as [r ae']. cbn [fst snd] in *.
    cbn [q_next]. rewrite has_union, F. reflexivity.
  Qed.
  Definition same_head (a b : head) : bool :=
    match a, b with HEof, HEof => true | HLF, HLF => true | HCR, HCR => true | HBar, HBar => true | HOther, HOther => true | _, _ => false end.
  Lemma fold_hunion : forall (g : head * ares -> hset) l hr h, In hr l -> has h (g hr) = true ->
    has h (fold_right (fun hr acc => hunion (g hr) acc) hnone l) = true.
  Proof.
    intros g l hr h I F. induction l as [|x l IH]; [destruct I|]. cbn [fold_right]. rewrite has_union.
    destruct I as [->|I]; [now rewrite F|]. rewrite (IH I). apply orb_true_r.
  Qed.
  Lemma seq_step_next_next : forall f h st h2 h', has h2 (q_next st) = true ->
    (has h' (a_next (fst (f h2 None))) = true \/ (h' = h2 /\ exists k, a_null (fst (f h2 None)) = Some k)) ->
    has h' (q_next (seq_step f h st)) = true.
  Proof.
    intros f h st h2 h' E F. unfold seq_step.
    destruct (match q_null st with Some _ => _ | None => _ end) as [[f0 n0] x0]. cbn [q_next].
    rewrite has_union. apply orb_true_iff. right.
    apply (fold_hunion (fun hr => hunion (a_next (snd hr)) (match a_null (snd hr) with Some _ => hset_of (fun h2 => match h2, fst hr with
            | HEof, HEof => true | HLF, HLF => true | HCR, HCR => true | HBar, HBar => true | HOther, HOther => true | _, _ => false end)
            | None => hnone end)) _ (h2, fst (f h2 None))).
    - apply in_map_iff. exists h2. rewrite E. split; [reflexivity|]. destruct h2; cbn; tauto.
    - cbn [fst snd]. rewrite has_union. destruct F as [F|[-> [k F]]]; [now rewrite F|]. rewrite F, has_of.
      destruct h2; apply orb_true_r.
  Qed.

  Lemma seq_an_old_fail : forall h l st, q_fail st = true -> q_fail (seq_an T h l st) = true.
  Proof. induction l as [|x l IH]; intros st E; cbn [seq_an]; auto. apply IH. now apply seq_step_old_fail. Qed.

  Lemma seq_inv_step : forall ev, evaluator_ok ev -> forall x p0 p en s v p' en' s' st acc,
    ev x p en s = Some (ROk v p' en' s') -> seq_inv st p0 p en acc ->
    seq_inv (seq_step (an T x) (head_of p0) st) p0 p' en' (v :: acc).
  Proof.
    intros ev EV x p0 p en s v p' en' s' st acc E (I1 & I2 & I3).
    destruct (pos_dec p p0) as [->|Ne].
    - destruct (I2 eq_refl) as (emp & alln & ae & E1 & E2 & E3 & E4).
      destruct (EV _ _ _ _ ae _ E E2) as (A & B & C). repeat split; auto.
      + intros Ep. destruct (B Ep) as (k & K1 & K2 & K3).
        exists false, (alln && nilish k), (snd (an T x (head_of p0) ae)). repeat split; auto.
        * eapply seq_step_null; eauto.
        * discriminate.
        * intros F. apply andb_true_iff in F. destruct F as [F1 F2]. cbn [forallb].
          rewrite (vk_nilish _ _ K2 F2), (E4 F1). reflexivity.
      + intros Ep. eapply seq_step_next_null; eauto.
    - destruct (EV _ _ _ _ None _ E Logic.I) as (A & B & C). pose proof (reach_antisym_ne _ _ _ I1 A Ne) as Ne'.
      repeat split; [eapply reach_trans; eauto|now intros|]. intros _.
      eapply seq_step_next_next; [apply I3; auto|].
      destruct (pos_dec p' p) as [->|Ne2]; [|left; apply C; auto]. right. split; auto.
      destruct (B eq_refl) as (k & K & _). eauto.
  Qed.
  Lemma seq_fail_step : forall ev, evaluator_ok ev -> forall x p0 p en s p' s' st acc,
    ev x p en s = Some (RFail p' s') -> seq_inv st p0 p en acc ->
    q_fail (seq_step (an T x) (head_of p0) st) = true.
  Proof.
    intros ev EV x p0 p en s p' s' st acc E (I1 & I2 & I3).
    destruct (pos_dec p p0) as [->|Ne].
    - destruct (I2 eq_refl) as (emp & alln & ae & E1 & E2 & E3 & E4).
      destruct (EV _ _ _ _ ae _ E E2) as (A & B). eapply seq_step_fail_null; eauto.
    - destruct (EV _ _ _ _ None _ E Logic.I) as (A & B). eapply seq_step_fail_next; [apply I3; auto|auto].
  Qed.
  Lemma seq_sound : forall ev, evaluator_ok ev -> forall l p0 s0 p en s acc st r,
    seq_from H ev l p0 s0 p en s acc = Some r -> seq_inv st p0 p en acc ->
    gamma (seq_res (seq_an T (head_of p0) l st)) p0 r.
  Proof.
    intros ev EV. induction l as [|x l IH]; intros p0 s0 p en s acc st r E I; cbn [seq_from seq_an] in *.
    - injection E as <-. destruct I as (I1 & I2 & I3). unfold seq_res. repeat split; auto.
      + intros Ep. destruct (I2 Ep) as (emp & alln & ae & E1 & E2 & E3 & E4). rewrite E1. cbn [fst snd a_null].
        eexists. split; [reflexivity|]. split; auto. destruct emp; [|destruct alln].
        * rewrite (E3 eq_refl). reflexivity.
        * cbn [vk all_nil_entry]. apply forallb_rev. auto.
        * exact Logic.I.
      + intros Ep. destruct (q_null st) as [[[emp alln] ae]|]; cbn; auto.
    - destruct (ev x p en s) as [[v p' en' s'|p' s'|]|] eqn:Ex; try discriminate.
      + eapply IH; [exact E|]. eapply seq_inv_step; eauto.
      + injection E as <-. split; auto. pose proof (seq_fail_step _ EV _ _ _ _ _ _ _ _ _ Ex I) as F.
        pose proof (seq_an_old_fail (head_of p0) l _ F) as F2. unfold seq_res.
        destruct (q_null _) as [[[emp alln] ae]|]; cbn; auto.
      + injection E as <-. exact Logic.I.
  Qed.

  Lemma okjoin_l : forall a k v b, a = Some k -> vk k v -> exists k', okjoin a b = Some k' /\ vk k' v.
  Proof. intros a k v b -> V. destruct b; cbn; eexists; split; try reflexivity; auto. now apply vk_join_l. Qed.
  Lemma okjoin_r : forall a k v b, b = Some k -> vk k v -> exists k', okjoin a b = Some k' /\ vk k' v.
  Proof. intros a k v b -> V. destruct a; cbn; eexists; split; try reflexivity; auto. now apply vk_join_r. Qed.

  Lemma alt_sound : forall ev, evaluator_ok ev -> forall l p en s ae r,
    alt_from H ev l p en s = Some r -> env_ok ae en -> gamma (alt_an T (head_of p) l, ae) p r.
  Proof.
    intros ev EV. induction l as [|x l IH]; intros p en s ae r E O; cbn [alt_from alt_an] in *.
    - injection E as <-. split; reflexivity.
    - destruct (ev x p [] s) as [[v p' en' s'|p' s'|]|] eqn:Ex; try discriminate.
      + injection E as <-. destruct (EV _ _ _ _ (Some []) _ Ex env_nil) as (A & B & C).
        destruct (an T x (head_of p) (Some [])) as [rx aex]. cbn [fst snd] in *.
        destruct (a_fail rx).
        * repeat split; auto.
          -- intros Ep. destruct (B Ep) as (k & K1 & K2 & _).
             destruct (okjoin_l _ _ _ (a_null (alt_an T (head_of p) l)) K1 K2) as (k' & K3 & K4).
             exists k'. cbn [fst snd a_null]. auto.
          -- intros Ep. cbn [fst a_next]. rewrite has_union, (C Ep). reflexivity.
        * repeat split; auto. intros Ep. destruct (B Ep) as (k & K1 & K2 & _). exists k. auto.
      + destruct (EV _ _ _ _ (Some []) _ Ex env_nil) as (-> & F). rewrite F.
        specialize (IH _ _ _ _ _ E O). destruct r as [v p'' en'' s''|p'' s''|]; auto.
        destruct IH as (A & B & C). repeat split; auto.
        * intros Ep. destruct (B Ep) as (k & K1 & K2 & K3). cbn [fst] in K1.
          destruct (okjoin_r (a_null (fst (an T x (head_of p) (Some [])))) _ _ _ K1 K2) as (k' & K4 & K5).
          exists k'. cbn [fst snd a_null] in *. auto.
        * intros Ep. cbn [fst a_next]. rewrite has_union. unfold gamma in C. cbn [fst] in C. rewrite (C Ep). apply orb_true_r.
      + injection E as <-. exact Logic.I.
  Qed.

  (** loops: the heads at which the loop can stop *)
  Definition star_exit (e : expr) : hset := hset_of (fun h2 => a_fail (fst (an T e h2 (Some [])))).
  Lemma star_sound : forall ev, evaluator_ok ev -> forall n e b p0 p en s acc r,
    star_from H ev n e b p en s acc = Some r -> reach p0 p ->
    match r with
    | RPanic => True
    | RFail p' _ => b = true /\ acc = [] /\ p' = p /\ a_fail (fst (an T e (head_of p) (Some []))) = true
    | ROk v p' en' _ => reach p p' /\ en' = en /\ has (head_of p') (star_exit e) = true /\
        (p' <> p -> existsb (fun x => has x (a_next (fst (an T e (head_of p) (Some []))))) heads = true) /\
        (p' = p -> (exists k, a_null (fst (an T e (head_of p) (Some []))) = Some k) \/
                   (v = VList (rev acc) /\ (acc = [] -> b = false)))
    end.
  Proof.
    intros ev EV. induction n as [|n IH]; intros e b p0 p en s acc r E Rp; cbn [star_from] in E; [discriminate|].
    destruct (ev e p [] s) as [[v p' en' s'|p' s'|]|] eqn:Ex; try discriminate.
    - destruct (EV _ _ _ _ (Some []) _ Ex env_nil) as (A & B & C).
      specialize (IH e b p0 p' en s' (v :: acc) r E (reach_trans _ _ _ Rp A)).
      destruct r as [v2 p2 en2 s2|p2 s2|]; auto.
      + destruct IH as (I1 & I2 & I3 & I4 & I5). split; [eapply reach_trans; eauto|]. split; auto. split; auto.
        split.
        * intros Ne. destruct (pos_dec p' p) as [->|Ne1]; [apply I4; auto|]. eapply some_next. apply C; auto.
        * intros ->. assert (p' = p) as ->.
          { destruct (pos_dec p' p) as [|Ne]; auto. elim (reach_antisym_ne _ _ _ A I1 Ne eq_refl). }
          left. destruct (B eq_refl) as (k & K & _). eauto.
      + destruct IH as (_ & C1 & _). discriminate.
    - destruct (EV _ _ _ _ (Some []) _ Ex env_nil) as (-> & F).
      destruct acc as [|a acc].
      + destruct b; injection E as <-.
        * auto.
        * split; [apply reach_refl|]. split; auto. split; [unfold star_exit; now rewrite has_of|].
          split; [congruence|]. auto.
      + injection E as <-. split; [apply reach_refl|]. split; auto.
        split; [unfold star_exit; now rewrite has_of|]. split; [congruence|]. right. split; [reflexivity|discriminate].
    - injection E as <-. exact Logic.I.
  Qed.

  Hypothesis TOK : table_ok G T = true.

  Lemma rule_of_in : forall g r e, rule_of g r = Some e -> In (r, e) g.
  Proof.
    induction g as [|[k e'] g IH]; intros r e E; cbn [rule_of] in E; [discriminate|].
    destruct (String.eqb_spec r k) as [->|]; [injection E as ->; now left|]. right. now apply IH.
  Qed.
  Lemma table_rule : forall r e h, rule_of G r = Some e ->
    ale (fst (an T e h (Some []))) (tab_get aany T r h) = true.
  Proof.
    intros r e h E. apply rule_of_in in E. pose proof TOK as K. unfold table_ok in K. apply andb_true_iff in K.
    destruct K as [K _]. rewrite forallb_forall in K.
    specialize (K _ E). cbn [fst snd] in K. rewrite forallb_forall in K. apply K. destruct h; cbn; tauto.
  Qed.
  Lemma tab_row_in : forall A (t : list (string * list A)) r row, tab_row t r = Some row -> In (r, row) t.
  Proof.
    induction t as [|[k v] t IH]; intros r row E; cbn [tab_row] in E; [discriminate|].
    destruct (String.eqb_spec r k) as [->|]; [injection E as ->; now left|]. right. now apply IH.
  Qed.
  Lemma table_no_rule : forall r h, rule_of G r = None -> tab_get aany T r h = aany.
  Proof.
    intros r h E. pose proof TOK as K. unfold table_ok in K. apply andb_true_iff in K. destruct K as [_ K].
    unfold tab_get. destruct (tab_row T r) as [row|] eqn:Er; auto. apply tab_row_in in Er.
    rewrite forallb_forall in K. specialize (K _ Er). cbn [fst] in K. rewrite E in K. discriminate.
  Qed.
  Lemma gamma_le : forall a b ae ae' p v p' en en' s, ale a b = true ->
    gamma (a, ae') p (ROk v p' en' s) -> env_ok ae en -> gamma (b, ae) p (ROk v p' en s).
  Proof.
    intros a b ae ae' p v p' en en' s L (A & B & C) O. unfold ale in L. apply andb_true_iff in L. destruct L as [L L3].
    apply andb_true_iff in L. destruct L as [L1 L2]. cbn [fst snd] in *. repeat split; auto.
    - intros Ep. destruct (B Ep) as (k & K1 & K2 & _). rewrite K1 in L2. cbn [okle] in L2. cbn [fst snd].
      destruct (a_null b) as [k'|]; [|discriminate]. exists k'. repeat split; auto. eapply vk_le; eauto.
    - intros Ep. eapply hsub_has; eauto.
  Qed.

  Theorem eval_sound : forall n, evaluator_ok (eval H G n).
  Proof.
    induction n as [|n IH]; intros e p en s ae r E O; [discriminate|].
    destruct e as [w ic|cs rs us inv| |l|l|e|e|e|e|e|q|c|a e|l e|rr]; cbn [eval] in E.
    - injection E as <-. cbn [an]. now apply lit_sound.
    - injection E as <-. cbn [an]. now apply cls_sound.
    - injection E as <-. cbn [an]. destruct (at_eof p) eqn:Ee.
      + destruct p as [b [|x t]]; [|discriminate]. split; reflexivity.
      + assert (match head_of p with HEof => Ares true None hnone | _ => Ares false None hall end = Ares false None hall) as ->.
        { destruct (head_of p) eqn:Eh; auto. apply head_eof in Eh. congruence. }
        now apply step_sound.
    - change (an T (ESeq l) (head_of p) ae) with (seq_res (seq_an T (head_of p) l (Sst false (Some (true, true, ae)) hnone))).
      eapply seq_sound; [exact IH|exact E|]. repeat split; [apply reach_refl| |congruence].
      intros _. exists true, true, ae. cbn. auto.
    - change (an T (EAlt l) (head_of p) ae) with (alt_an T (head_of p) l, ae).
      eapply alt_sound; eauto.
    - cbn [an]. pose proof (star_sound _ IH _ _ _ p _ _ _ _ _ E (reach_refl p)) as S.
      destruct r as [v p' en' s'|p' s'|]; auto.
      + destruct S as (A & -> & C & D & F). repeat split; auto; cbn [fst snd a_null a_next].
        * intros Ep. destruct (F Ep) as [[k ->]|[-> _]].
          -- exists KAny. cbn; auto.
          -- destruct (a_null _).
             ++ exists KAny. cbn; auto.
             ++ subst p'. unfold star_exit in C. rewrite has_of in C. rewrite C. exists KEmpty. cbn; auto.
        * intros Ep. rewrite (D Ep). exact C.
      + destruct S as (C & _). discriminate.
    - cbn [an]. pose proof (star_sound _ IH _ _ _ p _ _ _ _ _ E (reach_refl p)) as S.
      destruct r as [v p' en' s'|p' s'|]; auto.
      + destruct S as (A & -> & C & D & F). repeat split; auto; cbn [fst snd a_null a_next].
        * intros Ep. destruct (F Ep) as [[k ->]|[_ C1]].
          -- exists KAny. cbn; auto.
          -- specialize (C1 eq_refl). discriminate.
        * intros Ep. rewrite (D Ep). exact C.
      + destruct S as (_ & _ & -> & F). split; auto.
    - cbn [an]. destruct (eval H G n e p [] s) as [[v p' en' s'|p' s'|]|] eqn:Ex; try discriminate; injection E as <-.
      + destruct (IH _ _ _ _ (Some []) _ Ex env_nil) as (A & B & C). repeat split; auto; cbn [fst snd a_null a_next].
        intros Ep. destruct (B Ep) as (k & K1 & K2 & _).
        destruct (okjoin_l _ _ _ (if a_fail (fst (an T e (head_of p) (Some []))) then Some KNil else None) K1 K2) as (k' & K3 & K4).
        exists k'. auto.
      + destruct (IH _ _ _ _ (Some []) _ Ex env_nil) as (-> & F). repeat split; try apply reach_refl; try congruence.
        intros _. cbn [fst snd a_null]. rewrite F.
        destruct (okjoin_r (a_null (fst (an T e (head_of p) (Some [])))) KNil VNil (Some KNil) eq_refl eq_refl) as (k' & K3 & K4).
        exists k'. auto.
      + exact Logic.I.
    - cbn [an]. destruct (eval H G n e p [] s) as [[v p' en' s'|p' s'|]|] eqn:Ex; try discriminate; injection E as <-.
      + destruct (IH _ _ _ _ (Some []) _ Ex env_nil) as (A & B & C). repeat split; try apply reach_refl; try congruence.
        intros _. cbn [fst snd a_null].
        assert (can_ok (fst (an T e (head_of p) (Some []))) = true) as ->.
        { destruct (pos_dec p' p) as [Ep|Ep]; [destruct (B Ep) as (k & K & _); eapply can_ok_null; eauto|].
          eapply can_ok_next; apply C; auto. }
        exists KNil. cbn; auto.
      + destruct (IH _ _ _ _ (Some []) _ Ex env_nil) as (A & F). split; auto.
      + exact Logic.I.
    - cbn [an]. destruct (eval H G n e p [] s) as [[v p' en' s'|p' s'|]|] eqn:Ex; try discriminate; injection E as <-.
      + destruct (IH _ _ _ _ (Some []) _ Ex env_nil) as (A & B & C). split; auto. cbn [fst a_fail].
        destruct (pos_dec p' p) as [Ep|Ep]; [destruct (B Ep) as (k & K & _); eapply can_ok_null; eauto|].
        eapply can_ok_next; apply C; auto.
      + destruct (IH _ _ _ _ (Some []) _ Ex env_nil) as (A & F). repeat split; try apply reach_refl; try congruence.
        intros _. cbn [fst snd a_null]. rewrite F. exists KNil. cbn; auto.
      + exact Logic.I.
    - injection E as <-. cbn [an]. now apply pred_sound.
    - injection E as <-. cbn [an]. destruct (h_state H c en s) as [[[err g] st]|]; [|exact Logic.I].
      repeat split; try apply reach_refl; try congruence. intros _. exists KNil. cbn; auto.
    - cbn [an]. destruct (eval H G n e p en s) as [[v p' en' s'|p' s'|]|] eqn:Ex; try discriminate; injection E as <-.
      + pose proof (IH _ _ _ _ ae _ Ex O) as (A & B & C).
        destruct (an T e (head_of p) ae) as [rx aex]. cbn [fst snd] in *.
        destruct (run_act H a en' _) as [[v' s'']|] eqn:Ea; [|exact Logic.I].
        repeat split; auto. intros Ep. destruct (B Ep) as (k & K1 & K2 & K3). cbn [fst snd a_null]. rewrite K1.
        eexists. split; [reflexivity|]. split; auto.
        destruct a; cbn [run_act act_kind] in *; try exact Logic.I.
        * injection Ea as <- <-. destruct aex; [apply K3|exact Logic.I].
        * injection Ea as <- <-. reflexivity.
        * destruct (h_act H code en' _) as [[[v0 err] g]|]; [|discriminate]. injection Ea as <- <-.
          destruct aex as [ax|]; [|exact Logic.I]. specialize (K3 l). destruct (klabel ax l); try exact Logic.I.
          cbn [vk] in *. rewrite K3. reflexivity.
      + pose proof (IH _ _ _ _ ae _ Ex O) as (A & F). destruct (an T e (head_of p) ae) as [rx aex]. split; auto.
      + destruct (an T e (head_of p) ae). exact Logic.I.
    - cbn [an]. destruct (eval H G n e p [] s) as [[v p' en' s'|p' s'|]|] eqn:Ex; try discriminate; injection E as <-.
      + pose proof (IH _ _ _ _ (Some []) _ Ex env_nil) as (A & B & C).
        destruct (an T e (head_of p) (Some [])) as [rx aex]. cbn [fst snd] in *. repeat split; auto.
        intros Ep. destruct (B Ep) as (k & K1 & K2 & K3). exists k. cbn [fst snd]. split; auto. split; auto.
        rewrite K1. destruct ae as [ae|]; [|exact Logic.I]. intros l0. cbn [klabel label].
        destruct (String.eqb l0 l); [exact K2|apply O].
      + pose proof (IH _ _ _ _ (Some []) _ Ex env_nil) as (A & F). destruct (an T e (head_of p) (Some [])). split; auto.
      + exact Logic.I.
    - cbn [an]. destruct (rule_of G rr) as [e1|] eqn:Er.
      + pose proof (table_rule rr e1 (head_of p) Er) as L.
        destruct (eval H G n e1 p [] s) as [[v p' en' s'|p' s'|]|] eqn:Ex; try discriminate; injection E as <-.
        * pose proof (IH _ _ _ _ (Some []) _ Ex env_nil) as X.
          destruct (an T e1 (head_of p) (Some [])) as [a0 ae0]. exact (gamma_le _ _ _ _ _ _ _ _ _ _ L X O).
        * pose proof (IH _ _ _ _ (Some []) _ Ex env_nil) as (A & F). split; auto. cbn [fst].
          unfold ale in L. rewrite F in L. cbn [implb] in L. apply andb_true_iff in L. destruct L as [L _].
          apply andb_true_iff in L. tauto.
        * exact Logic.I.
      + injection E as <-. split; auto. rewrite (table_no_rule _ _ Er). reflexivity.
  Qed.
End Sound.
