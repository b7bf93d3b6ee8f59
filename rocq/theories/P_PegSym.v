(** Soundness of PegSym.v: the outcome of the parser is one of those it computes. *)
From Coq Require Import List String NArith ZArith Bool Arith Lia.
From Verif Require Import Peg PegSym.
Import ListNotations.
Local Open Scope list_scope.

Section SymSound.
  Variable H : host.
  Variable G : grammar.
  Variable kcls : string -> rune -> option bool.
  Variable klow : rune -> option rune.
  Variable kwhite : rune -> option bool.
  Variable quiet_pred : string -> bool.
  Variable opened : bool.
  Variable tail : list rune.
  Hypothesis Htail : opened = false -> tail = [].
  Hypothesis Hquiet : forall c, quiet_pred c = true -> forall en s, exists b, h_pred H c en s = Some (b, false, c_store s).
  Hypothesis Hcls : forall c r b, kcls c r = Some b -> in_class H c r = b.
  Hypothesis Hlow : forall r b, klow r = Some b -> to_lower H r = b.
  Hypothesis Hwhite : forall r b, kwhite r = Some b -> is_white H r = b.

  Fixpoint sabs (x : sval) (v : value (HV H)) {struct x} : Prop :=
    match x with
    | SAny => True
    | SNil => v = VNil
    | SBytes t => v = VBytes t
    | SStr t => v = VStr t
    | SInt z => v = VInt z
    | SList l => exists vs, v = VList vs /\
        (fix go (l : list sval) (vs : list (value (HV H))) : Prop :=
           match l, vs with
           | [], [] => True
           | x :: l', v :: vs' => sabs x v /\ go l' vs'
           | _, _ => False
           end) l vs
    end.
  Definition sabsl := fix go (l : list sval) (vs : list (value (HV H))) : Prop :=
           match l, vs with
           | [], [] => True
           | x :: l', v :: vs' => sabs x v /\ go l' vs'
           | _, _ => False
           end.
  Lemma sabsl_snoc : forall l vs x v, sabsl l vs -> sabs x v -> sabsl (l ++ [x]) (vs ++ [v]).
  Proof. induction l as [|y l IH]; intros [|w vs] x v A B; cbn in *; try tauto. destruct A. split; auto. Qed.
  Lemma sabsl_rev : forall l vs, sabsl l vs -> sabsl (rev l) (rev vs).
  Proof.
    induction l as [|x l IH]; intros [|v vs] A; cbn in *; try tauto. destruct A. apply sabsl_snoc; auto.
  Qed.
  Definition senv_ok (a : senv) (en : labels (HV H)) : Prop := forall l, sabs (slabel a l) (label en l).
  Lemma senv_nil : senv_ok [] [].
  Proof. intros l. reflexivity. Qed.
  Lemma senv_cons : forall a en l x v, senv_ok a en -> sabs x v -> senv_ok ((l, x) :: a) ((l, v) :: en).
  Proof. intros a en l x v A B k. cbn. destruct (String.eqb k l); auto. Qed.

  (** the position, with the rest of the text *)
  Definition whole (p : pos) : pos := Pos (before p) (rest p ++ tail).
  (** only c.text and c.pos may differ *)
  Definition same (s s' : soft (HS H) (HT H)) : Prop :=
    p_errs s' = p_errs s /\ c_store s' = c_store s /\ c_state s' = c_state s.
  Lemma same_refl : forall s, same s s. Proof. repeat split. Qed.
  Lemma same_trans : forall a b c, same a b -> same b c -> same a c.
  Proof. intros a b c (A & B & C) (D & E & F). unfold same. rewrite D, E, F. auto. Qed.
  Lemma same_back : forall a b, same a b -> same a (back a b).
  Proof. intros a b (A & B & C). repeat split; auto. Qed.
  (** [t]: what c.state is after a failure *)
  Definition orel (p : pos) (t : HT H) (s : soft (HS H) (HT H)) (o : out) (r : res H) : Prop :=
    match o, r with
    | OOk x q a d, ROk v p' en s' => p' = whole q /\ sabs x v /\ senv_ok a en /\ (d = false -> same s s')
    | OFail d, RFail p' s' => p' = whole p /\ (d = false -> p_errs s' = p_errs s /\ c_store s' = c_store s /\ c_state s' = t)
    | OPanic, RPanic => True
    | _, _ => False
    end.
  Definition covers (p : pos) (s : soft (HS H) (HT H)) (outs : list out) (r : res H) : Prop :=
    exists o, In o outs /\ orel p (c_state s) s o r.
  Lemma orel_stain : forall d p t s s' o r, (d = false -> same s s') -> orel p t s' o r -> orel p t s (stain d o) r.
  Proof.
    intros d p t s s' [x q a d'|d'|] [v p' en s2|p' s2|] D R; cbn [stain orel] in *; try tauto.
    - destruct R as (A & B & C & E). repeat split; auto; destruct d, d'; cbn in *; try discriminate;
        eapply same_trans; eauto.
    - destruct R as (A & E). split; auto. destruct d, d'; cbn in *; try discriminate. intros _.
      destruct (D eq_refl) as (D1 & D2 & D3). destruct (E eq_refl) as (E1 & E2 & E3). rewrite <- D1, <- D2. auto.
  Qed.
  Lemma slice_whole : forall p q, slice (whole p) (whole q) = slice p q.
  Proof.
    intros p q. unfold slice, whole. cbn [rest]. rewrite !app_length.
    replace (List.length (rest p) + List.length tail - (List.length (rest q) + List.length tail))
      with (List.length (rest p) - List.length (rest q)) by lia.
    rewrite firstn_app. replace (List.length (rest p) - List.length (rest q) - List.length (rest p)) with 0 by lia.
    cbn. now rewrite app_nil_r.
  Qed.
  Lemma beyond_eof : forall p, beyond opened p = false -> at_eof (whole p) = at_eof p /\ peek (whole p) = peek p /\ advance (whole p) = whole (advance p).
  Proof.
    intros [b [|x l]] B; unfold beyond, at_eof, peek, advance, whole in *; cbn in *; auto.
    rewrite andb_true_r in B. rewrite (Htail B). auto.
  Qed.

  Lemma covers_tidy : forall p s outs r, covers p s outs r -> covers p s (tidy outs) r.
  Proof.
    intros p s outs r (o & I & R). exists o. split; auto. unfold tidy. rewrite !in_app_iff.
    destruct o as [x q a d|[]|].
    - left. apply filter_In. auto.
    - right. right. left. assert (existsb isDirty outs = true) as -> by (apply existsb_exists; exists (OFail true); auto). now left.
    - right. left. assert (existsb isClean outs = true) as -> by (apply existsb_exists; exists (OFail false); auto). now left.
    - right. right. right. assert (existsb isPanic outs = true) as -> by (apply existsb_exists; exists OPanic; auto). now left.
  Qed.
  Lemma gather_in : forall A (f : A -> option (list out)) l outs x, gather f l = Some outs -> In x l ->
    exists o, f x = Some o /\ forall y, In y o -> In y outs.
  Proof.
    induction l as [|a l IH]; intros outs x E I; cbn [gather] in E; [destruct I|].
    destruct (f a) as [o1|] eqn:Ef; [|discriminate]. destruct (gather f l) as [o2|] eqn:Eg; [|discriminate].
    injection E as <-. destruct I as [->|I].
    - exists o1. split; auto. intros y. rewrite in_app_iff. auto.
    - destruct (IH _ _ eq_refl I) as (o & F & S). exists o. split; auto. intros y Y. rewrite in_app_iff. auto.
  Qed.

  Definition sev_ok (ev : evaluator H) (sv : sev) : Prop :=
    forall e p a en s outs, sv e p a = Some outs -> senv_ok a en ->
      exists r, ev e (whole p) en s = Some r /\ covers p s outs r.

  Lemma slit_ok : forall w ic p r, slit klow opened w ic p = Some r -> lit_from H w ic (whole p) = option_map whole r.
  Proof.
    induction w as [|c w IH]; intros ic p r E; cbn [slit lit_from] in *; [injection E as <-; reflexivity|].
    destruct (beyond opened p) eqn:B; [discriminate|]. destruct (beyond_eof _ B) as (_ & -> & ->).
    destruct ic.
    - destruct (klow (peek p)) as [x|] eqn:Ex; [|discriminate]. apply Hlow in Ex. rewrite Ex.
      destruct (N.eqb x c); [now apply IH|injection E as <-; reflexivity].
    - destruct (N.eqb (peek p) c); [now apply IH|injection E as <-; reflexivity].
  Qed.
  Lemma kor_ok : forall A (f : A -> option bool) (g : A -> bool) l b,
    (forall x y, f x = Some y -> g x = y) -> kor (map f l) = Some b -> existsb g l = b.
  Proof.
    intros A f g l. induction l as [|x l IH]; intros b Hf E; cbn [map kor existsb] in *; [congruence|].
    destruct (f x) as [[]|] eqn:Ef.
    - apply Hf in Ef. rewrite Ef. cbn. congruence.
    - apply Hf in Ef. rewrite Ef. cbn. now apply IH.
    - destruct (kor (map f l)) as [[]|]; try discriminate. rewrite (IH true Hf eq_refl). rewrite orb_true_r. congruence.
  Qed.
  Lemma scls_ok : forall cs rs us r b, scls kcls cs rs us r = Some b -> in_cls H cs rs us r = b.
  Proof.
    intros cs rs us r b E. unfold scls in E. unfold in_cls.
    destruct (existsb (N.eqb r) cs || existsb (fun ab => N.leb (fst ab) r && N.leb r (snd ab)) rs) eqn:F; cbn in *.
    - congruence.
    - apply (kor_ok _ (fun c => kcls c r) (fun c => in_class H c r) us b); auto.
  Qed.
  Lemma isnil_ok : forall x v b, sabs x v -> isnil x = Some b -> (match v with VNil => true | _ => false end) = b.
  Proof. intros [] v b A E; cbn in *; try discriminate; injection E as <-; try (subst; reflexivity). destruct A as (vs & -> & _). reflexivity. Qed.
  Lemma sallnil_ok : forall x v b, sabs x v -> sallnil x = Some b -> all_nil_entry v = b.
  Proof.
    fix IH 1. intros x v b A E. destruct x; cbn in A, E; try discriminate; try (injection E as <-; subst; reflexivity).
    destruct A as (vs & -> & A). cbn [all_nil_entry]. revert vs b A E.
    induction l as [|y l IHl]; intros [|w vs] b A E; try (destruct A; fail).
    - cbn. congruence.
    - destruct A as [A1 A2]. cbn [forallb]. destruct (sallnil y) as [[]|] eqn:Ey; try discriminate.
      + rewrite (IH y w true A1 Ey). cbn. eapply IHl; eauto.
      + rewrite (IH y w false A1 Ey). cbn. congruence.
  Qed.

  Lemma maybe_some : forall p a en s b k, senv_ok a en -> (forall x, k = Some x -> x = b) ->
    exists r, Some (if b : bool then ROk VNil (whole p) en s else RFail (whole p) s) = Some r /\ covers p s (maybe p a k) r.
  Proof.
    pose proof same_refl as SR.
    intros p a en s b k O E. eexists. split; [reflexivity|]. destruct k as [x|].
    - rewrite (E x eq_refl). destruct b; [exists (OOk SNil p a false)|exists (OFail false)]; cbn; auto.
    - destruct b; [exists (OOk SNil p a true)|exists (OFail true)]; cbn; auto.
  Qed.
  Lemma maybe_none : forall p a en s (q : option (bool * soft (HS H) (HT H))), senv_ok a en ->
    covers p s (maybe p a None) (match q with None => RPanic | Some (true, s') => ROk VNil (whole p) en s' | Some (false, s') => RFail (whole p) s' end).
  Proof.
    intros p a en s [[[] s']|] O; [exists (OOk SNil p a true)|exists (OFail true)|exists OPanic]; cbn; repeat split; auto; discriminate.
  Qed.
  Lemma spred_ok : forall q p a en s, senv_ok a en ->
    covers p s (spred kwhite quiet_pred q p a)
      (match run_pred H q en s with None => RPanic | Some (true, s') => ROk VNil (whole p) en s' | Some (false, s') => RFail (whole p) s' end).
  Proof.
    intros q p a en s O.
    assert (forall b k, (forall x, k = Some x -> x = b) -> covers p s (maybe p a k)
       (match Some (b, s) with None => RPanic | Some (true, s') => ROk VNil (whole p) en s' | Some (false, s') => RFail (whole p) s' end)) as X.
    { intros b k E. destruct (maybe_some p a en s b k O E) as (r & R & C). injection R as <-. destruct b; exact C. }
    destruct q; cbn [spred]; try (apply maybe_none; exact O).
    - cbn [run_pred]. apply X. intros x E. symmetry.
      eapply kor_ok in E; [exact E|]. intros l y Ey. cbn beta in Ey.
      destruct (isnil (slabel a l)) as [z|] eqn:Ez; [|discriminate]. injection Ey as <-.
      pose proof (isnil_ok _ _ _ (O l) Ez) as W. destruct (label en l); cbn in *; subst z; reflexivity.
    - pose proof (O l) as Ol. destruct (slabel a l) eqn:El; try (apply maybe_none; exact O).
      destruct Ol as (vs & Ev & Ol). cbn [run_pred]. rewrite Ev. apply X. intros x E.
      destruct (sallnil (SList l0)) as [z|] eqn:Ez; [|discriminate]. injection E as <-.
      assert (all_nil_entry (VList vs) = z) as W by (apply (sallnil_ok (SList l0)); [exists vs; auto|exact Ez]).
      cbn [all_nil_entry] in W. rewrite W. reflexivity.
    - pose proof (O l) as Ol. destruct (slabel a l) eqn:El; try (apply maybe_none; exact O).
      cbn in Ol. cbn [run_pred]. rewrite Ol. apply X. intros x E. symmetry.
      eapply kor_ok in E; [exact E|]. intros r y Ey. cbn beta in Ey.
      destruct (kwhite r) as [z|] eqn:Ez; [|discriminate]. injection Ey as <-. now rewrite (Hwhite _ _ Ez).
    - pose proof (O l) as Ol. destruct (slabel a l) eqn:El; try (apply maybe_none; exact O).
      cbn in Ol. cbn [run_pred]. rewrite Ol. apply X. congruence.
    - pose proof (O l) as Ol. destruct (slabel a l) eqn:El; try (apply maybe_none; exact O).
      cbn in Ol. cbn [run_pred]. rewrite Ol. apply X. congruence.
    - pose proof (O l) as Ol. destruct (slabel a l) eqn:El; try (apply maybe_none; exact O).
      cbn in Ol. cbn [run_pred]. rewrite Ol. apply X. congruence.
    - destruct (quiet_pred code) eqn:Eq; [|apply maybe_none; exact O].
      cbn [run_pred]. destruct (Hquiet code Eq en s) as (b & ->). rewrite orb_false_r.
      destruct b; [exists (OOk SNil p a false)|exists (OFail false)]; cbn; repeat split; auto.
  Qed.

  Lemma sseq_ok : forall ev sv, sev_ok ev sv -> forall l p0 s0 p a en s acc vs outs,
    sseq sv l p a acc = Some outs -> senv_ok a en -> sabsl acc vs ->
    exists r, seq_from H ev l (whole p0) s0 (whole p) en s vs = Some r /\
      exists o, In o outs /\ orel p0 (c_state s0) s o r.
  Proof.
    intros ev sv OK. induction l as [|x l IH]; intros p0 s0 p a en s acc vs outs E O A; cbn [sseq seq_from] in *.
    - injection E as <-. eexists. split; [reflexivity|]. exists (OOk (SList (rev acc)) p a false). split; [now left|].
      cbn. split; auto. split; [exists (rev vs); split; auto; apply (sabsl_rev _ _ A)|]. split; auto. intros _. apply same_refl.
    - destruct (sv x p a) as [ox|] eqn:Ex; [|discriminate].
      destruct (OK _ _ _ _ s _ Ex O) as (r & Er & o & I & R). rewrite Er.
      destruct (gather_in _ _ _ _ _ E I) as (o2 & F & S).
      destruct o as [v p' a' d|d|]; destruct r as [w q en' s'|q s'|]; cbn [orel] in R; try tauto.
      + destruct R as (-> & R1 & R2 & R3).
        destruct (sseq sv l p' a' (v :: acc)) as [o3|] eqn:E3; [|discriminate]. cbn in F. injection F as <-.
        destruct (IH p0 s0 p' a' en' s' (v :: acc) (w :: vs) o3 E3 R2) as (r & Er2 & o & I2 & R4).
        { cbn. auto. }
        exists r. split; auto. exists (stain d o). split; [apply S, in_map; auto|]. eapply orel_stain; eauto.
      + injection F as <-. eexists. split; [reflexivity|]. exists (OFail d). split; [apply S; now left|].
        cbn. destruct R as (_ & R). split; auto. intros D. destruct (R D) as (A1 & A2 & A3). auto.
      + injection F as <-. eexists. split; [reflexivity|]. exists OPanic. split; [apply S; now left|]. exact Logic.I.
  Qed.
  Lemma scoped_in : forall a outs o, In o outs ->
    In (match o with OOk v p' _ d => OOk v p' a d | o => o end) (scoped a outs).
  Proof. intros a outs o I. unfold scoped. apply in_map_iff. exists o. auto. Qed.
  Lemma salt_ok : forall ev sv, sev_ok ev sv -> forall l p a en s outs,
    salt sv l p a = Some outs -> senv_ok a en ->
    exists r, alt_from H ev l (whole p) en s = Some r /\ covers p s outs r.
  Proof.
    intros ev sv OK. induction l as [|x l IH]; intros p a en s outs E O; cbn [salt alt_from] in *.
    - injection E as <-. eexists. split; [reflexivity|]. exists (OFail false). split; [now left|]. cbn. auto.
    - destruct (sv x p []) as [ox|] eqn:Ex; [|discriminate].
      destruct (OK _ _ _ _ s _ Ex senv_nil) as (r & Er & o & I & R). rewrite Er.
      assert (forall o', isFail o' = false -> In o' ox -> In (match o' with OOk v p' _ d => OOk v p' a d | o => o end) outs) as X.
      { intros o' F Io. destruct (existsb isFail ox).
        - destruct (salt sv l p a); [|discriminate]. injection E as <-. rewrite in_app_iff. left. apply scoped_in.
          apply filter_In. rewrite F. auto.
        - injection E as <-. now apply scoped_in. }
      destruct o as [v p' a' d|d|]; destruct r as [w q en' s'|q s'|]; cbn [orel] in R; try tauto.
      + destruct R as (-> & R1 & R2 & R3). eexists. split; [reflexivity|]. exists (OOk v p' a d). split; [apply (X (OOk v p' a' d) eq_refl I)|].
        cbn. auto.
      + destruct R as (-> & R3). assert (existsb isFail ox = true) as Ef by (apply existsb_exists; exists (OFail d); auto). rewrite Ef in E.
        destruct (salt sv l p a) as [more|] eqn:Em; [|discriminate]. injection E as <-.
        destruct (IH p a en (back s s') more Em O) as (r & Er2 & o & I2 & R2). exists r. split; auto.
        exists (stain (existsb isDirty ox) o). split; [rewrite in_app_iff; right; now apply in_map|].
        eapply orel_stain; [|exact R2]. intros Dirty. destruct d.
        { assert (existsb isDirty ox = true) as Ed by (apply existsb_exists; exists (OFail true); auto). congruence. }
        destruct (R3 eq_refl) as (A1 & A2 & A3). repeat split; auto.
      + eexists. split; [reflexivity|]. exists OPanic. split; [apply (X OPanic eq_refl I)|exact Logic.I].
  Qed.
  Lemma sstar_ok : forall ev sv, sev_ok ev sv -> forall n e b p0 (s0 : soft (HS H) (HT H)) p a en s acc vs outs,
    sstar sv n e b p a acc = Some outs -> senv_ok a en -> sabsl acc vs -> (acc = [] -> p = p0 /\ c_state (s0 : soft (HS H) (HT H)) = c_state s) ->
    exists r, star_from H ev n e b (whole p) en s vs = Some r /\ exists o, In o outs /\ orel p0 (c_state s0) s o r.
  Proof.
    intros ev sv OK. induction n as [|n IH]; intros e b p0 s0 p a en s acc vs outs E O A P0; cbn [sstar star_from] in *; [discriminate|].
    destruct (sv e p []) as [ox|] eqn:Ex; [|discriminate].
    destruct (OK _ _ _ _ s _ Ex senv_nil) as (r & Er & o & I & R). rewrite Er.
    destruct (gather_in _ _ _ _ _ E I) as (o2 & F & S).
    destruct o as [v p' a' d|d|]; destruct r as [w q en' s'|q s'|]; cbn [orel] in R; try tauto.
    - destruct R as (-> & R1 & R2 & R3).
      destruct (sstar sv n e b p' a (v :: acc)) as [o3|] eqn:E3; [|discriminate]. cbn in F. injection F as <-.
      destruct (IH e b p0 s0 p' a en s' (v :: acc) (w :: vs) o3 E3 O) as (r & Er2 & o & I2 & R4).
      { cbn. auto. } { discriminate. }
      exists r. split; auto. exists (stain d o). split; [apply S, in_map; auto|]. eapply orel_stain; eauto.
    - destruct R as (-> & R3). injection F as <-.
      destruct acc as [|x acc]; destruct vs as [|v vs]; try (destruct A; fail).
      + destruct (P0 eq_refl) as [-> Es]. destruct b; (eexists; split; [reflexivity|]).
        * exists (OFail d). split; [apply S; now left|]. cbn. rewrite Es. auto.
        * exists (OOk (SList []) p0 a d). split; [apply S; now left|]. cbn. split; auto. split; [exists []; auto|]. auto.
      + eexists; split; [reflexivity|]. exists (OOk (SList (rev (x :: acc))) p a d). split; [apply S; now left|].
        split; auto. split; [|auto]. exists (rev (v :: vs)). split; auto. apply (sabsl_rev (x :: acc) (v :: vs) A).
    - injection F as <-. eexists. split; [reflexivity|]. exists OPanic. split; [apply S; now left|]. exact Logic.I.
  Qed.

  Lemma covers_map : forall p s (f : out -> out) outs o r, In o outs -> orel p (c_state s) s (f o) r -> covers p s (map f outs) r.
  Proof. intros p s f outs o r I R. exists (f o). split; auto. now apply in_map. Qed.

  Notation symb := (sym kcls klow kwhite quiet_pred opened G).
  Theorem sym_ok : forall n, sev_ok (eval H G n) (symb n).
  Proof.
    pose proof same_refl as SR.
    induction n as [|n IH]; intros e p a en s outs E O; [discriminate|].
    cbn [sym] in E.
    match type of E with option_map tidy ?t = _ => destruct t as [outs'|] eqn:E' end; [|discriminate].
    injection E as <-.
    enough (exists r, eval H G (S n) e (whole p) en s = Some r /\ covers p s outs' r) as (r & A & B).
    { exists r. split; auto. now apply covers_tidy. }
    destruct e as [w ic|cs rs us inv| |l|l|e|e|e|e|e|q|c|ac e|l e|rr]; cbn [eval].
    - destruct (slit klow opened w ic p) as [q|] eqn:Eq; [|discriminate]. apply slit_ok in Eq. rewrite Eq. clear Eq.
      destruct q as [p'|]; cbn [option_map]; injection E' as <-; (eexists; split; [reflexivity|]).
      + eexists. split; [now left|]. cbn [orel sabs]. rewrite slice_whole. auto.
      + exists (OFail false). split; [now left|]. cbn. auto.
    - destruct (beyond opened p) eqn:B; [discriminate|]. destruct (beyond_eof _ B) as (-> & -> & ->).
      eexists; split; [reflexivity|]. injection E' as <-. destruct (at_eof p).
      { exists (OFail false). split; [now left|]. cbn. auto. }
      destruct (scls kcls cs rs us (peek p)) as [m|] eqn:Em.
      + apply scls_ok in Em. rewrite Em. destruct (Bool.eqb m inv).
        * exists (OFail false). split; [now left|]. cbn. auto.
        * eexists. split; [now left|]. cbn [orel sabs]. rewrite slice_whole. auto.
      + destruct (Bool.eqb _ inv).
        * exists (OFail false). split; [now left|]. cbn. auto.
        * eexists. split; [right; now left|]. cbn [orel sabs]. rewrite slice_whole. auto.
    - destruct (beyond opened p) eqn:B; [discriminate|]. destruct (beyond_eof _ B) as (-> & _ & ->).
      eexists; split; [reflexivity|]. injection E' as <-. destruct (at_eof p).
      { exists (OFail false). split; [now left|]. cbn. auto. }
      eexists. split; [now left|]. cbn [orel sabs]. rewrite slice_whole. auto.
    - unfold covers. eapply sseq_ok; eauto. exact Logic.I.
    - eapply salt_ok; eauto.
    - unfold covers. eapply sstar_ok; eauto. exact Logic.I.
    - unfold covers. eapply sstar_ok; eauto. exact Logic.I.
    - destruct (symb n e p []) as [ox|] eqn:Ex; [|discriminate]. injection E' as <-.
      destruct (IH _ _ _ _ s _ Ex senv_nil) as (r & Er & o & I & R). rewrite Er.
      destruct o as [v p' a' d|d|]; destruct r as [w q en' s'|q s'|]; cbn in R; try tauto; (eexists; split; [reflexivity|]);
        (eapply covers_map; [exact I|]); cbn; try tauto. destruct R as (-> & R). auto.
    - destruct (symb n e p []) as [ox|] eqn:Ex; [|discriminate]. injection E' as <-.
      destruct (IH _ _ _ _ s _ Ex senv_nil) as (r & Er & o & I & R). rewrite Er.
      destruct o as [v p' a' d|d|]; destruct r as [w q en' s'|q s'|]; cbn in R; try tauto; (eexists; split; [reflexivity|]);
        (eapply covers_map; [exact I|]); cbn; auto.
      + destruct R as (_ & _ & _ & R). split; [reflexivity|]. split; [reflexivity|]. split; [assumption|]. intros D; destruct (R D) as (A1 & A2 & A3). unfold same. cbn. auto.
      + destruct R as (_ & R). split; auto. intros D; destruct (R D) as (A1 & A2 & A3); auto.
    - destruct (symb n e p []) as [ox|] eqn:Ex; [|discriminate]. injection E' as <-.
      destruct (IH _ _ _ _ s _ Ex senv_nil) as (r & Er & o & I & R). rewrite Er.
      destruct o as [v p' a' d|d|]; destruct r as [w q en' s'|q s'|]; cbn in R; try tauto; (eexists; split; [reflexivity|]);
        (eapply covers_map; [exact I|]); cbn; auto.
      + destruct R as (_ & _ & _ & R). split; auto. intros D; destruct (R D) as (A1 & A2 & A3); auto.
      + destruct R as (_ & R). split; [reflexivity|]. split; [reflexivity|]. split; [assumption|]. intros D; destruct (R D) as (A1 & A2 & A3). unfold same. cbn. auto.
    - injection E' as <-. eexists; split; [reflexivity|]. now apply spred_ok.
    - injection E' as <-. eexists; split; [reflexivity|]. destruct (h_state H c en s) as [[[err g] st]|].
      + exists (OOk SNil p a true). split; [now left|]. cbn. repeat split; auto; discriminate.
      + exists OPanic. split; [right; now left|]. exact Logic.I.
    - destruct (symb n e p a) as [ox|] eqn:Ex; [|discriminate].
      destruct (IH _ _ _ _ s _ Ex O) as (r & Er & o & I & R). rewrite Er.
      destruct (gather_in _ _ _ _ _ E' I) as (o2 & F & S).
      destruct o as [v p' a' d|d|]; destruct r as [w q en' s'|q s'|]; cbn in R; try tauto; injection F as <-;
        (eexists; split; [reflexivity|]).
      + destruct R as (-> & R1 & R2 & R3). rewrite slice_whole. set (s2 := Soft _ _ _ _ _).
        assert (d = false -> same s s2) as R4 by (intros D; destruct (R3 D) as (A1 & A2 & A3); repeat split; auto).
        enough (exists o, In o (sact ac (slice p p') p' a') /\ orel p (c_state s) s2 o
           match run_act H ac en' s2 with Some (v0, s'') => ROk v0 (whole p') en' s'' | None => RPanic end) as (o & I2 & R5).
        { exists (stain d o). split; [apply S, in_map; auto|]. eapply orel_stain; eauto. }
        assert (c_text s2 = slice p p') as Ct by reflexivity. clearbody s2.
        destruct ac; cbn [run_act sact]; try rewrite Ct.
        * eexists. split; [now left|]. cbn. auto.
        * eexists. split; [now left|]. cbn. auto.
        * eexists. split; [now left|]. cbn. auto.
        * eexists. split; [now left|]. cbn. auto.
        * destruct (h_act H _ en' _) as [[[v0 err] g]|].
          -- eexists. split; [now left|]. cbn [orel]. split; [reflexivity|]. split; [|split; [assumption|discriminate]].
             specialize (R2 l). destruct (slabel a' l); try exact Logic.I. cbn [sabs] in *. rewrite R2. reflexivity.
          -- exists OPanic. split; [right; now left|exact Logic.I].
        * destruct (h_act H _ en' _) as [[[v0 err] g]|].
          -- eexists. split; [now left|]. cbn. repeat split; auto; discriminate.
          -- exists OPanic. split; [right; now left|exact Logic.I].
      + exists (OFail d). split; [apply S; now left|]. exact R.
      + exists OPanic. split; [apply S; now left|]. exact Logic.I.
    - destruct (symb n e p []) as [ox|] eqn:Ex; [|discriminate]. injection E' as <-.
      destruct (IH _ _ _ _ s _ Ex senv_nil) as (r & Er & o & I & R). rewrite Er.
      destruct o as [v p' a' d|d|]; destruct r as [w q en' s'|q s'|]; cbn in R; try tauto; (eexists; split; [reflexivity|]);
        (eapply covers_map; [exact I|]); cbn; auto.
      destruct R as (-> & R1 & R2 & R3). split; auto. split; auto. split; auto. now apply senv_cons.
    - destruct (rule_of G rr) as [e1|].
      + destruct (symb n e1 p []) as [ox|] eqn:Ex; [|discriminate]. injection E' as <-.
        destruct (IH _ _ _ _ s _ Ex senv_nil) as (r & Er & o & I & R). rewrite Er.
        destruct o as [v p' a' d|d|]; destruct r as [w q en' s'|q s'|]; cbn in R; try tauto; (eexists; split; [reflexivity|]);
          unfold scoped; (eapply covers_map; [exact I|]); cbn; auto. tauto.
      + injection E' as <-. eexists; split; [reflexivity|]. exists (OFail true). split; [now left|]. cbn. split; auto; discriminate.
  Qed.
End SymSound.

(** the form in which it is used: a text, all its outcomes *)
Theorem symbolic_ok : forall (H : host) G n e p s outs, unicode_ok H -> symbolic G n e p [] = Some outs ->
  exists r, eval H G n e p [] s = Some r /\ covers H [] p s outs r.
Proof.
  intros H G n e p s outs (A & B & C) E.
  destruct (sym_ok H G known_class known_lower known_white (fun _ => false) false [] (fun _ => eq_refl)
    (fun c (X : false = true) => False_ind _ (Bool.diff_false_true X)) A B C n e p [] [] s outs E (senv_nil H)) as (r & Er & Cr).
  exists r. split; auto. unfold whole in Er. rewrite app_nil_r in Er. destruct p. exact Er.
Qed.
