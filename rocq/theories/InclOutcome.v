(** Proofs for C14: the outcome of a tag filtered inclusion. *)
From Verif Require Import GoBase GoLemmas Types Attrs Include PreSpec InclLemmas.

Section Read.
  Variable fileLine : string -> option (list lineitem).

  Definition stray_from (evs : list tagev) (lines : list string) : Prop :=
    exists a l r read items x y t,
      lines = a ++ l :: r /\ Forall2 (fun l i => fileLine l = Some i) a read /\ fileLine l = Some items /\
      line_tags items = x ++ TClose t :: y /\
      forall e, In e (evs ++ flat_map line_tags read ++ x) -> tag_of e <> t.

  Lemma stray_cons evs l items r : fileLine l = Some items ->
    stray_from evs (l :: r) <->
    (exists x y t, line_tags items = x ++ TClose t :: y /\ forall e, In e (evs ++ x) -> tag_of e <> t) \/
    stray_from (evs ++ line_tags items) r.
  Proof.
    intros FL. split.
    - intros (a & l' & r' & read & items' & x & y & t & E & F & FL' & LT & N). destruct a as [|l0 a]; cbn in E; injection E as -> ->.
      + inversion F; subst. left. assert (items' = items) by congruence. subst. exists x, y, t. split; [exact LT|]. exact N.
      + inversion F as [|? i0 ? read' F1 F2]; subst. right. exists a, l', r', read', items', x, y, t.
        split; [reflexivity|]. split; [exact F2|]. split; [exact FL'|]. split; [exact LT|].
        intros e He. apply N. assert (i0 = items) by congruence. subst. cbn [flat_map]. rewrite <- !app_assoc in *. exact He.
    - intros [(x & y & t & LT & N)|(a & l' & r' & read & items' & x & y & t & E & F & FL' & LT & N)].
      + exists [], l, r, [], items, x, y, t. repeat split; auto; try constructor.
      + exists (l :: a), l', r', (items :: read), items', x, y, t. subst. split; [reflexivity|]. split; [now constructor|]. split; [exact FL'|]. split; [exact LT|].
        intros e He. apply N. cbn [flat_map] in He. rewrite <- !app_assoc in *. exact He.
  Qed.
  Lemma stray_unreadable evs l r : fileLine l = None -> ~ stray_from evs (l :: r).
  Proof.
    intros FL (a & l' & r' & read & items' & x & y & t & E & F & FL' & LT & N). destruct a as [|l0 a]; cbn in E; injection E as -> ->; [congruence|].
    inversion F; subst. congruence.
  Qed.

  Lemma loop_outcome rules lines : forall n cur evs, tag_known evs cur ->
    ((exists m, readTagsLoop fileLine rules lines n cur = Panic m) <-> stray_from evs lines) /\
    (forall x, readTagsLoop fileLine rules lines n cur = Ok x -> Forall (fun l => fileLine l <> None) lines /\
       forall t, mhas (snd x) t = true <-> (exists e, In e evs /\ tag_of e = t) \/ mentioned fileLine lines t) /\
    (~ stray_from evs lines -> Forall (fun l => fileLine l <> None) lines -> exists x, readTagsLoop fileLine rules lines n cur = Ok x).
  Proof.
    induction lines as [|l r IH]; intros n cur evs TK; cbn [readTagsLoop].
    - split; [|split].
      + split; [intros (m & [=])|]. intros (a & l' & r' & read & items' & x & y & t & E & _). destruct a; discriminate.
      + intros x [= <-]. split; [constructor|]. intros t. cbn [snd]. rewrite (TK t). split; [auto|]. intros [H|(l & i & e & [] & _)]; exact H.
      + intros _ _. eauto.
    - destruct (fileLine l) as [items|] eqn:FL.
      2:{ split; [|split]; [|discriminate|].
          - split; [intros (m & [=])|]. intros H. now apply stray_unreadable in H.
          - intros _ F. inversion F; congruence. }
      rewrite (stray_cons evs l items r FL). cbv zeta. pose proof (line_tags_eq items) as LT.
      set (cur1 := match getStartTag items with Some t => mset cur t (mkCur (n + 1) (-1)) | None => cur end).
      set (evs1 := match getStartTag items with Some t => [TOpen t] | None => [] end) in *.
      assert (TK1 : tag_known (evs ++ evs1) cur1).
      { unfold cur1, evs1. destruct (getStartTag items) as [t|]; [apply (known_set evs cur (TOpen t) _ TK)|now rewrite app_nil_r]. }
      assert (STEP : forall cur2, tag_known (evs ++ line_tags items) cur2 ->
        let k := do (rest, cur') <- readTagsLoop fileLine rules r (n + 1) cur2;
            Ok (if tr_match rules cur2 && negb (hasTag items) then (l ++ LF ++ rest)%string else rest, cur') in
        ((exists m, k = Panic m) <-> stray_from (evs ++ line_tags items) r) /\
        (forall x, k = Ok x -> Forall (fun l => fileLine l <> None) (l :: r) /\
           forall t, mhas (snd x) t = true <-> (exists e, In e evs /\ tag_of e = t) \/ mentioned fileLine (l :: r) t) /\
        (~ stray_from (evs ++ line_tags items) r -> Forall (fun l => fileLine l <> None) (l :: r) -> exists x, k = Ok x)).
      { intros cur2 TK2 k. destruct (IH (n + 1)%Z cur2 _ TK2) as (P1 & P2 & P3). unfold k. clear k. split; [|split].
        - rewrite <- P1. destruct (readTagsLoop fileLine rules r (n + 1) cur2) as [[rest cur']|m|m]; cbn; split; intros (m' & [=]); eauto.
        - intros x. destruct (readTagsLoop fileLine rules r (n + 1) cur2) as [[rest cur']|m|m] eqn:E; try discriminate. cbn [bind].
          intros [= <-]. cbn [snd]. destruct (P2 _ eq_refl) as (F & K). split; [constructor; [congruence|exact F]|].
          intros t. cbn [snd] in K. rewrite K. split.
          + intros [(e & He & Ht)|(l' & i & e & H1 & H2 & H3 & H4)].
            * apply in_app_iff in He. destruct He as [He|He]; [left; eauto|]. right. exists l, items, e. repeat split; auto. now left.
            * right. exists l', i, e. repeat split; auto. now right.
          + intros [(e & He & Ht)|(l' & i & e & [<-|H1] & H2 & H3 & H4)].
            * left. exists e. split; [apply in_or_app; auto|exact Ht].
            * left. exists e. split; [|exact H4]. apply in_or_app. right. congruence.
            * right. exists l', i, e. auto.
        - intros N F. inversion F; subst. destruct (P3 N ltac:(assumption)) as ([rest cur'] & ->). cbn. eauto. }
      destruct (getEndTag items) as [t|] eqn:GE.
      + destruct (mget cur1 t) as [c|] eqn:MC.
        * cbn [bind]. assert (TK2 : tag_known (evs ++ line_tags items) (mset cur1 t (mkCur (cr_start c) (n + 1)))).
          { rewrite LT, app_assoc. apply (known_set _ _ (TClose t) _ TK1). }
          destruct (STEP _ TK2) as (S1 & S2 & S3). clear STEP.
          assert (NH : ~ exists x y t, line_tags items = x ++ TClose t :: y /\ forall e, In e (evs ++ x) -> tag_of e <> t).
          { intros (x & y & t' & E & N). rewrite LT in E. destruct (getStartTag items) as [s|]; cbn in evs1; subst evs1.
            - destruct x as [|x0 [|x1 x]]; cbn in E; try discriminate; [|destruct x; discriminate]. injection E as <- <- <-.
              assert (X : mhas cur1 t = true) by (unfold mhas; now rewrite MC). apply TK1 in X. destruct X as (e & He & Ht). eapply N; eauto.
            - destruct x as [|x0 x]; cbn in E; [|destruct x; discriminate]. injection E as <- <-.
              assert (X : mhas cur1 t = true) by (unfold mhas; now rewrite MC). apply TK1 in X. destruct X as (e & He & Ht). eapply N; eauto. }
          split; [|split].
          -- rewrite S1. tauto.
          -- exact S2.
          -- intros N. apply S3. tauto.
        * cbn [bind].
          assert (HD : exists x y t, line_tags items = x ++ TClose t :: y /\ forall e, In e (evs ++ x) -> tag_of e <> t).
          { exists evs1, [], t. split; [exact LT|]. intros e He Ht. assert (X : mhas cur1 t = true) by (apply TK1; eauto). unfold mhas in X. now rewrite MC in X. }
          split; [|split].
          -- split; [auto|]. intros _. eauto.
          -- discriminate.
          -- tauto.
      + cbn [bind]. rewrite app_nil_r in LT. rewrite LT in STEP. destruct (STEP cur1 TK1) as (S1 & S2 & S3). clear STEP. rewrite LT.
        assert (NH : ~ exists x y t, evs1 = x ++ TClose t :: y /\ forall e, In e (evs ++ x) -> tag_of e <> t).
        { intros (x & y & t' & E & N). unfold evs1 in E. destruct (getStartTag items) as [s|]; destruct x as [|x0 x]; try discriminate. destruct x; discriminate. }
        split; [|split].
        -- rewrite S1. tauto.
        -- exact S2.
        -- intros N. apply S3. tauto.
  Qed.

  Lemma stray_from_nil lines : stray_from [] lines <-> stray_end fileLine lines.
  Proof. reflexivity. Qed.

  Lemma tags_outcome rules lines :
    ((exists m, readWithinTags fileLine rules lines = Panic m) <-> stray_end fileLine lines) /\
    ((exists out, readWithinTags fileLine rules lines = Ok out) <->
     ~ stray_end fileLine lines /\ Forall (fun l => fileLine l <> None) lines /\
     forall r, In r rules -> tr_name r <> "*" -> tr_name r <> "**" -> mentioned fileLine lines (tr_name r)).
  Proof.
    destruct (loop_outcome rules lines 0%Z [] [] (proj2 table_nil)) as (P1 & P2 & P3). rewrite stray_from_nil in *.
    unfold readWithinTags. split.
    - rewrite <- P1. destruct (readTagsLoop fileLine rules lines 0 []) as [[c cur]|m|m]; cbn; split; intros (m' & E); try discriminate; eauto.
      destruct (forallb _ rules); discriminate.
    - split.
      + intros (out & E). destruct (readTagsLoop fileLine rules lines 0 []) as [[c cur]|m|m] eqn:EL; try discriminate.
        destruct (P2 _ eq_refl) as (F & K). split; [|split; [exact F|]].
        * rewrite <- P1. intros (m & [=]).
        * cbn [bind] in E. destruct (forallb _ rules) eqn:FB; [|discriminate]. rewrite forallb_forall in FB.
          intros r Hr N1 N2. specialize (FB r Hr). apply String.eqb_neq in N1, N2. rewrite N1, N2 in FB. cbn [orb] in FB.
          cbn [snd] in K. apply K in FB. destruct FB as [(e & [] & _)|FB]. exact FB.
      + intros (N & F & R). destruct (P3 N F) as ([c cur] & E). rewrite E. cbn [bind].
        replace (forallb _ rules) with true; [eauto|]. symmetry. apply forallb_forall. intros r Hr.
        destruct (String.eqb_spec (tr_name r) "*") as [|N1]; [reflexivity|].
        destruct (String.eqb_spec (tr_name r) "**") as [|N2]; [reflexivity|]. cbn [orb].
        destruct (P2 _ E) as (_ & K). cbn [snd] in K. apply K. right. now apply R.
  Qed.
End Read.
