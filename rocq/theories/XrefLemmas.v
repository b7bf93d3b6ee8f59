(** Natural cross references in whole documents. *)
From Verif Require Import GoBase GoLemmas Types Attrs Utf8 Ids Toc Context Aggregate SecSpec
  IdsLemmas TocLemmas AggLemmas AggDoc CtxLemmas IdsAlpha.

Section X.
  Variable is_letter is_number : N -> bool.
  Variable fmtv : val -> string.
  Notation aggElement := (aggElement is_letter is_number fmtv).
  Notation res := (resolveCrossReferences is_letter is_number fmtv).

  Lemma call_cset c n v k : n <> k -> mget (callAttributes (cset c n v)) k = mget (callAttributes c) k.
  Proof. intros H. rewrite !mget_callAttributes. cbn. now rewrite last_assoc_mset_neq. Qed.
  Lemma call_cunset c n k : n <> k -> mget (callAttributes (cunset c n)) k = mget (callAttributes c) k.
  Proof. intros H. rewrite !mget_callAttributes. cbn. now rewrite last_assoc_mdel_neq. Qed.
  Lemma call_csetAll c a k : ~ In k (mkeys a) -> mget (callAttributes (csetAll c a)) k = mget (callAttributes c) k.
  Proof. intros H. rewrite !mget_callAttributes. cbn. now rewrite last_assoc_fold_mset_neq. Qed.

  Lemma header_untouched els k : forall c t,
    ~ Exists (fun x => match x with
             | AttributeDeclaration n _ | AttributeReset n => n = k
             | _ => False
             end) els ->
    mget (callAttributes (fst (headerEffects els c t))) k = mget (callAttributes c) k.
  Proof.
    induction els as [|e els IH]; intros c t H; [reflexivity|].
    assert (H1 : ~ match e with AttributeDeclaration n _ | AttributeReset n => n = k | _ => False end)
      by (intros X; apply H; now constructor).
    assert (H2 : ~ Exists (fun x => match x with
             | AttributeDeclaration n _ | AttributeReset n => n = k
             | _ => False end) els) by (intros X; apply H; now constructor 2).
    destruct e; try (apply (IH c t H2)); cbn [headerEffects]; rewrite IH by exact H2.
    - now apply call_cset.
    - now apply call_cunset.
  Qed.

  Lemma aggElement_untouched st e st' k : aggElement st e = Some st' -> ~ touches k e ->
    mget (callAttributes (as_ctx st')) k = mget (callAttributes (as_ctx st)) k.
  Proof.
    intros E H. destruct e; try (injection E as <-; reflexivity).
    - cbn [Aggregate.aggElement sectionResolveID] in E. destruct (resolveUnique _ _); [|discriminate]. injection E as <-. reflexivity.
    - cbn in E. injection E as <-. cbn [as_ctx]. now apply call_csetAll.
    - cbn [Aggregate.aggElement] in E. pose proof (header_untouched elements k (as_ctx st) (as_toc st)) as G.
      destruct (headerEffects elements _ _) as [c t]. injection E as <-. cbn [as_ctx]. now apply G.
    - injection E as <-. cbn [as_ctx]. now apply call_cset.
    - injection E as <-. cbn [as_ctx]. now apply call_cunset.
  Qed.

  Lemma agg_run_untouched st els els' st' k : agg_run is_letter is_number fmtv st els els' st' ->
    Forall (fun e => ~ touches k e) els ->
    mget (callAttributes (as_ctx st')) k = mget (callAttributes (as_ctx st)) k.
  Proof.
    induction 1 as [st|st e e' st1 els els' st' E S T R C M P RUN IH]; intros H; [reflexivity|].
    inversion H; subst. rewrite IH by auto. eapply aggElement_untouched; eauto.
  Qed.

  Lemma getD_ext a b k d : mget a k = mget b k -> getAsStringD fmtv a k d = getAsStringD fmtv b k d.
  Proof. unfold getAsStringD. now intros ->. Qed.

  Lemma xref_ids_res d : forall e,
    xref_ids (res d e) = map (resolveXref is_letter is_number fmtv d) (xref_ids e).
  Proof.
    apply val_ind_children. intros v IH.
    assert (G : forall els, (forall c, In c els -> In c (children v)) ->
      flat_map xref_ids (map (res d) els) =
      map (resolveXref is_letter is_number fmtv d) (flat_map xref_ids els)).
    { induction els as [|x els IHe]; intros H; [reflexivity|].
      cbn. rewrite map_app, IHe, IH; auto with datatypes. }
    destruct v; try reflexivity; cbn [resolveCrossReferences xref_ids]; apply G; cbn;
      intros c Hc; auto with datatypes.
  Qed.

  Lemma xref_ids_flat : forall e, flat_map xref_ids (flat e) = xref_ids e.
  Proof.
    apply val_ind_children. intros v IH. destruct (is_section v) eqn:S.
    - destruct v; try discriminate. cbn [flat flat_map xref_ids app].
      assert (IH' : forall c, In c elements -> flat_map xref_ids (flat c) = xref_ids c).
      { intros c Hc. apply IH. cbn. auto with datatypes. }
      clear IH S. induction elements as [|x r IHr]; [reflexivity|].
      cbn. rewrite flat_map_app, IH' by (cbn; auto). f_equal. apply IHr. intros; apply IH'; cbn; auto.
    - assert (flat v = [v]) as -> by (destruct v; try reflexivity; discriminate).
      cbn. apply app_nil_r.
  Qed.
  Lemma xref_ids_flats els : flat_map xref_ids (flats els) = flat_map xref_ids els.
  Proof.
    unfold flats. induction els as [|x els IH]; [reflexivity|]. cbn. now rewrite flat_map_app, xref_ids_flat, IH.
  Qed.

  Lemma xref_ids_same els els' : Forall2 same_but_id els els' ->
    flat_map xref_ids els' = flat_map xref_ids els.
  Proof.
    induction 1 as [|e e' els els' S F IH]; [reflexivity|]. cbn. rewrite IH. f_equal.
    destruct S as [[_ ->]|(l & a & t & x & id & -> & ->)]; reflexivity.
  Qed.

  Lemma agg_run_app st els els' st' : agg_run is_letter is_number fmtv st els els' st' ->
    forall pre e post, els = pre ++ e :: post ->
    exists pre' e' post' s1 s2, els' = pre' ++ e' :: post' /\
      agg_run is_letter is_number fmtv st pre pre' s1 /\
      agg_run is_letter is_number fmtv s1 [e] [e'] s2 /\
      agg_run is_letter is_number fmtv s2 post post' st'.
  Proof.
    induction 1 as [st|st e e' st1 els els' st' E S T R C M P RUN IH]; intros pre x post EQ.
    - destruct pre; discriminate.
    - destruct pre as [|y pre].
      + injection EQ as -> ->. exists [], e', els', st, st1. repeat split; auto.
        * constructor.
        * econstructor; eauto. constructor.
      + injection EQ as -> ->. destruct (IH _ _ _ eq_refl) as (pre' & x' & post' & s1 & s2 & -> & H1 & H2 & H3).
        exists (e' :: pre'), x', post', s1, s2. repeat split; auto. econstructor; eauto.
  Qed.

  Lemma baseID_ext d1 d2 a t :
    mget d1 AttrIDPrefix = mget d2 AttrIDPrefix -> mget d1 AttrIDSeparator = mget d2 AttrIDSeparator ->
    baseID is_letter is_number fmtv d1 a t = baseID is_letter is_number fmtv d2 a t.
  Proof.
    intros H1 H2. unfold baseID. now rewrite (getD_ext _ _ _ _ H1), (getD_ext _ _ _ _ H2).
  Qed.

  Lemma first_free_base b taken id : first_free b taken id -> ~ In b taken -> id = b.
  Proof.
    intros (k & K1 & -> & K2 & K3) N. destruct (N.eq_dec k 1) as [->|NE]; [reflexivity|].
    exfalso. apply N. apply (K3 1%N). lia.
  Qed.

  Lemma natural_xref_doc c fs doc pre l a s x post :
    Forall shallow (goods fs) ->
    Forall (fun e => ~ touches "idprefix" e /\ ~ touches "idseparator" e) (goods fs) ->
    aggregate is_letter is_number fmtv c fs = Some doc ->
    goods fs = pre ++ Section l a (Some [StringElement s]) x :: post ->
    contains s " " = true ->
    mget a "id" = None ->
    let base := baseID is_letter is_number fmtv (callAttributes c) a (Some [StringElement s]) in
    base <> "" ->
    exists els' pre' post' id,
      Forall2 same_but_id (goods fs) els' /\
      map forget_xrefs (flats (d_elements doc)) = map forget_xrefs els' /\
      els' = pre' ++ Section l (mset a "id" (VStr id)) (Some [StringElement s]) x :: post' /\
      List.length pre' = List.length pre /\
      (~ In base (mkeys (registered fmtv pre')) -> id = base) /\
      exists f, flat_map xref_ids (d_elements doc) = map f (flat_map xref_ids (goods fs)) /\
                f (VStr s) = VStr base /\
                forall s', contains s' " " = false -> f (VStr s') = VStr s'.
  Proof.
    intros SH UT A G HC HA base HB.
    destruct (aggElements_run is_letter is_number fmtv (goods fs) (aggInit c)) as (els' & st & E & R).
    destruct (agg_run_tree _ _ _ _ _ _ _ R SH (agOK_init c)) as (_ & T2 & T3).
    destruct (agg_run_app _ _ _ _ R _ _ _ G) as (pre' & e' & post' & s1 & s2 & -> & R1 & R2 & R3).
    assert (KP : forall s s' els els2, (forall e, In e els -> In e (goods fs)) ->
               agg_run is_letter is_number fmtv s els els2 s' ->
               mget (callAttributes (as_ctx s')) AttrIDPrefix = mget (callAttributes (as_ctx s)) AttrIDPrefix /\
               mget (callAttributes (as_ctx s')) AttrIDSeparator = mget (callAttributes (as_ctx s)) AttrIDSeparator).
    { intros s0 s0' els els2 HI RR. rewrite Forall_forall in UT.
      split; eapply agg_run_untouched; eauto; apply Forall_forall; intros e He; apply HI in He;
        apply UT in He; apply He. }
    assert (HP : List.length pre' = List.length pre).
    { clear -R1. induction R1; cbn; auto. }
    inversion R2 as [|? ? ? ? ? ? ? _ S2 T4 R4 C4 M4 P4 RN]; subst.
    inversion RN; subst.
    destruct P4 as (id & -> & FF & _ & _).
    unfold section_base in FF.
    assert (PRE : forall e, In e pre -> In e (goods fs)) by (intros e He; rewrite G; auto with datatypes).
    destruct (KP _ _ _ _ PRE R1) as [K1 K2]. cbn [aggInit as_ctx] in K1, K2.
    rewrite (baseID_ext _ _ _ _ K1 K2) in FF. fold base in FF.
    exists (pre' ++ Section l (mset a "id" (VStr id)) (Some [StringElement s]) x :: post'), pre', post', id.
    split; [exact T3|].
    unfold Aggregate.aggregate in A. rewrite aggFragments_goods, E in A. injection A as <-.
    cbn [d_elements].
    cbn [aggInit as_tree agDoc ag_root ag_open nest app flats flat_map] in T2.
    split. { destruct (as_refs st); rewrite ?flats_res, T2; reflexivity. }
    split; [reflexivity|]. split; [exact HP|]. split.
    { intros N. eapply first_free_base; [exact FF|]. intros HI. apply N.
      pose proof (agg_run_refs _ _ _ _ _ _ _ R1) as RR. cbn [aggInit as_refs] in RR.
      unfold registered. rewrite <- RR. exact HI. }
    assert (NEid : id <> "").
    { destruct FF as (k & _ & -> & _ & _). unfold suffixed. destruct (k =? 1)%N; [exact HB|].
      destruct base; [congruence|discriminate]. }
    assert (NR : as_refs st <> []).
    { destruct (agg_run_ids _ _ _ _ _ _ _ R3) as (INC & _).
      intros Z. rewrite Z in INC. assert (X : In id (mkeys (as_refs s2))).
      { rewrite R4. cbn [Aggregate.reference sectionReference]. change AttrID with "id".
        rewrite getAsStringD_mset. destruct (String.eqb_spec id ""); [congruence|].
        apply mhas_In. unfold mhas. now rewrite mget_mset_eq. }
      apply INC in X. destruct X. }
    exists (resolveXref is_letter is_number fmtv (callAttributes (as_ctx st))).
    split; [|split].
    - assert (X : flat_map xref_ids (agDoc (as_tree st)) = flat_map xref_ids (goods fs)).
      { rewrite <- xref_ids_flats, T2. now apply xref_ids_same. }
      rewrite <- X. destruct (as_refs st); [congruence|]. clear.
      induction (agDoc (as_tree st)) as [|y ys IH]; [reflexivity|].
      cbn. now rewrite map_app, IH, xref_ids_res.
    - assert (ALL : forall e, In e (goods fs) -> In e (goods fs)) by auto.
      destruct (KP _ _ _ _ ALL R) as [K3 K4]. cbn [aggInit as_ctx] in K3, K4.
      unfold resolveXref. rewrite (natural_xref is_letter is_number fmtv _ s a HC).
      + rewrite (baseID_ext _ _ _ _ K3 K4). reflexivity.
      + unfold getAsStringD. change AttrID with "id". now rewrite HA.
    - intros s' HS. unfold resolveXref, xrefResolveID. now rewrite HS.
  Qed.
End X.
