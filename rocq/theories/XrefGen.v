(** Natural cross references, whatever the document declares. *)
From Verif Require Import GoBase GoLemmas Types Attrs Utf8 Ids Toc Context Aggregate SecSpec XrefSpec
  IdsLemmas TocLemmas AggLemmas AggDoc CtxLemmas IdsAlpha XrefLemmas.

Section X.
  Variable is_letter is_number : N -> bool.
  Variable fmtv : val -> string.
  Notation aggElement := (aggElement is_letter is_number fmtv).
  Notation run := (agg_run is_letter is_number fmtv).

  Lemma NoDup_mdel {V} (m : gomap V) k : NoDup (mkeys m) -> NoDup (mkeys (mdel m k)).
  Proof.
    induction m as [|[n v] m IH]; cbn; intros H; [constructor|]. inversion H as [|? ? H1 H2]; subst.
    destruct (String.eqb k n); [auto|]. cbn. constructor; [|auto]. intros X. apply H1. clear -X.
    induction m as [|[n' v'] m IH]; cbn in *; [contradiction|]. destruct (String.eqb k n'); [right; auto|]. destruct X; [left; auto|right; auto].
  Qed.
  Lemma NoDup_fold_mset {V} (l : gomap V) : forall acc, NoDup (mkeys acc) -> NoDup (mkeys (fold_mset l acc)).
  Proof. induction l as [|[k v] l IH]; cbn; intros acc H; auto. apply IH. now apply NoDup_mset. Qed.
  Lemma mget_fold_in_order (a : attributes) k : forall acc,
    mget (fold_mset a acc) k = fold_left (fun acc kv => if String.eqb (fst kv) k then Some (snd kv) else acc) a (mget acc k).
  Proof.
    induction a as [|[n v] a IH]; cbn; intros acc; [reflexivity|]. rewrite IH, mget_mset. reflexivity.
  Qed.

  Definition docv (c : ctxattrs) k := mget (docAttrs c) k.
  Lemma header_after els k : forall c t, NoDup (mkeys (docAttrs c)) ->
    docv (fst (headerEffects els c t)) k = fold_left (after_decl k) els (docv c k) /\ NoDup (mkeys (docAttrs (fst (headerEffects els c t)))).
  Proof.
    induction els as [|e els IH]; intros c t H; [split; auto|].
    destruct e; try (exact (IH c t H)); cbn [headerEffects fold_left after_decl].
    - match goal with |- context [cset c ?n ?v] => destruct (IH (cset c n v) (setToclevels (cset c n v) n t)) as [I1 I2] end; [now apply NoDup_mset|]. split; [|exact I2].
      rewrite I1. f_equal. unfold docv. cbn. rewrite mget_mset. reflexivity.
    - destruct (IH (cunset c name) t) as [I1 I2]; [now apply NoDup_mdel|]. split; [|exact I2].
      rewrite I1. f_equal. unfold docv. cbn. rewrite mget_mdel. reflexivity.
  Qed.
  Lemma aggElement_after st e st' k : aggElement st e = Some st' -> NoDup (mkeys (docAttrs (as_ctx st))) ->
    docv (as_ctx st') k = after_element k (docv (as_ctx st) k) e /\ NoDup (mkeys (docAttrs (as_ctx st'))).
  Proof.
    intros E H. destruct e; try (injection E as <-; split; [reflexivity|exact H]).
    - cbn [Aggregate.aggElement sectionResolveID] in E. destruct (resolveUnique _ _); [|discriminate]. injection E as <-. split; [reflexivity|exact H].
    - cbn in E. injection E as <-. cbn [as_ctx]. split; [|now apply NoDup_fold_mset]. unfold docv. cbn [csetAll docAttrs]. apply mget_fold_in_order.
    - cbn [Aggregate.aggElement] in E. pose proof (header_after elements k (as_ctx st) (as_toc st) H) as G.
      destruct (headerEffects elements _ _) as [c t]. injection E as <-. cbn [as_ctx]. exact G.
    - injection E as <-. cbn [as_ctx]. split; [|now apply NoDup_mset]. unfold docv. cbn. apply mget_mset.
    - injection E as <-. cbn [as_ctx]. split; [|now apply NoDup_mdel]. unfold docv. cbn. apply mget_mdel.
  Qed.
  Lemma run_after st els els' st' k : run st els els' st' -> NoDup (mkeys (docAttrs (as_ctx st))) ->
    docv (as_ctx st') k = fold_left (after_element k) els (docv (as_ctx st) k) /\ NoDup (mkeys (docAttrs (as_ctx st'))) /\
    immutableAttrs (as_ctx st') = immutableAttrs (as_ctx st).
  Proof.
    induction 1 as [st|st e e' st1 els els' st' E S T R C M P RUN IH]; intros H; [repeat split; auto|].
    destruct (aggElement_after _ _ _ k E H) as [A1 A2]. destruct (IH A2) as (B1 & B2 & B3). cbn [fold_left]. rewrite <- A1, <- C. auto.
  Qed.
  Lemma in_force_run attrs els els' st' k : NoDup (mkeys attrs) -> run (aggInit (newContextAttributes attrs)) els els' st' ->
    mget (callAttributes (as_ctx st')) k = in_force attrs els k.
  Proof.
    intros ND R. destruct (run_after _ _ _ _ k R) as (A & B & C); [constructor|]. cbn [aggInit as_ctx newContextAttributes docv docAttrs mget immutableAttrs] in *.
    rewrite mget_callAttributes, C. rewrite !last_assoc_mget by assumption. unfold in_force. fold (docv (as_ctx st') k). now rewrite A.
  Qed.
  Lemma text_or_D a k v d : mget a k = v -> getAsStringD fmtv a k d = text_or fmtv v d.
  Proof. intros <-. unfold getAsStringD, text_or. destruct (mget a k) as [[]|]; reflexivity. Qed.

  Lemma natural_xref_gen attrs fs doc pre l a t x post :
    NoDup (mkeys attrs) ->
    Forall shallow (goods fs) ->
    aggregate is_letter is_number fmtv (newContextAttributes attrs) fs = Some doc ->
    goods fs = pre ++ Section l a (Some t) x :: post ->
    mget a "id" = None ->
    let here := idFromElements is_letter is_number fmtv t (id_setting fmtv attrs pre "idprefix") (id_setting fmtv attrs pre "idseparator") in
    let there t := idFromElements is_letter is_number fmtv t (id_setting fmtv attrs (goods fs) "idprefix") (id_setting fmtv attrs (goods fs) "idseparator") in
    here <> "" ->
    exists els' pre' post' id,
      Forall2 same_but_id (goods fs) els' /\
      map forget_xrefs (flats (d_elements doc)) = map forget_xrefs els' /\
      els' = pre' ++ Section l (mset a "id" (VStr id)) (Some t) x :: post' /\
      List.length pre' = List.length pre /\
      first_free here (mkeys (registered fmtv pre')) id /\
      exists f, flat_map xref_ids (d_elements doc) = map f (flat_map xref_ids (goods fs)) /\
                (forall s, f (VStr s) = VStr (if contains s " " then there [StringElement s] else s)) /\
                (forall t, f (VSlice t) = VStr (there t)).
  Proof.
    intros ND SH A G HA here there HB.
    destruct (aggElements_run is_letter is_number fmtv (goods fs) (aggInit (newContextAttributes attrs))) as (els' & st & E & R).
    destruct (agg_run_tree _ _ _ _ _ _ _ R SH (agOK_init _)) as (_ & T2 & T3).
    destruct (agg_run_app _ _ _ _ _ _ _ R _ _ _ G) as (pre' & e' & post' & s1 & s2 & -> & R1 & R2 & R3).
    assert (HP : List.length pre' = List.length pre).
    { clear -R1. induction R1; cbn; auto. }
    inversion R2 as [|? ? ? ? ? ? ? _ S2 T4 R4 C4 M4 P4 RN]; subst.
    inversion RN; subst.
    destruct P4 as (id & -> & FF & _ & _).
    assert (HE : section_base is_letter is_number fmtv (as_ctx s1) a (Some t) = here).
    { unfold section_base, baseID. assert (getAsStringD fmtv a AttrID "" = "") as -> by (unfold getAsStringD; change AttrID with "id"; now rewrite HA).
      cbn [String.eqb negb]. rewrite (text_or_D _ AttrIDPrefix _ _ (in_force_run _ _ _ _ _ ND R1)), (text_or_D _ AttrIDSeparator _ _ (in_force_run _ _ _ _ _ ND R1)). reflexivity. }
    rewrite HE in FF.
    exists (pre' ++ Section l (mset a "id" (VStr id)) (Some t) x :: post'), pre', post', id.
    split; [exact T3|].
    unfold Aggregate.aggregate in A. rewrite aggFragments_goods, E in A. injection A as <-.
    cbn [d_elements].
    cbn [aggInit as_tree agDoc ag_root ag_open nest app flats flat_map] in T2.
    split. { destruct (as_refs st); rewrite ?flats_res, T2; reflexivity. }
    split; [reflexivity|]. split; [exact HP|]. split.
    { pose proof (agg_run_refs _ _ _ _ _ _ _ R1) as RR. cbn [aggInit as_refs] in RR.
      unfold registered. rewrite <- RR. exact FF. }
    assert (NEid : id <> "").
    { destruct FF as (k & _ & -> & _ & _). unfold suffixed. destruct (k =? 1)%N; [exact HB|].
      destruct here; [congruence|discriminate]. }
    assert (NR : as_refs st <> []).
    { destruct (agg_run_ids _ _ _ _ _ _ _ R3) as (INC & _).
      intros Z. rewrite Z in INC. assert (X : In id (mkeys (as_refs s2))).
      { rewrite R4. cbn [Aggregate.reference sectionReference]. change AttrID with "id".
        rewrite getAsStringD_mset. destruct (String.eqb_spec id ""); [congruence|].
        apply mhas_In. unfold mhas. now rewrite mget_mset_eq. }
      apply INC in X. destruct X. }
    exists (resolveXref is_letter is_number fmtv (callAttributes (as_ctx st))).
    split; [|split].
    - assert (X : flat_map xref_ids (agDoc (as_tree st)) = flat_map xref_ids (goods fs)).
      { rewrite <- xref_ids_flats, T2. now apply xref_ids_same. }
      rewrite <- X. destruct (as_refs st); [congruence|]. clear.
      induction (agDoc (as_tree st)) as [|y ys IH]; [reflexivity|].
      cbn. now rewrite map_app, IH, xref_ids_res.
    - intros s. unfold resolveXref, xrefResolveID.
      rewrite (text_or_D _ AttrIDPrefix _ _ (in_force_run _ _ _ _ _ ND R)), (text_or_D _ AttrIDSeparator _ _ (in_force_run _ _ _ _ _ ND R)).
      destruct (contains s " "); reflexivity.
    - intros s. unfold resolveXref, xrefResolveID.
      rewrite (text_or_D _ AttrIDPrefix _ _ (in_force_run _ _ _ _ _ ND R)), (text_or_D _ AttrIDSeparator _ _ (in_force_run _ _ _ _ _ ND R)). reflexivity.
  Qed.
End X.
