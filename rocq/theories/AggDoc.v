(** Proofs about whole documents produced by the aggregation stage. *)
From Verif Require Import GoBase GoLemmas Types Attrs Utf8 Ids Toc Context Aggregate SecSpec
  IdsLemmas TocLemmas TocNest AggLemmas.

Section D.
  Variable is_letter is_number : N -> bool.
  Variable fmtv : val -> string.
  Notation reference := (reference fmtv).
  Notation aggElement := (aggElement is_letter is_number fmtv).
  Notation aggElements := (aggElements is_letter is_number fmtv).
  Notation aggFragments := (aggFragments is_letter is_number fmtv).

  (** references are only ever added *)
  Definition mono (f : gomap val -> gomap val) := forall refs, incl (mkeys refs) (mkeys (f refs)).

  Lemma mset_mono k v : mono (fun refs => mset refs k v).
  Proof.
    intros refs. induction refs as [|[k' v'] r IH]; cbn.
    - intros x [].
    - destruct (String.eqb_spec k k') as [->|N]; cbn.
      + apply incl_refl.
      + intros x [->|H]; [left; auto|right; apply IH; exact H].
  Qed.

  Lemma refTitle_mono attrs : mono (refTitle fmtv attrs).
  Proof.
    intros refs. unfold refTitle. destruct (mget attrs AttrTitle) as [v|]; [|apply incl_refl].
    destruct (String.eqb (getAsStringD fmtv attrs AttrID "") "").
    - destruct v; apply incl_refl.
    - destruct v; try apply incl_refl; apply mset_mono.
  Qed.

  Lemma visit_mono (l : list val) : (forall c, In c l -> mono (reference c)) ->
    mono ((fix visit (l : list val) (refs : gomap val) {struct l} : gomap val :=
      match l with [] => refs | x :: r => visit r (reference x refs) end) l).
  Proof.
    intros H. induction l as [|x r IH]; intros refs; [apply incl_refl|].
    eapply incl_tran; [apply (H x); cbn; auto|]. apply IH. intros c Hc. apply H. cbn; auto.
  Qed.

  Lemma reference_mono e : mono (reference e).
  Proof.
    assert (G : forall n e, (vsize e < n)%nat -> mono (reference e)).
    2:{ apply (G (S (vsize e))). lia. }
    induction n as [|n IHn]; intros v Hv; [lia|].
    assert (IH : forall c, In c (children v) -> mono (reference c)).
    { intros c Hc. apply IHn. apply children_size in Hc. lia. }
    assert (IH2 : forall d, In d (children v) -> forall c, In c (children d) -> mono (reference c)).
    { intros d Hd c Hc. apply IHn. apply children_size in Hd. apply children_size in Hc. lia. }
    assert (IH3 : forall b, In b (children v) -> forall d, In d (children b) ->
                  forall c, In c (children d) -> mono (reference c)).
    { intros b Hb d Hd c Hc. apply IHn. apply children_size in Hb. apply children_size in Hd.
      apply children_size in Hc. lia. }
    clear IHn Hv.
    assert (VC : forall cells, (forall f els, In (TableCell f els) cells ->
                   forall c, In c els -> mono (reference c)) ->
      mono ((fix visit_cells (l : list val) (refs : gomap val) {struct l} : gomap val :=
      match l with
      | [] => refs
      | TableCell _ els :: r => visit_cells r 
          ((fix visit (l : list val) (refs : gomap val) {struct l} : gomap val :=
      match l with [] => refs | x :: r => visit r (reference x refs) end) els refs)
      | _ :: r => visit_cells r refs
      end) cells)).
    { induction cells as [|x r IHr]; intros HC refs; [apply incl_refl|].
      destruct x; try (apply IHr; intros f els Hin; apply (HC f els); cbn; auto).
      eapply incl_tran; [|apply IHr; intros f els Hin; apply (HC f els); cbn; auto].
      apply visit_mono. intros c Hc. eapply HC; [left; reflexivity|exact Hc]. }
    assert (VR : forall rows, (forall cells f els, In (TableRow cells) rows -> In (TableCell f els) cells ->
                   forall c, In c els -> mono (reference c)) ->
      mono ((fix visit_rows (l : list val) (refs : gomap val) {struct l} : gomap val :=
      match l with
      | [] => refs
      | TableRow cells :: r => visit_rows r 
          ((fix visit_cells (l : list val) (refs : gomap val) {struct l} : gomap val :=
      match l with
      | [] => refs
      | TableCell _ els :: r => visit_cells r 
          ((fix visit (l : list val) (refs : gomap val) {struct l} : gomap val :=
      match l with [] => refs | x :: r => visit r (reference x refs) end) els refs)
      | _ :: r => visit_cells r refs
      end) cells refs)
      | _ :: r => visit_rows r refs
      end) rows)).
    { induction rows as [|x r IHr]; intros HC refs; [apply incl_refl|].
      destruct x; try (apply IHr; intros cs f els Hin; apply (HC cs f els); cbn; auto).
      eapply incl_tran; [|apply IHr; intros cs f els Hin; apply (HC cs f els); cbn; auto].
      apply VC. intros f els Hin. eapply HC; [left; reflexivity|exact Hin]. }
    intros refs. destruct v; try apply incl_refl.
    - (* Paragraph *) apply refTitle_mono.
    - (* DelimitedBlock *)
      cbn [Aggregate.reference]. eapply incl_tran; [apply refTitle_mono|]. apply visit_mono.
      intros c Hc. apply IH. cbn. apply in_or_app; auto.
    - (* Section *)
      cbn. unfold sectionReference. destruct title; [|apply incl_refl].
      destruct (String.eqb _ ""); [apply incl_refl|apply mset_mono].
    - (* ImageBlock *)
      cbn. destruct (String.eqb _ "" || String.eqb _ ""); [apply incl_refl|apply mset_mono].
    - (* ListBlock *)
      cbn [Aggregate.reference]. eapply incl_tran; [apply refTitle_mono|]. apply visit_mono.
      intros c Hc. apply IH. cbn. apply in_or_app; auto.
    - cbn [Aggregate.reference]. eapply incl_tran; [apply refTitle_mono|]. apply visit_mono.
      intros c Hc. apply IH. cbn. apply in_or_app; auto.
    - cbn [Aggregate.reference]. eapply incl_tran; [apply refTitle_mono|]. apply visit_mono.
      intros c Hc. apply IH. cbn. apply in_or_app; auto.
    - cbn [Aggregate.reference]. eapply incl_tran; [apply refTitle_mono|]. apply visit_mono.
      intros c Hc. apply IH. cbn. apply in_or_app; auto.
    - (* LabeledListElement *)
      cbn [Aggregate.reference]. eapply incl_tran; [apply refTitle_mono|].
      eapply incl_tran; [|apply visit_mono].
      + destruct term as [|x r]; [apply incl_refl|]. destruct x; try apply incl_refl.
        destruct (String.eqb _ ""); [apply incl_refl|apply mset_mono].
      + intros c Hc. apply IH. cbn. apply in_or_app; right. apply in_or_app; auto.
    - (* Table *)
      cbn [Aggregate.reference].
      eapply incl_tran; [apply refTitle_mono|].
      assert (HR : forall cells f els, In (TableRow cells) rows -> In (TableCell f els) cells ->
                   forall c, In c els -> mono (reference c)).
      { intros cells f els H1 H2 c Hc. eapply (IH3 (TableRow cells)); [|exact H2|exact Hc].
        cbn. right; right. apply in_or_app; auto. }
      assert (HH : forall cells, In (TableRow cells) [v1; v2] -> forall f els, In (TableCell f els) cells ->
                   forall c, In c els -> mono (reference c)).
      { intros cells H1 f els H2 c Hc. eapply (IH3 (TableRow cells)); [|exact H2|exact Hc].
        cbn. cbn in H1. tauto. }
      eapply incl_tran; [|destruct v2; try apply incl_refl; apply VC; apply HH; cbn; auto].
      eapply incl_tran; [|apply VR; exact HR].
      destruct v1; try apply incl_refl. apply VC; apply HH; cbn; auto.
  Qed.

  (** *** one element *)
  Definition section_base (c : ctxattrs) (a : attributes) (t : option (list val)) : string :=
    baseID is_letter is_number fmtv (callAttributes c) a t.

  Lemma getAsStringD_mset a id : getAsStringD fmtv (mset a AttrID (VStr id)) AttrID "" = id.
  Proof. unfold getAsStringD. now rewrite mget_mset_eq. Qed.

  Lemma headerEffects_spec els : forall c t,
    let (c', t') := headerEffects els c t in
    immutableAttrs c' = immutableAttrs c /\ toc_sections t' = toc_sections t /\
    toc_max t' = fold_left (toclevels_decl (mget (immutableAttrs c) "toclevels")) els (toc_max t).
  Proof.
    induction els as [|e r IH]; intros c t; [cbn; auto|].
    destruct e; try (apply (IH c t)).
    - cbn [headerEffects]. specialize (IH (cset c name e) (setToclevels (cset c name e) name t)).
      destruct (headerEffects r _ _) as [c' t']. cbn [immutableAttrs cset] in IH.
      destruct IH as (I1 & I2 & I3). split; [exact I1|]. split.
      + rewrite I2. unfold setToclevels. now destruct (String.eqb name _).
      + rewrite I3. cbn [fold_left]. f_equal. unfold setToclevels, toclevels_decl.
        change AttrTableOfContentsLevels with "toclevels".
        destruct (String.eqb_spec name "toclevels") as [->|]; [|reflexivity]. cbn [toc_max].
        unfold cgetAsInt, ahas, mhas. cbn [immutableAttrs cset docAttrs]. unfold getAsInt.
        destruct (mget (immutableAttrs c) "toclevels") as [f|] eqn:E; [destruct f; reflexivity|].
        rewrite mget_mset_eq. destruct e; reflexivity.
    - cbn [headerEffects]. specialize (IH (cunset c name) t).
      destruct (headerEffects r _ _) as [c' t']. exact IH.
  Qed.

  Lemma setToclevels_spec c name e t :
    toc_sections (setToclevels (cset c name e) name t) = toc_sections t /\
    toc_max (setToclevels (cset c name e) name t) =
    toclevels_decl (mget (immutableAttrs c) "toclevels") (toc_max t) (AttributeDeclaration name e).
  Proof.
    pose proof (headerEffects_spec [AttributeDeclaration name e] c t) as H. cbn [headerEffects] in H.
    tauto.
  Qed.

  (** what one step of the loop does *)
  Lemma aggElement_spec st e :
    exists e' st', aggElement st e = Some st' /\
      same_but_id e e' /\
      as_tree st' = agAppend (as_tree st) e' /\
      as_refs st' = reference e' (as_refs st) /\
      immutableAttrs (as_ctx st') = immutableAttrs (as_ctx st) /\
      toc_max (as_toc st') =
        toclevels_after (mget (immutableAttrs (as_ctx st)) "toclevels") (toc_max (as_toc st)) e /\
      match e with
      | Section l a t els =>
          exists id, e' = Section l (mset a "id" (VStr id)) t els /\
            first_free (section_base (as_ctx st) a t) (mkeys (as_refs st)) id /\
            as_ctx st' = as_ctx st /\
            as_toc st' = tocAdd (as_toc st) id l
      | _ => toc_sections (as_toc st') = toc_sections (as_toc st)
      end.
  Proof.
    destruct e;
      try (eexists _, _; split; [reflexivity|]; split; [left; split; reflexivity|];
           repeat split; reflexivity).
    - (* Section *)
      cbn [Aggregate.aggElement sectionResolveID].
      change (baseID is_letter is_number fmtv (callAttributes (as_ctx st)) attrs title)
        with (section_base (as_ctx st) attrs title).
      pose proof (resolveUnique_first_free (section_base (as_ctx st) attrs title) (as_refs st)) as (id & E & FF).
      rewrite E. eexists _, _. split; [reflexivity|]. split.
      { right. do 5 eexists. split; reflexivity. }
      cbn [sectionTocID]. rewrite getAsStringD_mset. cbn.
      rewrite tocAdd_max. repeat split; try reflexivity.
      exists id. repeat split; auto.
    - (* DocumentHeader *)
      cbn [Aggregate.aggElement]. pose proof (headerEffects_spec elements (as_ctx st) (as_toc st)) as H.
      destruct (headerEffects elements _ _) as [c t]. destruct H as (H1 & H2 & H3).
      eexists _, _; split; [reflexivity|]; split; [left; split; reflexivity|].
      cbn. repeat split; auto.
    - (* AttributeDeclaration *)
      cbn [Aggregate.aggElement]. destruct (setToclevels_spec (as_ctx st) name e (as_toc st)) as [H1 H2].
      eexists _, _; split; [reflexivity|]; split; [left; split; reflexivity|].
      cbn [as_tree as_refs as_ctx as_toc]. repeat split; auto.
  Qed.

  (** *** all elements *)

  (** the trace of the contexts is needed to state which base id each section had *)
  Inductive agg_run : aggstate -> list val -> list val -> aggstate -> Prop :=
  | run_nil st : agg_run st [] [] st
  | run_cons st e e' st1 els els' st' :
      aggElement st e = Some st1 ->
      same_but_id e e' ->
      as_tree st1 = agAppend (as_tree st) e' ->
      as_refs st1 = reference e' (as_refs st) ->
      immutableAttrs (as_ctx st1) = immutableAttrs (as_ctx st) ->
      toc_max (as_toc st1) =
        toclevels_after (mget (immutableAttrs (as_ctx st)) "toclevels") (toc_max (as_toc st)) e ->
      match e with
      | Section l a t els =>
          exists id, e' = Section l (mset a "id" (VStr id)) t els /\
            first_free (section_base (as_ctx st) a t) (mkeys (as_refs st)) id /\
            as_ctx st1 = as_ctx st /\
            as_toc st1 = tocAdd (as_toc st) id l
      | _ => toc_sections (as_toc st1) = toc_sections (as_toc st)
      end ->
      agg_run st1 els els' st' ->
      agg_run st (e :: els) (e' :: els') st'.

  Lemma aggElements_run els : forall st,
    exists els' st', aggElements st els = Some st' /\ agg_run st els els' st'.
  Proof.
    induction els as [|e els IH]; intros st.
    - exists [], st. split; [reflexivity|constructor].
    - destruct (aggElement_spec st e) as (e' & st1 & E & H1 & H2 & H3 & H4 & H5 & H6).
      destruct (IH st1) as (els' & st' & E' & R). exists (e' :: els'), st'. split.
      + cbn. now rewrite E.
      + econstructor; eauto.
  Qed.

  (** the elements of the fragments that carry no error *)
  Definition goods (fs : list fragment) : list val :=
    flat_map (fun f => match f with Frag els => els | ErrFrag _ => [] end) fs.

  Lemma aggElements_app a b : forall st,
    aggElements st (a ++ b) =
    match aggElements st a with Some st' => aggElements st' b | None => None end.
  Proof.
    induction a as [|e a IH]; intros st; [reflexivity|]. cbn.
    destruct (aggElement st e); auto.
  Qed.

  Lemma aggFragments_goods fs : forall st, aggFragments st fs = aggElements st (goods fs).
  Proof.
    induction fs as [|f fs IH]; intros st; [reflexivity|].
    destruct f as [els|m]; cbn [Aggregate.aggFragments goods flat_map].
    - change (flat_map _ fs) with (goods fs). rewrite aggElements_app.
      destruct (aggElements st els); auto.
    - apply IH.
  Qed.

  Lemma same_but_id_shallow e e' : same_but_id e e' -> shallow e -> shallow e'.
  Proof.
    intros [[H ->]|(l & a & t & els & id & -> & ->)]; auto.
  Qed.
  Lemma shallow_flat e : shallow e -> flat e = [e].
  Proof. destruct e; cbn; auto. intros ->. reflexivity. Qed.

  Lemma agg_run_tree st els els' st' : agg_run st els els' st' ->
    Forall shallow els -> agOK (as_tree st) ->
    agOK (as_tree st') /\
    flats (agDoc (as_tree st')) = flats (agDoc (as_tree st)) ++ els' /\
    Forall2 same_but_id els els'.
  Proof.
    induction 1 as [st|st e e' st1 els els' st' E S T R C M P RUN IH]; intros SH OK.
    - rewrite app_nil_r. auto.
    - inversion SH as [|? ? SH1 SH2]; subst.
      assert (SH' : shallow e') by (eapply same_but_id_shallow; eauto).
      destruct IH as (I1 & I2 & I3); auto.
      { rewrite T. apply agAppend_ok; auto. intros l a t x ->. exact SH'. }
      split; [auto|]. split; [|constructor; auto].
      rewrite I2, T, flats_append, (shallow_flat _ SH'), <- app_assoc. reflexivity.
  Qed.

  Lemma agg_run_ids st els els' st' : agg_run st els els' st' ->
    incl (mkeys (as_refs st)) (mkeys (as_refs st')) /\
    NoDup (flat_map titled_id els') /\
    incl (flat_map titled_id els') (mkeys (as_refs st')) /\
    (forall id, In id (flat_map titled_id els') -> ~ In id (mkeys (as_refs st))).
  Proof.
    induction 1 as [st|st e e' st1 els els' st' E S T R C M P RUN IH].
    - cbn. repeat split; auto using incl_refl; try constructor. intros x [].
    - destruct IH as (I0 & I1 & I2 & I3).
      pose proof (reference_mono e' (as_refs st)) as MO. rewrite <- R in MO.
      split; [eapply incl_tran; eauto|].
      assert (HH : titled_id e' = [] \/ exists id, titled_id e' = [id] /\
                 ~ In id (mkeys (as_refs st)) /\ In id (mkeys (as_refs st1))).
      { destruct S as [[S ->]|(l & a & t & x & id & -> & ->)].
        - left. destruct e; try reflexivity. discriminate.
        - destruct P as (id' & E1 & FF & _ & _). injection E1 as E1.
          assert (id' = id).
          { assert (mget (mset a "id" (VStr id)) "id" = mget (mset a "id" (VStr id')) "id") by congruence.
            rewrite !mget_mset_eq in H. congruence. }
          subst id'. cbn [titled_id]. destruct t as [t|]; [|auto]. rewrite mget_mset_eq.
          destruct (String.eqb_spec id "") as [->|NE]; [auto|].
          right. exists id. split; [reflexivity|]. split.
          + destruct FF as (k & _ & _ & NI & _). exact NI.
          + rewrite R. cbn [Aggregate.reference sectionReference].
            change AttrID with "id". rewrite getAsStringD_mset.
            destruct (String.eqb_spec id ""); [congruence|].
            apply mhas_In. unfold mhas. now rewrite mget_mset_eq. }
      cbn [flat_map]. destruct HH as [->|(id & -> & N1 & N2)].
      + cbn. repeat split; auto. intros y Hy HI. apply (I3 y Hy), MO, HI.
      + cbn. repeat split.
        * constructor; auto. intros HI. apply (I3 _ HI). exact N2.
        * intros y [->|Hy]; auto.
        * intros y [->|Hy]; auto. intros HI. apply (I3 _ Hy). apply MO, HI.
  Qed.

  Lemma agg_run_toc st els els' st' : agg_run st els els' st' ->
    forest_entries (toc_sections (as_toc st')) =
    forest_entries (toc_sections (as_toc st)) ++
    toc_expected (mget (immutableAttrs (as_ctx st)) "toclevels") (toc_max (as_toc st)) els'.
  Proof.
    induction 1 as [st|st e e' st1 els els' st' E S T R C M P RUN IH].
    - now rewrite app_nil_r.
    - rewrite IH, C, M. cbn [toc_expected].
      destruct S as [[S ->]|(l & a & t & x & id & -> & ->)].
      + assert (section_entry e = []) as -> by (destruct e; try reflexivity; discriminate).
        cbn [filter app]. f_equal. destruct e; try (rewrite P; reflexivity). discriminate.
      + destruct P as (id' & E1 & FF & _ & ->). injection E1 as E1.
        assert (id' = id).
        { assert (mget (mset a "id" (VStr id)) "id" = mget (mset a "id" (VStr id')) "id") by congruence.
          rewrite !mget_mset_eq in H. congruence. }
        subst id'. rewrite tocAdd_entries. cbn [section_entry]. rewrite mget_mset_eq.
        cbn [filter snd toclevels_after toclevels_decl].
        rewrite <- app_assoc. f_equal.
  Qed.

  (** *** resolution of cross references keeps the tree *)
  Notation res := (resolveCrossReferences is_letter is_number fmtv).

  Lemma res_section d e : is_section (res d e) = is_section e.
  Proof. destruct e; reflexivity. Qed.

  Lemma res_child_levels d els : child_levels (map (res d) els) = child_levels els.
  Proof. induction els as [|e els IH]; [reflexivity|]. destruct e; cbn; rewrite ?IH; reflexivity. Qed.

  Lemma res_all_sections d els : Forall (fun x => is_section x = true) els ->
    Forall (fun x => is_section x = true) (map (res d) els).
  Proof.
    induction 1; constructor; auto. now rewrite res_section.
  Qed.

  Lemma res_blocks_first d els : blocks_first els -> blocks_first (map (res d) els).
  Proof.
    induction els as [|e els IH]; [auto|]. cbn. intros [H1 H2]. split; auto.
    rewrite res_section. intros H. now apply res_all_sections, H1.
  Qed.

  Lemma res_node_ok d p els : node_ok p els -> node_ok p (map (res d) els).
  Proof.
    unfold node_ok. rewrite res_child_levels. intros (H1 & H2 & H3). auto using res_blocks_first.
  Qed.

  Lemma res_tree_ok d : forall e, tree_ok e -> tree_ok (res d e).
  Proof.
    apply (val_ind_children (fun e => tree_ok e -> tree_ok (res d e))).
    intros v IH H. inversion H as [v' Hb|l a t els HN HF]; subst.
    - constructor. now rewrite res_section.
    - cbn. constructor; [now apply res_node_ok|].
      apply Forall_map. apply Forall_forall. intros x Hx. apply IH.
      + cbn. apply in_or_app. right. apply in_or_app. auto.
      + rewrite Forall_forall in HF. auto.
  Qed.

  Lemma map_ext_children {B} (f g : val -> B) l :
    (forall c, In c l -> f c = g c) -> map f l = map g l.
  Proof. intros H. now apply map_ext_in. Qed.

  Lemma forget_res d : forall e, forget_xrefs (res d e) = forget_xrefs e.
  Proof.
    apply val_ind_children. intros v IH.
    destruct v; try reflexivity; cbn [resolveCrossReferences forget_xrefs]; f_equal;
      rewrite map_map; apply map_ext_in; intros c Hc; apply IH; cbn;
      try exact Hc;
      try (apply in_or_app; auto; fail);
      try (apply in_or_app; right; apply in_or_app; auto; fail).
    right; right. apply in_or_app; auto.
  Qed.

  Lemma flat_res d : forall e, map forget_xrefs (flat (res d e)) = map forget_xrefs (flat e).
  Proof.
    apply val_ind_children. intros v IH. destruct (is_section v) eqn:S.
    - destruct v; try discriminate. cbn [resolveCrossReferences flat map]. f_equal.
      assert (IH' : forall c, In c elements ->
                map forget_xrefs (flat (res d c)) = map forget_xrefs (flat c)).
      { intros c Hc. apply IH. cbn. apply in_or_app. right. apply in_or_app. auto. }
      clear IH S. induction elements as [|x r IHr]; [reflexivity|].
      cbn. rewrite !map_app, IH' by (cbn; auto). f_equal. apply IHr. intros; apply IH'; cbn; auto.
    - assert (flat v = [v]) as -> by (destruct v; try reflexivity; discriminate).
      assert (flat (res d v) = [res d v]) as ->.
      { destruct v; try reflexivity; discriminate. }
      cbn. now rewrite forget_res.
  Qed.

  Lemma flats_res d els : map forget_xrefs (flats (map (res d) els)) = map forget_xrefs (flats els).
  Proof.
    unfold flats. induction els as [|x r IH]; [reflexivity|].
    cbn. rewrite !map_app, IH, flat_res. reflexivity.
  Qed.

  Lemma titled_id_forget l : flat_map titled_id (map forget_xrefs l) = flat_map titled_id l.
  Proof.
    induction l as [|x r IH]; [reflexivity|]. cbn. rewrite IH. f_equal. destruct x; reflexivity.
  Qed.

  (** *** the whole document *)
  Notation aggregate := (aggregate is_letter is_number fmtv).

  Lemma agOK_init c : agOK (as_tree (aggInit c)).
  Proof. constructor. Qed.

  Lemma aggregate_spec c fs : Forall shallow (goods fs) ->
    exists els' doc, aggregate c fs = Some doc /\
      Forall2 same_but_id (goods fs) els' /\
      map forget_xrefs (flats (d_elements doc)) = map forget_xrefs els' /\
      document_ok (d_elements doc) /\
      NoDup (flat_map titled_id els') /\
      incl (flat_map titled_id els') (mkeys (d_refs doc)) /\
      match d_toc doc with Some t => forest_entries (toc_sections t) | None => [] end =
      toc_expected (mget (immutableAttrs c) "toclevels")
         (cgetAsInt c "toclevels" 2) els'.
  Proof.
    intros SH. destruct (aggElements_run (goods fs) (aggInit c)) as (els' & st & E & R).
    destruct (agg_run_tree _ _ _ _ R SH (agOK_init c)) as (T1 & T2 & T3).
    destruct (agg_run_ids _ _ _ _ R) as (_ & D1 & D2 & _).
    pose proof (agg_run_toc _ _ _ _ R) as TOC.
    unfold Aggregate.aggregate. rewrite aggFragments_goods, E.
    eexists els', _. split; [reflexivity|]. cbn [d_elements d_refs d_toc].
    split; [exact T3|].
    set (els := match as_refs st with [] => _ | _ => _ end).
    assert (HE : els = agDoc (as_tree st) \/ exists d, els = map (res d) (agDoc (as_tree st))).
    { unfold els. destruct (as_refs st); eauto. }
    assert (OK : document_ok (agDoc (as_tree st))) by (apply open_ok_nest; exact T1).
    split; [|split; [|split; [exact D1|split; [exact D2|]]]].
    - cbn [aggInit as_tree agDoc ag_root ag_open nest app flats flat_map] in T2.
      destruct HE as [->|[d ->]]; rewrite ?flats_res, T2; reflexivity.
    - destruct HE as [->|[d ->]]; [exact OK|]. destruct OK as [K1 K2]. split.
      + now apply res_node_ok.
      + apply Forall_map. eapply Forall_impl; [|exact K2]. intros x. apply res_tree_ok.
    - cbn [aggInit as_toc newToc toc_sections toc_max as_ctx] in TOC.
      change (forest_entries []) with (@nil (string * Z)) in TOC. cbn [app] in TOC.
      change AttrTableOfContentsLevels with "toclevels" in TOC. rewrite <- TOC.
      destruct (toc_sections (as_toc st)) eqn:X; [reflexivity|]. now rewrite X.
  Qed.

  (** *** what each section id is *)
  Definition registered (els : list val) : gomap val :=
    fold_left (fun refs e => reference e refs) els [].

  Lemma agg_run_refs st els els' st' : agg_run st els els' st' ->
    as_refs st' = fold_left (fun refs e => reference e refs) els' (as_refs st).
  Proof.
    induction 1 as [st|st e e' st1 els els' st' E S T R C M P RUN IH]; [reflexivity|].
    rewrite IH, R. reflexivity.
  Qed.

  Lemma agg_run_split st els els' st' : agg_run st els els' st' ->
    forall pre' e' post', els' = pre' ++ e' :: post' ->
    exists pre e post st1 st2, els = pre ++ e :: post /\ agg_run st pre pre' st1 /\
      aggElement st1 e = Some st2 /\ same_but_id e e' /\ 
      match e with
      | Section l a t els =>
          exists id, e' = Section l (mset a "id" (VStr id)) t els /\
            first_free (section_base (as_ctx st1) a t) (mkeys (as_refs st1)) id
      | _ => True
      end.
  Proof.
    induction 1 as [st|st e e' st1 els els' st' E S T R C M P RUN IH]; intros pre' x post' EQ.
    - destruct pre'; discriminate.
    - destruct pre' as [|y pre'].
      + injection EQ as -> ->. exists [], e, els, st, st1. repeat split; auto.
        * constructor.
        * destruct e; auto. destruct P as (id & P1 & P2 & _). eauto.
      + injection EQ as -> ->. destruct (IH _ _ _ eq_refl) as (pre & e2 & post & s1 & s2 & -> & H1 & H2 & H3 & H4).
        exists (e :: pre), e2, post, s1, s2. repeat split; auto. econstructor; eauto.
  Qed.

  (** *** shape of the table of contents *)
  Definition no_toclevels (e : val) : Prop := declares "toclevels" e = false.

  Lemma toclevels_decls_none fx els : forall d,
    existsb (fun x => match x with AttributeDeclaration n _ => String.eqb n "toclevels" | _ => false end) els = false ->
    fold_left (toclevels_decl fx) els d = d.
  Proof.
    induction els as [|e els IH]; intros d H; [reflexivity|]. cbn in H. apply orb_false_iff in H.
    destruct H as [H1 H2]. cbn. rewrite <- (IH d H2) at 2. f_equal. unfold toclevels_decl.
    destruct e; auto. now rewrite H1.
  Qed.

  Lemma no_toclevels_after fx d e : no_toclevels e -> toclevels_after fx d e = d.
  Proof.
    unfold no_toclevels, declares, toclevels_after.
    destruct e; try reflexivity.
    - apply toclevels_decls_none.
    - cbn. intros ->. reflexivity.
  Qed.

  Lemma toc_eta t : mkToc (toc_max t) (toc_sections t) = t.
  Proof. destruct t; reflexivity. Qed.

  Lemma agg_run_tocAddAll st els els' st' : agg_run st els els' st' ->
    Forall no_toclevels els ->
    as_toc st' = tocAddAll (as_toc st) (flat_map section_entry els').
  Proof.
    induction 1 as [st|st e e' st1 els els' st' E S T R C M P RUN IH]; intros NT; [reflexivity|].
    inversion NT as [|? ? N1 N2]; subst. rewrite IH by auto. clear IH.
    rewrite no_toclevels_after in M by auto. cbn [flat_map]. unfold tocAddAll.
    rewrite fold_left_app. f_equal.
    destruct S as [[S ->]|(l & a & t & x & id & -> & ->)].
    - assert (section_entry e = []) as -> by (destruct e; try reflexivity; discriminate).
      cbn. rewrite <- (toc_eta (as_toc st1)), <- (toc_eta (as_toc st)), M. f_equal.
      destruct e; try exact P. discriminate.
    - destruct P as (id' & E1 & FF & _ & ->). injection E1 as E1.
      assert (id' = id).
      { assert (mget (mset a "id" (VStr id)) "id" = mget (mset a "id" (VStr id')) "id") by congruence.
        rewrite !mget_mset_eq in H. congruence. }
      subst id'. cbn [section_entry]. now rewrite mget_mset_eq.
  Qed.

  Lemma section_entry_levels els els' : Forall2 same_but_id els els' ->
    map snd (flat_map section_entry els') = child_levels els.
  Proof.
    induction 1 as [|e e' els els' S F IH]; [reflexivity|].
    cbn [flat_map]. rewrite map_app, IH.
    destruct S as [[S ->]|(l & a & t & x & id & -> & ->)].
    - destruct e; try reflexivity; discriminate.
    - cbn [section_entry]. rewrite mget_mset_eq. reflexivity.
  Qed.

  Lemma tocAddAll_above l : forall t,
    Forall (fun x => (toc_max t < snd x)%Z) l -> tocAddAll t l = t.
  Proof.
    induction l as [|[id x] l IH]; intros t H; [reflexivity|].
    inversion H as [|? ? H1 H2]; subst. cbn in H1.
    change (tocAddAll (tocAdd t id x) l = t).
    assert (tocAdd t id x = t) as ->.
    { unfold tocAdd. destruct (Z.ltb_spec (toc_max t) x); [reflexivity|lia]. }
    auto.
  Qed.

  Lemma no_skip_above l0 : forall ls p, no_skip l0 p ls -> Forall (fun x => (l0 <= x)%Z) ls.
  Proof.
    induction ls as [|x ls IH]; intros p H; constructor; cbn in H; [lia|]. eapply IH. apply H.
  Qed.

  Lemma aggregate_toc_levels c fs doc l0 rest :
    Forall shallow (goods fs) -> Forall no_toclevels (goods fs) ->
    child_levels (goods fs) = l0 :: rest -> no_skip l0 l0 rest ->
    aggregate c fs = Some doc ->
    Forall (toc_levels l0) (match d_toc doc with Some t => toc_sections t | None => [] end).
  Proof.
    intros SH NT CL NS A. destruct (aggElements_run (goods fs) (aggInit c)) as (els' & st & E & R).
    unfold Aggregate.aggregate in A. rewrite aggFragments_goods, E in A.
    injection A as <-. cbn [d_toc].
    destruct (agg_run_tree _ _ _ _ R SH (agOK_init c)) as (_ & _ & F2).
    pose proof (agg_run_tocAddAll _ _ _ _ R NT) as TOC.
    assert (G : Forall (toc_levels l0) (toc_sections (as_toc st))).
    { rewrite TOC. pose proof (section_entry_levels _ _ F2) as L. rewrite CL in L.
      destruct (flat_map section_entry els') as [|[id x] es]; [discriminate|].
      cbn in L. injection L as -> L. cbn [aggInit as_toc].
      set (mx := cgetAsInt c AttrTableOfContentsLevels 2).
      destruct (Z.ltb_spec mx l0) as [LT|GE].
      - rewrite tocAddAll_above; [constructor|]. constructor; [exact LT|].
        rewrite Forall_forall. intros y Hy. cbn.
        assert (IL : In (snd y) rest) by (rewrite <- L; now apply in_map).
        apply no_skip_above in NS. rewrite Forall_forall in NS. specialize (NS _ IL). lia.
      - change (tocAddAll (newToc mx) ((id, l0) :: es)) with (tocAddAll (tocAdd (newToc mx) id l0) es).
        apply (tocAddAll_levels _ _ _ l0).
        + unfold tocAdd, newToc. cbn. destruct (Z.ltb_spec mx l0); [lia|]. discriminate.
        + unfold tocAdd, newToc. cbn. destruct (Z.ltb_spec mx l0); [lia|].
          repeat constructor.
        + unfold tocAdd, newToc. cbn. destruct (Z.ltb_spec mx l0); [lia|]. cbn. lia.
        + rewrite tocAdd_max. cbn. lia.
        + now rewrite L. }
    destruct (toc_sections (as_toc st)) eqn:X; [constructor|]. now rewrite X.
  Qed.

  (** *** errors *)
  Definition is_error (f : fragment) : bool := match f with ErrFrag _ => true | _ => false end.
  Lemma goods_filter fs : goods (filter (fun f => negb (is_error f)) fs) = goods fs.
  Proof.
    induction fs as [|f fs IH]; [reflexivity|]. destruct f; cbn; [|exact IH].
    unfold goods in IH. now rewrite IH.
  Qed.
  Lemma aggregate_drops_errors c fs :
    aggregate c fs = aggregate c (filter (fun f => negb (is_error f)) fs).
  Proof. unfold Aggregate.aggregate. now rewrite !aggFragments_goods, goods_filter. Qed.
  Lemma aggregate_total c fs : aggregate c fs <> None.
  Proof.
    unfold Aggregate.aggregate. rewrite aggFragments_goods.
    destruct (aggElements_run (goods fs) (aggInit c)) as (els' & st & E & R). rewrite E. discriminate.
  Qed.
End D.

(** ** A tree is determined by its flattening *)
Definition stops (p : option Z) (rest : list val) : Prop :=
  match rest with
  | [] => True
  | e :: _ => match p, e with Some q, Section l _ _ _ => (l <= q)%Z | _, _ => False end
  end.

Lemma node_ok_tail p e els : node_ok p (e :: els) -> node_ok p els.
Proof.
  unfold node_ok. cbn [blocks_first]. intros ((_ & H1) & H2 & H3). repeat split; auto.
  - destruct p; auto. destruct e; auto. inversion H2; auto.
  - destruct e; auto. cbn in H3. tauto.
Qed.

Lemma flat_unique_aux n : forall p els1 els2 rest1 rest2,
  (List.length (flats els1) < n)%nat ->
  node_ok p els1 -> node_ok p els2 -> Forall tree_ok els1 -> Forall tree_ok els2 ->
  stops p rest1 -> stops p rest2 ->
  flats els1 ++ rest1 = flats els2 ++ rest2 -> els1 = els2 /\ rest1 = rest2.
Proof.
  induction n as [|n IHn]; [intros; lia|].
  intros p els1. induction els1 as [|e1 els1 IH1]; intros els2 rest1 rest2 LEN N1 N2 T1 T2 S1 S2 EQ.
  - destruct els2 as [|e2 els2]; [auto|]. exfalso. cbn in EQ. subst rest1.
    destruct (is_section e2) eqn:B.
    + destruct e2; try discriminate. cbn in S1. destruct p as [q|]; [|exact S1].
      destruct N2 as (_ & N2 & _). cbn in N2. inversion N2; subst. lia.
    + destruct e2; try discriminate; cbn in S1; destruct p; exact S1.
  - destruct els2 as [|e2 els2].
    + exfalso. cbn [flats flat_map app] in EQ. subst rest2. 
      destruct (is_section e1) eqn:B.
      * destruct e1; try discriminate. cbn in S2. destruct p as [q|]; [|exact S2].
        destruct N1 as (_ & N1 & _). cbn in N1. inversion N1; subst. lia.
      * destruct e1; try discriminate; cbn in S2; destruct p; exact S2.
    + inversion T1 as [|? ? T1a T1b]; subst. inversion T2 as [|? ? T2a T2b]; subst.
      cbn [flats flat_map] in EQ, LEN. change (flat_map flat) with flats in EQ, LEN.
      destruct (is_section e1) eqn:B1.
      * destruct e1; try discriminate. rename level into l, attrs into a, title into t, elements into c.
        destruct (is_section e2) eqn:B2;
          [|destruct e2; try discriminate; cbn in EQ; discriminate].
        destruct e2; try discriminate. rename level into l2, attrs into a2, title into t2, elements into c2.
        cbn [flat app] in EQ. injection EQ as <- <- <- EQ.
        change (flat_map flat) with flats in EQ. rewrite <- !app_assoc in EQ.
        inversion T1a as [|? ? ? ? NC1 TC1]; subst; [discriminate|].
        inversion T2a as [|? ? ? ? NC2 TC2]; subst; [discriminate|].
        assert (ST : forall els rest, node_ok p (Section l a t c :: els) -> Forall tree_ok els -> stops p rest ->
                  stops (Some l) (flats els ++ rest)).
        { intros els rest NN TT SS. destruct els as [|x els].
          - cbn. unfold stops in *. destruct rest as [|y rest]; auto.
            destruct p as [q|]; [|contradiction]. destruct y; try contradiction.
            destruct NN as (_ & NN & _). cbn in NN. inversion NN; subst. lia.
          - destruct NN as ((NB & _) & _ & NI). specialize (NB eq_refl). inversion NB; subst.
            destruct x; try discriminate. cbn. cbn in NI. tauto. }
        assert (NC2' : node_ok p (Section l a t c :: els2)).
        { clear -N2. destruct N2 as (A & B & C). split; [exact A|split; [exact B|exact C]]. }
        cbn [flat] in LEN. rewrite app_length in LEN. cbn in LEN. change (flat_map flat) with flats in LEN.
        destruct (IHn (Some l) c c2 (flats els1 ++ rest1) (flats els2 ++ rest2)) as [-> EQ2];
          eauto; [lia|].
        destruct (IH1 els2 rest1 rest2) as [-> ->]; eauto using node_ok_tail. lia.
      * assert (F1 : flat e1 = [e1]) by (destruct e1; try reflexivity; discriminate).
        rewrite F1 in *. cbn [app] in EQ.
        assert (B2 : is_section e2 = false).
        { destruct e2; try reflexivity. cbn in EQ. injection EQ as -> _. discriminate. }
        assert (F2 : flat e2 = [e2]) by (destruct e2; try reflexivity; discriminate).
        rewrite F2 in *. cbn [app] in EQ. injection EQ as -> EQ.
        cbn in LEN.
        destruct (IH1 els2 rest1 rest2) as [-> ->]; eauto using node_ok_tail. lia.
Qed.

Lemma flat_unique els1 els2 :
  document_ok els1 -> document_ok els2 -> flats els1 = flats els2 -> els1 = els2.
Proof.
  intros [N1 T1] [N2 T2] E.
  apply (flat_unique_aux (S (List.length (flats els1))) None els1 els2 [] []); auto; cbn; auto.
  now rewrite !app_nil_r.
Qed.

(** forgetting cross reference targets commutes with flattening and keeps the shape *)
Lemma forget_flat : forall e, flat (forget_xrefs e) = map forget_xrefs (flat e).
Proof.
  apply val_ind_children. intros v IH. destruct (is_section v) eqn:S.
  - destruct v; try discriminate. cbn [forget_xrefs flat map]. f_equal.
    assert (IH' : forall c, In c elements -> flat (forget_xrefs c) = map forget_xrefs (flat c)).
    { intros c Hc. apply IH. cbn. apply in_or_app. right. apply in_or_app. auto. }
    clear IH S. induction elements as [|x r IHr]; [reflexivity|].
    cbn. rewrite map_app, IH' by (cbn; auto). f_equal. apply IHr. intros; apply IH'; cbn; auto.
  - destruct v; try reflexivity; discriminate.
Qed.
Lemma forget_flats els : flats (map forget_xrefs els) = map forget_xrefs (flats els).
Proof.
  unfold flats. induction els as [|x r IH]; [reflexivity|]. cbn. now rewrite map_app, IH, forget_flat.
Qed.
Lemma forget_section e : is_section (forget_xrefs e) = is_section e.
Proof. destruct e; reflexivity. Qed.
Lemma forget_child_levels els : child_levels (map forget_xrefs els) = child_levels els.
Proof. induction els as [|e els IH]; [reflexivity|]. destruct e; cbn; rewrite ?IH; reflexivity. Qed.
Lemma forget_blocks_first els : blocks_first els -> blocks_first (map forget_xrefs els).
Proof.
  induction els as [|e els IH]; [auto|]. cbn. intros [H1 H2]. split; auto.
  rewrite forget_section. intros H. apply H1 in H. apply Forall_map.
  eapply Forall_impl; [|exact H]. intros x. now rewrite forget_section.
Qed.
Lemma forget_node_ok p els : node_ok p els -> node_ok p (map forget_xrefs els).
Proof.
  unfold node_ok. rewrite forget_child_levels. intros (H1 & H2 & H3). auto using forget_blocks_first.
Qed.
Lemma forget_tree_ok : forall e, tree_ok e -> tree_ok (forget_xrefs e).
Proof.
  apply (val_ind_children (fun e => tree_ok e -> tree_ok (forget_xrefs e))).
  intros v IH H. inversion H as [v' Hb|l a t els HN HF]; subst.
  - constructor. now rewrite forget_section.
  - cbn. constructor; [now apply forget_node_ok|].
    apply Forall_map. apply Forall_forall. intros x Hx. apply IH.
    + cbn. apply in_or_app. right. apply in_or_app. auto.
    + rewrite Forall_forall in HF. auto.
Qed.
Lemma forget_document_ok els : document_ok els -> document_ok (map forget_xrefs els).
Proof.
  intros [H1 H2]. split; [now apply forget_node_ok|].
  apply Forall_map. eapply Forall_impl; [|exact H2]. apply forget_tree_ok.
Qed.

(** ** Statements about documents *)
Section Docs.
  Variable is_letter is_number : N -> bool.
  Variable fmtv : val -> string.
  Notation aggregate := (aggregate is_letter is_number fmtv).

  Lemma aggregate_ids c fs doc :
    Forall shallow (goods fs) -> aggregate c fs = Some doc ->
    NoDup (flat_map titled_id (flats (d_elements doc))) /\
    incl (flat_map titled_id (flats (d_elements doc))) (mkeys (d_refs doc)).
  Proof.
    intros SH A. destruct (aggregate_spec is_letter is_number fmtv c fs SH)
      as (els' & doc' & A' & _ & E & _ & D1 & D2 & _).
    rewrite A in A'. injection A' as <-.
    rewrite <- (titled_id_forget (flats _)), E, titled_id_forget. auto.
  Qed.

  Lemma same_flat_pre {A} (f : A -> A) (l : list A) pre x post :
    map f l = pre ++ x :: post -> exists p y q, l = p ++ y :: q /\ map f p = pre /\ f y = x /\ map f q = post.
  Proof.
    revert pre. induction l as [|z l IH]; intros [|w pre] H; try discriminate.
    - cbn in H. injection H as <- <-. exists [], z, l. auto.
    - cbn in H. injection H as <- H. destruct (IH _ H) as (p & y & q & -> & <- & <- & <-).
      exists (z :: p), y, q. auto.
  Qed.

  (** ids that count as taken when an element is reached: those registered by what precedes *)
  Lemma aggregate_id_first_free c fs doc :
    Forall shallow (goods fs) -> aggregate c fs = Some doc ->
    exists els', Forall2 same_but_id (goods fs) els' /\
      map forget_xrefs (flats (d_elements doc)) = map forget_xrefs els' /\
      forall pre' l a' t x post', els' = pre' ++ Section l a' t x :: post' ->
      exists pre a post c' id, goods fs = pre ++ Section l a t x :: post /\
        Forall2 same_but_id pre pre' /\
        a' = mset a "id" (VStr id) /\
        first_free (baseID is_letter is_number fmtv (callAttributes c') a t)
          (mkeys (registered fmtv pre')) id.
  Proof.
    intros SH A. destruct (aggElements_run is_letter is_number fmtv (goods fs) (aggInit c)) as (els' & st & E & R).
    destruct (agg_run_tree _ _ _ _ _ _ _ R SH (agOK_init c)) as (T1 & T2 & T3).
    unfold Aggregate.aggregate in A. rewrite aggFragments_goods, E in A. injection A as <-.
    exists els'. split; [exact T3|]. split.
    - cbn [d_elements].
      cbn [aggInit as_tree agDoc ag_root ag_open nest app flats flat_map] in T2.
      destruct (as_refs st); rewrite ?flats_res, T2; reflexivity.
    - intros pre' l a' t x post' EQ.
      destruct (agg_run_split _ _ _ _ _ _ _ R _ _ _ EQ) as (pre & e & post & s1 & s2 & G & R1 & _ & S & P).
      destruct S as [[S EE]|(l2 & a2 & t2 & x2 & id2 & -> & EE)].
      + subst e. discriminate.
      + injection EE as <- -> <- <-. destruct P as (id & E1 & FF).
        exists pre, a2, post, (as_ctx s1), id. split; [exact G|].
        assert (SHp : Forall shallow pre).
        { rewrite G in SH. apply Forall_app in SH. apply SH. }
        destruct (agg_run_tree _ _ _ _ _ _ _ R1 SHp (agOK_init c)) as (_ & _ & F1).
        split; [exact F1|]. split; [now injection E1|].
        pose proof (agg_run_refs _ _ _ _ _ _ _ R1) as RR. cbn [aggInit as_refs] in RR.
        unfold registered. rewrite <- RR. exact FF.
  Qed.

  Lemma aggregate_tree c fs doc :
    Forall shallow (goods fs) -> aggregate c fs = Some doc ->
    exists els', Forall2 same_but_id (goods fs) els' /\
      map forget_xrefs (flats (d_elements doc)) = map forget_xrefs els' /\
      document_ok (d_elements doc) /\
      forall tree, document_ok tree -> map forget_xrefs (flats tree) = map forget_xrefs els' ->
        map forget_xrefs tree = map forget_xrefs (d_elements doc).
  Proof.
    intros SH A. destruct (aggregate_spec is_letter is_number fmtv c fs SH)
      as (els' & doc' & A' & F & E & OK & _).
    rewrite A in A'. injection A' as <-. exists els'. repeat split; auto; try apply OK.
    intros tree TOK TE. apply flat_unique; auto using forget_document_ok.
    rewrite !forget_flats. congruence.
  Qed.

  Lemma aggregate_toc c fs doc :
    Forall shallow (goods fs) -> aggregate c fs = Some doc ->
    exists els', Forall2 same_but_id (goods fs) els' /\
      map forget_xrefs (flats (d_elements doc)) = map forget_xrefs els' /\
      flat_map toc_entries (match d_toc doc with Some t => toc_sections t | None => [] end) =
      toc_expected (mget (immutableAttrs c) "toclevels") (cgetAsInt c "toclevels" 2) els'.
  Proof.
    intros SH A. destruct (aggregate_spec is_letter is_number fmtv c fs SH)
      as (els' & doc' & A' & F & E & _ & _ & _ & T).
    rewrite A in A'. injection A' as <-. exists els'. repeat split; auto.
    rewrite <- T. destruct (d_toc doc); reflexivity.
  Qed.

  Lemma agg_run_grow st els els' st' : agg_run is_letter is_number fmtv st els els' st' ->
    toc_sections (as_toc st) = grow (forest_entries (toc_sections (as_toc st))) -> toc_sections (as_toc st') = grow (forest_entries (toc_sections (as_toc st'))).
  Proof.
    induction 1 as [st|st e e' st1 els els' st' E S T R C M P RUN IH]; intros G; [exact G|]. apply IH.
    destruct S as [[S ->]|(l & a & t & x & id & -> & ->)].
    - assert (toc_sections (as_toc st1) = toc_sections (as_toc st)) as -> by (destruct e; try exact P; discriminate). exact G.
    - destruct P as (id' & _ & _ & _ & ->). now apply tocAdd_grow.
  Qed.
  Lemma aggregate_toc_nesting c fs doc t : aggregate c fs = Some doc -> d_toc doc = Some t ->
    (Forall toc_deeper (toc_sections t) <-> returning (map snd (flat_map toc_entries (toc_sections t)))) /\
    (returning (map snd (flat_map toc_entries (toc_sections t))) -> forall j p,
       nth_error (forest_parents None 0 (toc_sections t)) j = Some p -> closest_smaller (map snd (flat_map toc_entries (toc_sections t))) j p).
  Proof.
    intros A D. apply grow_nesting. destruct (aggElements_run is_letter is_number fmtv (goods fs) (aggInit c)) as (els' & st & E & R).
    unfold Aggregate.aggregate in A. rewrite aggFragments_goods, E in A. injection A as <-. cbn [d_toc] in D.
    pose proof (agg_run_grow _ _ _ _ R eq_refl) as G. destruct (toc_sections (as_toc st)) eqn:X; [discriminate|]. injection D as <-. now rewrite X.
  Qed.
End Docs.
