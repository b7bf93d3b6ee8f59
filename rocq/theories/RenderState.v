(** Proofs for C17, C18, C46. *)
From Verif Require Import GoBase GoLemmas Types Attrs AttrLemmas Aggregate Toc TocRender Escape Merge Elements Ids Locations Indent Footnotes
  Templates Tmpl SectNum RenderAttrs Authors AuthorsSpec AuthorsLemmas Render RenderKit RenderStateSpec.

Lemma aset_other a key v k : k <> key -> (key = "role" -> k <> "roles") -> (key = "option" -> k <> "options") ->
  mget (aset a key v) k = mget a k.
Proof.
  intros N R O. unfold aset.
  destruct (String.eqb_spec key AttrRole) as [->|].
  { specialize (R eq_refl). destruct (mget a AttrRoles) as [[]|]; apply mget_mset_neq; intros X; now symmetry in X. }
  destruct (String.eqb_spec key AttrRoles) as [->|].
  { destruct v; try reflexivity. destruct (mget a AttrRoles) as [[]|]; apply mget_mset_neq; intros X; now symmetry in X. }
  destruct (String.eqb_spec key AttrOption) as [->|].
  { specialize (O eq_refl). destruct (mget a AttrOptions) as [[]|]; apply mget_mset_neq; intros X; now symmetry in X. }
  destruct (String.eqb_spec key AttrOptions) as [->|].
  { destruct v; apply mget_mset_neq; intros X; now symmetry in X. }
  apply mget_mset_neq; intros X; now symmetry in X.
Qed.
Lemma aaddall_other b : forall a k, ~ declares (FrontMatter b) k -> mget (aaddall a b) k = mget a k.
Proof.
  unfold aaddall. induction b as [|[key v] b IH]; intros a k N; cbn [fold_left fst snd]; [reflexivity|].
  cbn [declares mkeys map fst In] in N. rewrite IH.
  - apply aset_other; [intros ->; tauto| |]; intros -> ->; tauto.
  - cbn [declares mkeys map fst In]. unfold mkeys in N. tauto.
Qed.
Lemma aaddall_value b : forall a k v, plain_key k -> mget (aaddall a b) k = Some v -> mget a k = Some v \/ In (k, v) b.
Proof.
  unfold aaddall. induction b as [|[key w] b IH]; intros a k v P H; cbn [fold_left fst snd] in H; [now left|].
  apply IH in H; [|exact P]. destruct H as [H|H]; [|right; now right].
  destruct P as (P1 & P2 & P3 & P4).
  destruct (String.eqb_spec k key) as [->|N].
  - rewrite aset_plain in H by (repeat split; assumption). rewrite mget_mset_eq in H. injection H as <-. right. now left.
  - rewrite aset_other in H; [now left|exact N| |]; intros ->; assumption.
Qed.

Section Frame.
Variable P : string -> Prop.
Definition V (v : val) : Prop := forall x, occurs x v -> forall k, declares x k -> P k.
Definition IA (a : attributes) : Prop := forall v, mget a "toc-title" = Some v -> V v.
Definition KF {A} (m1 _ : M A) : Prop := forall st r st', IA (r_attrs st) -> m1 st = Ok (r, st') ->
  IA (r_attrs st') /\ (forall k, ~ P k -> mget (r_attrs st') k = mget (r_attrs st) k).

Lemma V_child c v : V v -> In c (children v) -> V c.
Proof. intros H I x O. apply H. econstructor; eauto. Qed.
Lemma V_self v : V v -> forall k, declares v k -> P k.
Proof. intros H. apply H. constructor. Qed.

Lemma toc_title_plain : plain_key "toc-title".
Proof. repeat split; discriminate. Qed.

Lemma KF_closed : closed (@KF) IA V.
Proof.
  split.
  - intros A m [r ->] st a st' I H. destruct r; inversion H; subst. auto.
  - intros A B m1 m2 f1 f2 H1 H2 st r st' I H. unfold bindM in H. destruct (m1 st) as [[a st1]| |] eqn:X; try discriminate.
    destruct (H1 _ _ _ I X) as [I1 F1]. destruct (H2 a _ _ _ I1 H) as [I2 F2]. split; [exact I2|]. intros k K. rewrite F2, F1; auto.
  - intros B f1 f2 H st r st' I X. unfold bindM, getAttrs in X. exact (H _ I _ _ _ I X).
  - intros B f1 f2 H st r st' I X. exact (H st _ _ _ I X).
  - intros n st r st' I X. unfold nextCounter in X. inversion X; subst. cbn. auto.
  - intros A m1 m2 H st r st' I X. unfold inBlock in X.
    destruct (m1 (mkRst (r_attrs st) (r_counters st) true (r_list st) (r_log st))) as [[a st1]| |] eqn:Y; try discriminate.
    inversion X; subst. cbn. exact (H _ _ _ (I : IA (r_attrs (mkRst (r_attrs st) _ _ _ _))) Y).
  - intros A m1 m2 H st r st' I X. unfold inList in X.
    destruct (m1 (mkRst (r_attrs st) (r_counters st) (r_within st) (r_list st + 1) (r_log st))) as [[a st1]| |] eqn:Y; try discriminate.
    inversion X; subst. cbn. exact (H _ _ _ (I : IA (r_attrs (mkRst (r_attrs st) _ _ _ _))) Y).
  - intros n v HV st r st' I X. unfold upd_attrs in X. inversion X; subst. cbn [r_attrs]. split.
    + intros w W. rewrite mget_mset in W. destruct (String.eqb n "toc-title"); [|auto]. injection W as <-. apply (V_child v _ HV). now left.
    + intros k NK. apply mget_mset_neq. intros <-. apply NK. apply (V_self _ HV). reflexivity.
  - intros n HV st r st' I X. unfold upd_attrs in X. inversion X; subst. cbn [r_attrs]. split.
    + intros w W. rewrite mget_mdel in W. destruct (String.eqb n "toc-title"); [discriminate|auto].
    + intros k NK. rewrite mget_mdel. destruct (String.eqb_spec n k) as [->|]; [|reflexivity]. destruct NK. apply (V_self _ HV). reflexivity.
  - intros b HV st r st' I X. unfold upd_attrs in X. inversion X; subst. cbn [r_attrs]. split.
    + intros w W. apply aaddall_value in W; [|apply toc_title_plain]. destruct W as [W|W]; [auto|].
      apply (V_child w _ HV). cbn [children]. apply (in_map snd) in W. exact W.
    + intros k NK. apply aaddall_other. intros Dk. apply NK. apply (V_self _ HV). exact Dk.
Qed.

Variable E : renv.
Hypothesis V_refs : forall id v, mget (e_refs E) id = Some v -> V v.

Lemma V_need x v : V v -> need E x v -> V x.
Proof.
  intros H N. destruct N as [x v (c & C & O)|x id l label R I|s k n v a].
  - intros y Y. apply H. apply (occurs_trans _ x); [exact Y|]. econstructor; eauto.
  - apply (V_child x _ (V_refs _ _ R)). exact I.
  - intros y Y k' D. inversion Y as [|? ? ? C]; subst; [destruct D|destruct C].
Qed.

Lemma KF_element depth : forall v, V v -> KF (renderElement E depth v) (renderElement E depth v).
Proof.
  induction depth as [|k IH]; intros v H; cbn [renderElement].
  - intros st r st' _ X. discriminate.
  - apply (k_with E (@KF) IA V KF_closed); [exact H|]. intros x N. apply IH. eapply V_need; eauto.
Qed.
Lemma KF_document depth c d : Forall V (rd_elements d) -> Forall V (rd_notes d) ->
  KF (renderDocument E (renderElement E depth) c d) (renderDocument E (renderElement E depth) c d).
Proof.
  intros H1 H2. apply (k_document E (@KF) IA V KF_closed _ _ V); auto.
  - intros x X. now apply KF_element.
  - intros c' v X I. eapply V_child; eauto.
Qed.
End Frame.

(** ** the attributes when rendering begins *)
Lemma set_nonempty_other m k s k' : k' <> k -> mget (set_nonempty m k s) k' = mget m k'.
Proof. intros N. unfold set_nonempty. destruct (String.eqb s ""); [reflexivity|]. apply mget_mset_neq. auto. Qed.

Lemma expand_keys l : forall i m r, expand_loop l i m = Ok r ->
  forall k, mget r k <> None -> mget m k <> None \/ exists b n, In b bases /\ (0 < n)%nat /\ k = numbered b n.
Proof.
  induction l as [|[nm em] l IH]; intros i m r H k K; cbn [expand_loop] in H.
  - injection H as <-. now left.
  - destruct nm as [n|].
    + apply IH with (k := k) in H; [|exact K]. destruct H as [H|H]; [|now right].
      destruct (in_dec String.string_dec k (map (fun b => key b i) bases)) as [I|I].
      * right. apply in_map_iff in I. destruct I as (b & <- & B). exists b, (S i). split; [exact B|]. split; [lia|]. apply key_numbered.
      * left. cbn [map bases In] in I.
        repeat (rewrite set_nonempty_other in H by (intros ->; tauto)).
        repeat (rewrite mget_mset_neq in H by (intros <-; tauto)). exact H.
    + cbn in H. discriminate.
Qed.

Lemma labels_other a k : ~ In k label_names -> mget (labels a) k = mget a k.
Proof.
  intros N. unfold labels. cbn [label_names In] in N.
  rewrite !mget_mset_neq by (intros <-; tauto). reflexivity.
Qed.

Definition author_source (x : val) : Prop := exists n, In n ["authors"; "author"; "email"] /\ declares x n.
Lemma authors_loop_In l : forall acc r, authors_loop l acc = Ok (Some r) -> acc <> None \/ exists x, In x l /\ author_source x.
Proof.
  induction l as [|x l IH]; intros acc r H; cbn [authors_loop] in H; [injection H as ->; left; discriminate|].
  assert (G : author_source x \/ exists acc', (acc = None -> acc' = None) /\ authors_loop l acc' = Ok (Some r)).
  { destruct x; try (right; exists acc; split; [tauto|exact H]).
    destruct (String.eqb_spec name AttrAuthors) as [->|]; [left; exists "authors"; cbn; auto|].
    destruct (String.eqb_spec name AttrEmail) as [->|]; [left; exists "email"; cbn; auto|].
    destruct (String.eqb_spec name AttrAuthor) as [->|]; [left; exists "author"; cbn; auto|].
    right. exists acc. split; [tauto|]. destruct x; exact H. }
  destruct G as [G|(acc' & N & G)]; [right; exists x; split; [now left|exact G]|].
  apply IH in G. destruct G as [G|(y & Y & S)].
  - left. intros A. apply G. now apply N.
  - right. exists y. split; [now right|exact S].
Qed.
Lemma headerRevision_In l r : headerRevision l = Some r -> In (AttributeDeclaration "revision" (VRevision r)) l.
Proof.
  induction l as [|x l IH]; cbn [headerRevision]; [discriminate|]. destruct x; try (intros H; right; now apply IH).
  destruct x; try (intros H; right; apply IH; exact H).
  destruct (String.eqb_spec name AttrRevision) as [->|]; intros H; [injection H as ->; now left|right; now apply IH].
Qed.
Lemma mget_keys {X} (m : gomap X) k : In k (mkeys m) -> mget m k <> None.
Proof. intros I N. apply mget_None in N. tauto. Qed.

Lemma expandHeader_other els a a' k : expandHeader els a = Ok a' ->
  (forall t x hes i y, docHeader els = Some (DocumentHeader t x hes, i) -> In y hes -> author_source y -> ~ author_name k) ->
  (forall t x hes i r, docHeader els = Some (DocumentHeader t x hes, i) -> In (AttributeDeclaration "revision" (VRevision r)) hes -> ~ revision_name k) ->
  mget a' k = mget a k.
Proof.
  intros H HA HR. unfold expandHeader in H. destruct (docHeader els) as [[h i]|]; [|injection H as <-; reflexivity].
  destruct h; try (injection H as <-; reflexivity). rename elements into hes.
  destruct (headerAuthors hes) as [au| |] eqn:AU; cbn [bind] in H; try discriminate.
  assert (X : forall a1, mget (match headerRevision hes with Some r => aaddall a1 (expandRevision r) | None => a1 end) k = mget a1 k).
  { intros a1. destruct (headerRevision hes) as [r|] eqn:R; [|reflexivity]. apply headerRevision_In in R. specialize (HR _ _ _ _ r eq_refl R).
    apply aaddall_other. intros D. assert (S : In k (mkeys (expandRevision r)) -> revision_name k).
    { intros I. apply mget_keys in I. unfold expandRevision in I. unfold revision_name. cbn [In].
      destruct (String.eqb_spec k "revision") as [->|]; [tauto|]. destruct (String.eqb_spec k "revnumber") as [->|]; [tauto|].
      destruct (String.eqb_spec k "revdate") as [->|]; [tauto|]. destruct (String.eqb_spec k "revremark") as [->|]; [tauto|].
      rewrite !set_nonempty_other in I by assumption. cbn [mget] in I. destruct (String.eqb_spec k AttrRevision); [contradiction|]. now destruct I. }
    assert (S' : forall k', In k' (mkeys (expandRevision r)) -> k' <> "role" /\ k' <> "option").
    { intros k' I. apply mget_keys in I. split; intros ->; apply I; unfold expandRevision; rewrite !set_nonempty_other by discriminate; reflexivity. }
    destruct D as [D|[[_ D]|[_ D]]]; [tauto| |]; apply S' in D; tauto. }
  destruct au as [l|].
  - destruct (expandAuthors l) as [m| |] eqn:EX; cbn [bind] in H; try discriminate. injection H as <-. rewrite X.
    unfold headerAuthors in AU. apply authors_loop_In in AU. destruct AU as [AU|(y & Y & AU)]; [congruence|].
    specialize (HA _ _ _ _ y eq_refl Y AU).
    assert (S : forall k', In k' (mkeys m) -> author_name k').
    { intros k' I. apply mget_keys in I. unfold expandAuthors in EX. apply expand_keys with (k := k') in EX; [|exact I].
      destruct EX as [EX|EX]; [|now right]. left. cbn [mget] in EX. destruct (String.eqb_spec k' AttrAuthors); [assumption|congruence]. }
    apply aaddall_other. intros D.
    assert (S' : forall k', author_name k' -> k' <> "role" /\ k' <> "option").
    { intros k' [->|(b & n & B & N & ->)]; [split; discriminate|]. cbn [bases In] in B.
      unfold numbered. destruct (Nat.eqb n 1); destruct B as [<-|[<-|[<-|[<-|[<-|[<-|[]]]]]]]; split; discriminate. }
    destruct D as [D|[[_ D]|[_ D]]]; [now apply S in D| |]; apply S in D; apply S' in D; tauto.
  - cbn [bind] in H. injection H as <-. apply X.
Qed.

Lemma declare_other a x k : ~ declares x k -> mget (declare a x) k = mget a k.
Proof.
  intros N. destruct x; cbn [declare declares] in *; try reflexivity.
  - apply mget_mset_neq. exact N.
  - rewrite mget_mdel. destruct (String.eqb_spec name k); [contradiction|reflexivity].
Qed.
Lemma declares_other l : forall a k, (forall x, In x l -> ~ declares x k) -> mget (fold_left declare l a) k = mget a k.
Proof.
  induction l as [|x l IH]; intros a k H; cbn [fold_left]; [reflexivity|]. rewrite IH by (intros y Y; apply H; now right).
  apply declare_other. apply H. now left.
Qed.
Lemma leading_other l : forall a k, (forall x, In x l -> ~ declares x k) -> mget (leadingDecls l a) k = mget a k.
Proof.
  induction l as [|x l IH]; intros a k H; cbn [leadingDecls]; [reflexivity|].
  destruct x; try reflexivity; rewrite IH by (intros y Y; apply H; now right); apply declare_other; apply H; now left.
Qed.
Lemma declare_value a x k v : mget (declare a x) k = Some v -> mget a k = Some v \/ (exists n, x = AttributeDeclaration n v).
Proof.
  destruct x; cbn [declare]; auto.
  - rewrite mget_mset. destruct (String.eqb name k); [|auto]. intros H. injection H as ->. right. eauto.
  - rewrite mget_mdel. destruct (String.eqb name k); [discriminate|auto].
Qed.
Lemma declares_value l : forall a k v, mget (fold_left declare l a) k = Some v -> mget a k = Some v \/ (exists n, In (AttributeDeclaration n v) l).
Proof.
  induction l as [|x l IH]; intros a k v H; cbn [fold_left] in H; [now left|]. apply IH in H. destruct H as [H|[n H]]; [|right; exists n; now right].
  apply declare_value in H. destruct H as [H|[n ->]]; [now left|]. right. exists n. now left.
Qed.
Lemma leading_value l : forall a k v, mget (leadingDecls l a) k = Some v -> mget a k = Some v \/ (exists n, In (AttributeDeclaration n v) l).
Proof.
  induction l as [|x l IH]; intros a k v H; cbn [leadingDecls] in H; [now left|].
  destruct x; try (now left); apply IH in H; (destruct H as [H|[n H]]; [|right; exists n; now right]);
  apply declare_value in H; (destruct H as [H|[n H]]; [now left|right; exists n; left; exact H]).
Qed.

Lemma docHeader_in els h i : docHeader els = Some (h, i) -> In h els.
Proof. apply docHeader_In. Qed.

Section Start.
Variable E : renv.
Variable d : rdoc.
Variable attrs : attributes.
Notation may := (may_change E d attrs).
Notation some := (somewhere E d attrs).

Lemma some_header t x hes i y : docHeader (rd_elements d) = Some (DocumentHeader t x hes, i) -> In y hes -> some y.
Proof.
  intros H I. exists (DocumentHeader t x hes). split.
  - apply (occ_child _ y); [|apply occ_refl]. cbn [children]. apply in_or_app. right. apply in_or_app. now left.
  - left. eapply docHeader_in; eauto.
Qed.
Lemma some_element y : In y (rd_elements d) -> some y.
Proof. intros I. exists y. split; [apply occ_refl|now left]. Qed.

Lemma start_frame a k : renderAttrs (rd_elements d) (Some attrs) = Ok a -> ~ may k -> mget a k = mget attrs k.
Proof.
  intros H N. unfold renderAttrs, newContextAttrs in H. destruct (expandHeader (rd_elements d) (labels attrs)) as [a1| |] eqn:X; cbn [bind] in H; try discriminate.
  injection H as <-. rewrite leading_other.
  - assert (Y : mget (headerDecls (rd_elements d) a1) k = mget a1 k).
    { unfold headerDecls. destruct (docHeader (rd_elements d)) as [[h i]|] eqn:HD; [|reflexivity]. destruct h; try reflexivity.
      apply declares_other. intros x I D. apply N. right. right. right. exists x. split; [|exact D]. eapply some_header; eauto. }
    rewrite Y. rewrite (expandHeader_other _ _ _ _ X).
    + apply labels_other. intros I. apply N. now left.
    + intros t x hes i y HD I (n & NI & DE) A. apply N. right. left. split; [|exact A]. exists y, n. split; [|tauto]. eapply some_header; eauto.
    + intros t x hes i r HD I A. apply N. right. right. left. split; [|exact A]. exists (AttributeDeclaration "revision" (VRevision r)). split; [|reflexivity]. eapply some_header; eauto.
  - intros x I D. apply N. right. right. right. exists x. split; [now apply some_element|exact D].
Qed.
Lemma start_toc a v : renderAttrs (rd_elements d) (Some attrs) = Ok a -> mget a "toc-title" = Some v -> exists w, occurs v w /\ 
   (In w (rd_elements d) \/ mget attrs "toc-title" = Some w).
Proof.
  intros H G. unfold renderAttrs, newContextAttrs in H. destruct (expandHeader (rd_elements d) (labels attrs)) as [a1| |] eqn:X; cbn [bind] in H; try discriminate.
  injection H as <-. apply leading_value in G. destruct G as [G|[n G]].
  2:{ exists (AttributeDeclaration n v). split; [|now left]. apply (occ_child _ v); [now left|apply occ_refl]. }
  assert (Y : mget a1 "toc-title" = Some v \/ exists w, occurs v w /\ (In w (rd_elements d) \/ mget attrs "toc-title" = Some w)).
  { unfold headerDecls in G. destruct (docHeader (rd_elements d)) as [[h i]|] eqn:HD; [|now left]. destruct h; try (now left).
    apply declares_value in G. destruct G as [G|[n G]]; [now left|]. right. exists (DocumentHeader title attrs0 elements). split.
    - apply (occ_child _ (AttributeDeclaration n v)); [|apply (occ_child _ v); [now left|apply occ_refl]].
      cbn [children]. apply in_or_app. right. apply in_or_app. now left.
    - left. eapply docHeader_in; eauto. }
  destruct Y as [Y|Y]; [|exact Y]. rewrite (expandHeader_other _ _ _ _ X) in Y.
  - rewrite labels_other in Y by (cbn; intuition discriminate). exists v. split; [apply occ_refl|now right].
  - intros t x hes i y _ _ _ [A|(b & n & B & N & A)]; [discriminate|]. cbn [bases In] in B. unfold numbered in A.
    destruct (Nat.eqb n 1); destruct B as [<-|[<-|[<-|[<-|[<-|[<-|[]]]]]]]; discriminate.
  - intros t x hes i r _ _ A. cbn in A. intuition discriminate.
Qed.
End Start.

(** the context of a document rendering differs from the given one only by these two fields *)
Definition env_of (E : renv) (d : rdoc) : renv :=
  mkRenv (e_xhtml E) (e_toLower E) (e_fmtv E) (e_columns E) (e_src E) (e_alt E) (e_iconpath E) (e_macro E) (e_raw E)
         (e_highlight E) (e_refs E) (sectionNumbers (rd_elements d)) (hasHeader (rd_elements d)).

Lemma render_frame E depth c d attrs o t attrs' : render E depth c d (Some attrs) = Ok (o, t, attrs') ->
  forall k, ~ may_change E d attrs k -> mget attrs' k = mget attrs k.
Proof.
  intros H k N. unfold render in H. destruct (renderAttrs (rd_elements d) (Some attrs)) as [a| |] eqn:A; cbn [bind] in H; try discriminate.
  fold (env_of E d) in H.
  destruct (renderDocument (env_of E d) (renderElement (env_of E d) depth) c d (mkRst a [] false 0 [])) as [[[o' t'] st]| |] eqn:X; try discriminate.
  injection H as <- <- <-. set (P := may_change E d attrs).
  assert (VP : forall v, (In v (rd_elements d) \/ In v (rd_notes d) \/ (exists id, mget (e_refs E) id = Some v) \/ mget attrs "toc-title" = Some v) -> V P v).
  { intros v I x O k' D. right. right. right. exists x. split; [|exact D]. exists v. split; [exact O|exact I]. }
  assert (F : IA P a).
  { intros v G. destruct (start_toc d attrs a v A G) as (w & O & W). intros x X' k' D.
    apply (VP w) with (x := x); [tauto|eapply occurs_trans; eauto|exact D]. }
  destruct (KF_document P (env_of E d)) with (depth := depth) (c := c) (d := d) (st := mkRst a [] false 0 []) (r := (o', t')) (st' := st) as [_ FR]; auto.
  - intros id v I. apply VP. right. right. left. now exists id.
  - apply Forall_forall. intros v I. apply VP. tauto.
  - apply Forall_forall. intros v I. apply VP. tauto.
  - rewrite (FR k N). cbn [r_attrs]. eapply start_frame; eauto.
Qed.

(** ** documents that declare nothing: the attributes are left exactly as they were when rendering began *)
Section Exact.
Notation VN := (V (fun _ => False)).
Definition KX {A} (m1 _ : M A) : Prop := forall st r st', IA (fun _ => False) (r_attrs st) -> m1 st = Ok (r, st') -> r_attrs st' = r_attrs st.
Lemma KX_closed : closed (@KX) (IA (fun _ => False)) VN.
Proof.
  split.
  - intros A m [r ->] st a st' I H. destruct r; inversion H; subst. auto.
  - intros A B m1 m2 f1 f2 H1 H2 st r st' I H. unfold bindM in H. destruct (m1 st) as [[a st1]| |] eqn:X; try discriminate.
    pose proof (H1 _ _ _ I X) as F1. rewrite <- F1 in I |- *. exact (H2 a _ _ _ I H).
  - intros B f1 f2 H st r st' I X. unfold bindM, getAttrs in X. exact (H _ I _ _ _ I X).
  - intros B f1 f2 H st r st' I X. exact (H st _ _ _ I X).
  - intros n st r st' I X. unfold nextCounter in X. inversion X; subst. reflexivity.
  - intros A m1 m2 H st r st' I X. unfold inBlock in X.
    destruct (m1 (mkRst (r_attrs st) (r_counters st) true (r_list st) (r_log st))) as [[a st1]| |] eqn:Y; try discriminate.
    inversion X; subst. cbn. exact (H _ _ _ (I : IA _ (r_attrs (mkRst (r_attrs st) _ _ _ _))) Y).
  - intros A m1 m2 H st r st' I X. unfold inList in X.
    destruct (m1 (mkRst (r_attrs st) (r_counters st) (r_within st) (r_list st + 1) (r_log st))) as [[a st1]| |] eqn:Y; try discriminate.
    inversion X; subst. cbn. exact (H _ _ _ (I : IA _ (r_attrs (mkRst (r_attrs st) _ _ _ _))) Y).
  - intros n v HV. destruct (V_self _ _ HV n eq_refl).
  - intros n HV. destruct (V_self _ _ HV n eq_refl).
  - intros b HV st r st' I X. unfold upd_attrs in X. inversion X; subst. cbn [r_attrs].
    destruct b as [|[k v] b]; [reflexivity|]. destruct (V_self _ _ HV k). left. now left.
Qed.
Lemma KX_document E depth c d : (forall id v, mget (e_refs E) id = Some v -> VN v) -> Forall VN (rd_elements d) -> Forall VN (rd_notes d) ->
  KX (renderDocument E (renderElement E depth) c d) (renderDocument E (renderElement E depth) c d).
Proof.
  intros HR H1 H2. apply (k_document E (@KX) _ VN KX_closed _ _ VN); auto.
  - induction depth as [|k IH]; intros v H; cbn [renderElement]; [intros st r st' _ X; discriminate|].
    apply (k_with E (@KX) _ VN KX_closed); [exact H|]. intros x N. apply IH. eapply V_need; eauto.
  - intros c' v X I. eapply V_child; eauto.
Qed.
End Exact.

Lemma mset_same {X} (m : gomap X) k v : mget m k = Some v -> mset m k v = m.
Proof.
  induction m as [|[k' w] m IH]; cbn [mget mset]; [discriminate|]. destruct (String.eqb_spec k k') as [->|].
  - intros H. now injection H as ->.
  - intros H. now rewrite IH.
Qed.
Lemma labels_idem a : labels (labels a) = labels a.
Proof.
  unfold labels. set (b := mset (mset (mset (mset a _ _) _ _) _ _) "version-label" _).
  assert (H : mget b "figure-caption" = Some (VStr "Figure") /\ mget b "example-caption" = Some (VStr "Example") /\
              mget b "table-caption" = Some (VStr "Table") /\ mget b "version-label" = Some (VStr "version")).
  { unfold b. repeat split; repeat first [rewrite mget_mset_eq; reflexivity | rewrite mget_mset_neq by discriminate]. }
  destruct H as (H1 & H2 & H3 & H4). clearbody b. now rewrite (mset_same b), (mset_same b), (mset_same b), (mset_same b).
Qed.

Lemma authors_loop_none l : forall acc, (forall x, In x l -> ~ author_source x) -> authors_loop l acc = Ok acc.
Proof.
  induction l as [|x l IH]; intros acc H; cbn [authors_loop]; [reflexivity|].
  assert (G : authors_loop l acc = Ok acc) by (apply IH; intros y Y; apply H; now right).
  specialize (H x (or_introl eq_refl)).
  destruct x; try exact G.
  destruct (String.eqb_spec name AttrAuthors) as [->|]; [destruct H; exists "authors"; cbn; auto|].
  destruct (String.eqb_spec name AttrEmail) as [->|]; [destruct H; exists "email"; cbn; auto|].
  destruct (String.eqb_spec name AttrAuthor) as [->|]; [destruct H; exists "author"; cbn; auto|].
  destruct x; exact G.
Qed.

Lemma declare_none l : forall a, (forall x k, In x l -> ~ declares x k) -> fold_left declare l a = a.
Proof.
  induction l as [|x l IH]; intros a H; cbn [fold_left]; [reflexivity|]. rewrite IH by (intros y k Y; apply H; now right).
  destruct x; try reflexivity; destruct (H _ name (or_introl eq_refl)); reflexivity.
Qed.
Lemma start_exact d attrs : (forall x k, (exists v, In v (rd_elements d) /\ occurs x v) -> ~ declares x k) ->
  renderAttrs (rd_elements d) (Some attrs) = Ok (labels attrs).
Proof.
  intros H. unfold renderAttrs, newContextAttrs.
  assert (HH : forall t a hes i x k, docHeader (rd_elements d) = Some (DocumentHeader t a hes, i) -> In x hes -> ~ declares x k).
  { intros t a hes i x k D I. apply H. exists (DocumentHeader t a hes). split; [eapply docHeader_in; eauto|].
    apply (occ_child _ x); [|apply occ_refl]. cbn [children]. apply in_or_app. right. apply in_or_app. now left. }
  assert (X : expandHeader (rd_elements d) (labels attrs) = Ok (labels attrs)).
  { unfold expandHeader. destruct (docHeader (rd_elements d)) as [[h i]|] eqn:D; [|reflexivity]. destruct h; try reflexivity.
    unfold headerAuthors. rewrite authors_loop_none.
    - cbn [bind]. destruct (headerRevision elements) as [r|] eqn:R; [|reflexivity]. apply headerRevision_In in R.
      destruct (HH _ _ _ _ _ "revision" eq_refl R). reflexivity.
    - intros x I (n & _ & S). exact (HH _ _ _ _ _ n eq_refl I S). }
  rewrite X. cbn [bind]. f_equal.
  assert (Y : headerDecls (rd_elements d) (labels attrs) = labels attrs).
  { unfold headerDecls. destruct (docHeader (rd_elements d)) as [[h i]|] eqn:D; [|reflexivity]. destruct h; try reflexivity.
    apply declare_none. intros x k I. eapply HH; eauto. }
  rewrite Y. destruct (rd_elements d) as [|x l]; [reflexivity|].
  destruct x; try reflexivity; destruct (H (AttributeDeclaration name x) name) || destruct (H (AttributeReset name) name); try reflexivity;
  eexists; (split; [now left|apply occ_refl]).
Qed.

Lemma render_repeat E depth c d attrs o t attrs' :
  (forall x k, somewhere E d attrs x -> ~ declares x k) ->
  render E depth c d (Some attrs) = Ok (o, t, attrs') -> attrs' = labels attrs /\ render E depth c d (Some attrs') = Ok (o, t, attrs').
Proof.
  intros N H. pose proof H as H0. unfold render in H. rewrite start_exact in H.
  2:{ intros x k (v & I & O). apply N. exists v. auto. }
  cbn [bind] in H. fold (env_of E d) in H.
  destruct (renderDocument (env_of E d) (renderElement (env_of E d) depth) c d (mkRst (labels attrs) [] false 0 [])) as [[[o' t'] st]| |] eqn:X; try discriminate.
  injection H as <- <- <-.
  assert (VN : forall v, (In v (rd_elements d) \/ In v (rd_notes d) \/ (exists id, mget (e_refs E) id = Some v) \/ mget attrs "toc-title" = Some v) -> V (fun _ => False) v).
  { intros v I x O k D. apply (N x k); [|exact D]. exists v. auto. }
  assert (R : r_attrs st = labels attrs).
  { apply (KX_document (env_of E d) depth c d) in X; auto.
    - intros id v I. apply VN. right. right. left. now exists id.
    - apply Forall_forall. intros v I. apply VN. tauto.
    - apply Forall_forall. intros v I. apply VN. tauto.
    - intros v G. cbn [r_attrs] in G. rewrite labels_other in G by (cbn; intuition discriminate). apply VN. tauto. }
  rewrite R. split; [reflexivity|]. unfold render. rewrite start_exact.
  2:{ intros x k (v & I & O). apply N. exists v. auto. }
  cbn [bind]. rewrite labels_idem. fold (env_of E d). rewrite X. now rewrite R.
Qed.

(** ** counters *)
Definition numbers (name : string) (log : list (string * Z)) : list Z :=
  map snd (filter (fun p => String.eqb (fst p) name) log).
Definition upto (n : nat) : list Z := map Z.of_nat (seq 1 n).
Definition good (st : rst) : Prop := forall name, exists n,
  rev (numbers name (r_log st)) = upto n /\ mget (r_counters st) name = match n with O => None | S _ => Some (Z.of_nat n) end.
Definition KC {A} (m1 _ : M A) : Prop := forall st r st', good st -> m1 st = Ok (r, st') ->
  good st' /\ exists new, r_log st' = new ++ r_log st.

Lemma upto_S n : upto (S n) = upto n ++ [Z.of_nat (S n)].
Proof. unfold upto. rewrite seq_S, map_app. reflexivity. Qed.
Lemma upto_length n : List.length (upto n) = n.
Proof. unfold upto. now rewrite map_length, seq_length. Qed.

Lemma next_good st name : good st -> forall r st', nextCounter name st = Ok (r, st') ->
  good st' /\ r = Z.of_nat (S (List.length (numbers name (r_log st)))) /\ r_log st' = (name, r) :: r_log st.
Proof.
  intros G r st' X. unfold nextCounter in X. destruct (G name) as (n & L & C).
  assert (R : match mget (r_counters st) name with None => 1%Z | Some k => (k + 1)%Z end = Z.of_nat (S n)).
  { rewrite C. destruct n; [reflexivity|]. lia. }
  rewrite R in X. injection X as <- <-. cbn [r_log]. split; [|split; [|reflexivity]].
  - intros name'. cbn [r_log r_counters]. destruct (String.eqb_spec name name') as [<-|N].
    + exists (S n). split.
      * unfold numbers. cbn [filter fst]. rewrite String.eqb_refl. cbn [map snd rev]. fold (numbers name (r_log st)). rewrite L. symmetry. apply upto_S.
      * now rewrite mget_mset_eq.
    + destruct (G name') as (m & L' & C'). exists m. split.
      * unfold numbers. cbn [filter fst]. destruct (String.eqb_spec name name'); [contradiction|]. exact L'.
      * now rewrite mget_mset_neq.
  - apply (f_equal (@List.length Z)) in L. rewrite rev_length, upto_length in L. now rewrite L.
Qed.

Lemma KC_closed : closed (@KC) (fun _ => True) (fun _ => True).
Proof.
  split.
  - intros A m [r ->] st a st' I H. destruct r; inversion H; subst. split; [assumption|now exists []].
  - intros A B m1 m2 f1 f2 H1 H2 st r st' I H. unfold bindM in H. destruct (m1 st) as [[a st1]| |] eqn:X; try discriminate.
    destruct (H1 _ _ _ I X) as (I1 & n1 & F1). destruct (H2 a _ _ _ I1 H) as (I2 & n2 & F2). split; [exact I2|].
    exists (n2 ++ n1). rewrite F2, F1. apply app_assoc.
  - intros B f1 f2 H st r st' I X. unfold bindM, getAttrs in X. exact (H _ Logic.I _ _ _ I X).
  - intros B f1 f2 H st r st' I X. exact (H st _ _ _ I X).
  - intros n st r st' I X. destruct (next_good _ _ I _ _ X) as (G & _ & L). split; [exact G|]. exists [(n, r)]. exact L.
  - intros A m1 m2 H st r st' I X. unfold inBlock in X.
    destruct (m1 (mkRst (r_attrs st) (r_counters st) true (r_list st) (r_log st))) as [[a st1]| |] eqn:Y; try discriminate.
    inversion X; subst. exact (H _ _ _ (I : good (mkRst _ _ _ _ _)) Y).
  - intros A m1 m2 H st r st' I X. unfold inList in X.
    destruct (m1 (mkRst (r_attrs st) (r_counters st) (r_within st) (r_list st + 1) (r_log st))) as [[a st1]| |] eqn:Y; try discriminate.
    inversion X; subst. exact (H _ _ _ (I : good (mkRst _ _ _ _ _)) Y).
  - intros n v _ st r st' I X. unfold upd_attrs in X. inversion X; subst. split; [exact I|now exists []].
  - intros n _ st r st' I X. unfold upd_attrs in X. inversion X; subst. split; [exact I|now exists []].
  - intros n _ st r st' I X. unfold upd_attrs in X. inversion X; subst. split; [exact I|now exists []].
Qed.
Lemma KC_element E depth : forall v, KC (renderElement E depth v) (renderElement E depth v).
Proof.
  induction depth as [|k IH]; intros v; cbn [renderElement]; [intros st r st' _ X; discriminate|].
  apply (k_with E (@KC) _ _ KC_closed); [exact I|]. intros x N. apply IH.
Qed.
Lemma KC_elements E depth l : KC (renderElements (renderElement E depth) l) (renderElements (renderElement E depth) l).
Proof. apply (k_elements (@KC) _ _ KC_closed). intros x _. apply KC_element. Qed.
Lemma KC_document E depth c d : KC (renderDocument E (renderElement E depth) c d) (renderDocument E (renderElement E depth) c d).
Proof.
  apply (k_document E (@KC) _ _ KC_closed _ _ (fun _ => True)); auto.
  - intros x _. apply KC_element.
  - now apply Forall_forall.
  - now apply Forall_forall.
Qed.
