(** One traversal of the renderer, for all the theorems about it: a family of relations between computations that is closed
    under the basic operations relates the rendering of an element with one rendering of its parts to that with another. *)
From Verif Require Import GoBase Types Attrs Aggregate Toc TocRender Escape Merge Elements Ids Locations Indent Footnotes
  Templates Tmpl SectNum RenderAttrs Authors Render.

(** [occurs x v]: [x] is [v] or one of its parts, at any depth (attributes included) *)
Inductive occurs : val -> val -> Prop :=
| occ_refl v : occurs v v
| occ_child x c v : In c (children v) -> occurs x c -> occurs x v.
(** [within x v]: [x] is a part of [v], at any depth *)
Definition within (x v : val) : Prop := exists c, In c (children v) /\ occurs x c.

Lemma within_child c v : In c (children v) -> within c v.
Proof. intros H. exists c. split; [exact H|apply occ_refl]. Qed.
Lemma occurs_trans x y z : occurs x y -> occurs y z -> occurs x z.
Proof. intros H1 H2. induction H2; [exact H1|]. econstructor; eauto. Qed.
Lemma within_step x c v : In c (children v) -> within x c -> within x v.
Proof. intros H (d & D & O). exists c. split; [exact H|]. econstructor; eauto. Qed.
Lemma within_size x v : within x v -> vsize x < vsize v.
Proof.
  intros (c & C & O). apply children_size in C. revert v C. induction O as [u|x d u D O IH]; intros w C; [exact C|].
  apply (IH w). apply children_size in D. lia.
Qed.
Lemma mget_snd (a : attributes) k v : mget a k = Some v -> In v (map snd a).
Proof. intros H. apply mget_In in H. apply (in_map snd) in H. exact H. Qed.

Section Kit.
Variable E : renv.

(** what rendering [v] may render one call deeper *)
Inductive need : val -> val -> Prop :=
| need_part x v : within x v -> need x v
| need_ref x id l label : mget (e_refs E) id = Some (VSlice l) -> In x l -> need x (InternalCrossReference (VStr id) label)
| need_raw s k n v a : need (StringElement s) (UserMacro k n v a).

Variable K : forall A, M A -> M A -> Prop.
Arguments K {A}.
(** the property of the attributes of the context *)
Variable IA : attributes -> Prop.
(** the elements that may change the attributes *)
Variable D : val -> Prop.

Record closed := {
  k_pure : forall A (m : M A), (exists r, m = (fun st => match r with Ok a => Ok (a, st) | Err e => Err e | Panic e => Panic e end)) -> K m m;
  k_bind : forall A B (m1 m2 : M A) (f1 f2 : A -> M B), K m1 m2 -> (forall a, K (f1 a) (f2 a)) -> K (bindM m1 f1) (bindM m2 f2);
  k_ctx : forall B (f1 f2 : attributes -> M B), (forall a, IA a -> K (f1 a) (f2 a)) -> K (bindM getAttrs f1) (bindM getAttrs f2);
  k_state : forall B (f1 f2 : rst -> M B), (forall st, K (f1 st) (f2 st)) -> K (fun st => f1 st st) (fun st => f2 st st);
  k_counter : forall n, K (nextCounter n) (nextCounter n);
  k_block : forall A (m1 m2 : M A), K m1 m2 -> K (inBlock m1) (inBlock m2);
  k_list : forall A (m1 m2 : M A), K m1 m2 -> K (inList m1) (inList m2);
  k_decl : forall n v, D (AttributeDeclaration n v) -> K (upd_attrs (fun a => mset a n v)) (upd_attrs (fun a => mset a n v));
  k_reset : forall n, D (AttributeReset n) -> K (upd_attrs (fun a => mdel a n)) (upd_attrs (fun a => mdel a n));
  k_front : forall b, D (FrontMatter b) -> K (upd_attrs (fun a => aaddall a b)) (upd_attrs (fun a => aaddall a b))
}.

Hypothesis C : closed.

Lemma k_ret {A} (a : A) : K (ret a) (ret a).
Proof. apply (k_pure C). now exists (Ok a). Qed.
Lemma k_fail {A} e : K (@fail A e) (fail e).
Proof. apply (k_pure C). now exists (Err e). Qed.
Lemma k_panic {A} e : K (fun _ : rst => @Panic (A * rst) e) (fun _ => Panic e).
Proof. apply (k_pure C). now exists (Panic e). Qed.
Lemma k_lift {A} (r : result A) : K (lift r) (lift r).
Proof. apply (k_pure C). now exists r. Qed.
Lemma k_exec t f : K (exec E t f) (exec E t f).
Proof. apply k_lift. Qed.
Lemma k_next n : K (nextCounter n) (nextCounter n).
Proof. apply (k_counter C). Qed.
Hint Resolve k_ret k_fail k_panic k_lift k_exec k_next : kit.

Ltac step :=
  lazymatch goal with
  | |- K (bindM getAttrs _) (bindM getAttrs _) => apply (k_ctx C); intros ? ?
  | |- K (bindM _ _) (bindM _ _) => apply (k_bind C); [|intros ?]
  | |- K (inBlock _) (inBlock _) => apply (k_block C)
  | |- K (inList _) (inList _) => apply (k_list C)
  | |- K (if ?b then _ else _) (if ?b then _ else _) => destruct b
  | |- K (match ?x with _ => _ end) (match ?x with _ => _ end) => destruct x eqn:?
  | _ => solve [eauto with kit]
  end.
Ltac steps := repeat step.

Variables rec1 rec2 : val -> M string.
Notation same x := (K (rec1 x) (rec2 x)).
Definition sames (l : list val) : Prop := forall x, In x l -> same x.

Lemma sames_cons x l : sames (x :: l) -> same x /\ sames l.
Proof. intros H. split; [apply H; now left|intros y Y; apply H; now right]. Qed.

Lemma k_elements l : sames l -> K (renderElements rec1 l) (renderElements rec2 l).
Proof.
  induction l as [|x l IH]; intros H; cbn [renderElements]; [apply k_ret|]. apply sames_cons in H as [H1 H2].
  apply (k_bind C); [exact H1|intros ?]. apply (k_bind C); [now apply IH|intros ?]. apply k_ret.
Qed.
Lemma k_listElements l : sames l -> K (renderListElements rec1 l) (renderListElements rec2 l).
Proof.
  destruct l as [|x l]; intros H; cbn [renderListElements]; [apply k_ret|]. apply sames_cons in H as [H1 H2].
  apply (k_bind C); [apply (k_list C); exact H1|intros ?]. apply (k_bind C); [now apply k_elements|intros ?]. apply k_ret.
Qed.
Lemma k_inline l : sames l -> K (renderInlineElements rec1 l) (renderInlineElements rec2 l).
Proof.
  induction l as [|x l IH]; intros H; cbn [renderInlineElements]; [apply k_ret|]. apply sames_cons in H as [H1 H2].
  apply (k_bind C); [exact H1|intros ?]. apply (k_bind C); [now apply IH|intros ?]. apply k_ret.
Qed.
Lemma k_raw l : sames l -> K (renderRawElements rec1 l) (renderRawElements rec2 l).
Proof.
  induction l as [|x l IH]; intros H; cbn [renderRawElements]; [apply k_ret|]. apply sames_cons in H as [H1 H2].
  apply (k_bind C); [destruct x; auto with kit|intros ?]. apply (k_bind C); [now apply IH|intros ?]. apply k_ret.
Qed.
Lemma k_label l : sames l -> K (renderLabel E rec1 l) (renderLabel E rec2 l).
Proof.
  induction l as [|x l IH]; intros H; cbn [renderLabel]; [apply k_ret|]. apply sames_cons in H as [H1 H2].
  apply (k_bind C); [destruct x; auto with kit|intros ?]. apply (k_bind C); [now apply IH|intros ?]. apply k_ret.
Qed.

(** the parts of the attributes *)
Definition asames (a : attributes) : Prop := forall v x, In v (map snd a) -> within x v -> same x.
Lemma asames_slice a k l : asames a -> mget a k = Some (VSlice l) -> sames l.
Proof. intros H G x X. apply mget_snd in G. eapply H; eauto. now apply within_child. Qed.

Lemma k_role r : (forall x, within x r -> same x) -> K (renderElementRole rec1 r) (renderElementRole rec2 r).
Proof.
  intros H. destruct r; cbn [renderElementRole]; auto with kit. apply k_elements. intros x X. apply H. now apply within_child.
Qed.
Lemma k_roleList l : (forall r x, In r l -> within x r -> same x) -> K (renderRoles rec1 l) (renderRoles rec2 l).
Proof.
  induction l as [|r l IH]; intros H; cbn [renderRoles]; [apply k_ret|].
  apply (k_bind C); [apply k_role; intros x X; eapply H; eauto; now left|intros ?].
  apply (k_bind C); [apply IH; intros r' x R X; eapply H; eauto; now right|intros ?]. apply k_ret.
Qed.
Lemma asames_roles a l : asames a -> mget a "roles" = Some (VRoles l) -> forall r x, In r l -> within x r -> same x.
Proof. intros H G r x R X. apply mget_snd in G. eapply H; [exact G|]. eapply within_step; eauto. Qed.
Lemma k_roles a : asames a -> K (renderElementRoles rec1 a) (renderElementRoles rec2 a).
Proof.
  intros H. unfold renderElementRoles. destruct (mget a "roles") as [v|] eqn:G; [|apply k_ret].
  destruct v; try apply k_ret. apply (k_bind C); [|intros ?; apply k_ret]. apply k_roleList. eapply asames_roles; eauto.
Qed.
Lemma k_imageRoles a : asames a -> K (renderImageRoles rec1 a) (renderImageRoles rec2 a).
Proof.
  intros H. unfold renderImageRoles. apply (k_bind C); [|intros ?; apply k_ret].
  destruct (mget a "roles") as [v|] eqn:G; [|apply k_ret]. destruct v; try apply k_ret. apply k_roleList. eapply asames_roles; eauto.
Qed.
Lemma k_title a : asames a -> K (renderElementTitle rec1 a) (renderElementTitle rec2 a).
Proof.
  intros H. unfold renderElementTitle. destruct (mget a "title") as [v|] eqn:G; [|apply k_ret].
  destruct v; auto with kit. apply k_elements. eapply asames_slice; eauto.
Qed.
Lemma k_mapS f m1 m2 : K m1 m2 -> K (mapS f m1) (mapS f m2).
Proof. intros H. apply (k_bind C); [exact H|intros ?; apply k_ret]. Qed.
Lemma k_usual a c1 c2 k1 k2 : asames a -> K c1 c2 -> (forall f, K (k1 f) (k2 f)) -> K (usual rec1 a c1 k1) (usual rec2 a c2 k2).
Proof.
  intros H H1 H2. unfold usual. apply (k_bind C); [exact H1|intros ?]. apply (k_bind C); [now apply k_roles|intros ?].
  apply (k_bind C); [now apply k_title|intros ?]. apply H2.
Qed.
Hint Resolve k_elements k_listElements k_inline k_raw k_label k_roles k_imageRoles k_title k_mapS k_usual : kit.

Lemma k_paraElements a es : sames es -> K (renderParagraphElements E rec1 a es) (renderParagraphElements E rec2 a es).
Proof. intros H. unfold renderParagraphElements. steps. Qed.
Hint Resolve k_paraElements : kit.
Lemma k_icon c a b : K (renderIcon E c a b) (renderIcon E c a b).
Proof. unfold renderIcon. steps. Qed.
Lemma k_caption a k c p : K (renderCaption a k c p) (renderCaption a k c p).
Proof. unfold renderCaption. steps. Qed.
Hint Resolve k_icon k_caption : kit.
Lemma k_callouts l : K (renderCallouts E l) (renderCallouts E l).
Proof. induction l; cbn [renderCallouts]; unfold renderCalloutRef; steps. Qed.
Hint Resolve k_callouts : kit.
Lemma k_highlighted a l : forall i, K (renderHighlighted E a i l) (renderHighlighted E a i l).
Proof.
  induction l as [|x l IH]; intros i; cbn [renderHighlighted]; [apply k_ret|]. apply (k_ctx C); intros ? ?.
  apply (k_bind C); [apply k_lift|intros ?]. apply (k_bind C); [apply k_lift|intros ?]. apply (k_bind C); [apply k_callouts|intros ?].
  apply (k_bind C); [apply IH|intros ?]. apply k_ret.
Qed.
Hint Resolve k_highlighted : kit.
Lemma k_source a es : asames a -> sames es -> K (renderSourceBlock E rec1 a es) (renderSourceBlock E rec2 a es).
Proof. intros Ha He. unfold renderSourceBlock, renderSourceBlockElements. steps. Qed.
Hint Resolve k_source : kit.

Lemma asames_mset_str a k s : asames a -> asames (mset a k (VStr s)).
Proof.
  intros H v x V X.
  assert (G : In v (map snd a) \/ v = VStr s).
  { clear - V. induction a as [|[k' w] a IH]; cbn [mset map snd In] in V.
    - destruct V as [<-|[]]. now right.
    - destruct (String.eqb k k'); cbn [map snd In] in V |- *; [destruct V as [<-|V]; tauto|].
      destruct V as [<-|V]; [tauto|]. apply IH in V. tauto. }
  destruct G as [G| ->]; [eapply H; eauto|]. destruct X as (c & [] & _).
Qed.

Ltac kk := solve [eauto 6 with kit | steps].

Lemma k_paragraph a es : asames a -> sames es -> K (renderParagraph E rec1 a es) (renderParagraph E rec2 a es).
Proof.
  intros Ha He. unfold renderParagraph.
  apply (k_state C _ (fun st => if r_within st || (0 <? r_list st)%Z then _ else _) (fun st => if r_within st || (0 <? r_list st)%Z then _ else _)).
  intros st. destruct (r_within st || (0 <? r_list st)%Z).
  { unfold renderEmbeddedParagraph. steps. }
  assert (R : K (renderRegularParagraph E rec1 a es) (renderRegularParagraph E rec2 a es)).
  { unfold renderRegularParagraph. eauto with kit. }
  destruct (mget a "style") as [v|] eqn:G; [|exact R]. destruct v; try exact R.
  repeat (match goal with |- K (if ?b then _ else _) _ => destruct b end).
  all: try exact R.
  - unfold renderExampleParagraph. apply k_usual; auto with kit.
  - unfold renderListingParagraph. apply k_usual; auto with kit.
  - unfold renderSourceParagraph. apply k_source; [now apply asames_mset_str|exact He].
  - unfold renderVerseParagraph. steps.
  - unfold renderQuoteParagraph. steps.
  - unfold renderPassthroughParagraph, renderPassthroughContent. auto with kit.
  - unfold renderManpageNameParagraph. steps.
  - unfold renderAdmonitionParagraph. destruct (getAsString a "style"); [|apply k_fail].
    apply (k_bind C); [apply k_icon|intros ?]. apply k_usual; auto with kit.
  - unfold renderLiteralParagraph. apply k_usual; auto with kit.
Qed.

Lemma k_block' kind a es : asames a -> sames es -> K (renderDelimitedBlock E rec1 kind a es) (renderDelimitedBlock E rec2 kind a es).
Proof.
  intros Ha He. unfold renderDelimitedBlock.
  repeat (match goal with |- K (if ?b then _ else _) _ => destruct b end).
  all: try apply k_fail.
  - unfold renderAdmonitionBlock. apply (k_bind C); [apply k_icon|intros ?]. apply k_usual; auto with kit.
  - unfold renderExampleBlock. steps.
  - unfold renderFencedBlock. apply (k_block C). apply k_usual; auto with kit.
  - unfold renderLiteralBlock. apply k_usual; auto with kit.
  - unfold renderListingBlock. destruct (match mget a "style" with Some v => eq_str v "source" | None => false end); [auto with kit|].
    apply (k_block C). apply k_usual; auto with kit.
  - unfold renderMarkdownQuoteBlock. apply k_usual; auto with kit.
  - unfold renderPassthroughBlock. steps.
  - unfold renderQuoteBlock. apply k_usual; auto with kit.
  - unfold renderVerseBlock. steps.
  - unfold renderSidebarBlock. apply k_usual; auto with kit.
  - unfold renderOpenBlock. apply k_usual; auto with kit.
Qed.

(** the parts of a value *)
Definition psames (v : val) : Prop := forall x, within x v -> same x.
Lemma psames_children v c : psames v -> In c (children v) -> psames c.
Proof. intros H I x X. apply H. eapply within_step; eauto. Qed.
Lemma psames_list v l : psames v -> incl l (children v) -> sames l.
Proof. intros H I x X. apply H. apply within_child. now apply I. Qed.
Lemma psames_attrs v a : psames v -> incl (map snd a) (children v) -> asames a.
Proof. intros H I w x W X. apply H. eapply within_step; eauto. Qed.

Lemma k_item t es : sames es -> K (renderItem E rec1 t es) (renderItem E rec2 t es).
Proof. intros H. unfold renderItem. steps. Qed.
Lemma k_ordered l : (forall v, In v l -> psames v) -> K (renderOrderedItems E rec1 l) (renderOrderedItems E rec2 l).
Proof.
  induction l as [|x l IH]; intros H; cbn [renderOrderedItems]; [apply k_ret|]. destruct x; try apply k_fail.
  apply (k_bind C); [|intros ?; apply (k_bind C); [apply IH; intros v V; apply H; now right|intros ?; apply k_ret]].
  apply k_item. apply (psames_list _ _ (H _ (or_introl eq_refl))). cbn [children]. now apply incl_appl, incl_refl.
Qed.
Lemma k_unordered l : (forall v, In v l -> psames v) -> K (renderUnorderedItems E rec1 l) (renderUnorderedItems E rec2 l).
Proof.
  induction l as [|x l IH]; intros H; cbn [renderUnorderedItems]; [apply k_ret|]. destruct x; try apply k_fail.
  all: apply (k_bind C); [|intros ?; apply (k_bind C); [apply IH; intros v V; apply H; now right|intros ?; apply k_ret]].
  all: apply k_item; apply (psames_list _ _ (H _ (or_introl eq_refl))); cbn [children].
  all: auto using incl_appl, incl_refl, incl_appr.
Qed.
Lemma k_labeled t l : forall b, (forall v, In v l -> psames v) -> K (renderLabeledItems E rec1 t b l) (renderLabeledItems E rec2 t b l).
Proof.
  induction l as [|x l IH]; intros b H; cbn [renderLabeledItems]; [apply k_ret|]. destruct x; try apply k_fail.
  apply (k_bind C); [|intros ?; apply (k_bind C); [apply IH; intros v V; apply H; now right|intros ?; apply k_ret]].
  unfold renderLabeledListItem.
  apply (k_bind C); [apply k_inline, (psames_list _ _ (H _ (or_introl eq_refl))); cbn [children]; now apply incl_appl, incl_refl|intros ?].
  apply (k_bind C); [apply k_listElements, (psames_list _ _ (H _ (or_introl eq_refl))); cbn [children]; now apply incl_appr, incl_appl, incl_refl|intros ?].
  steps.
Qed.
Lemma k_calloutItems l : (forall v, In v l -> psames v) -> K (renderCalloutItems E rec1 l) (renderCalloutItems E rec2 l).
Proof.
  induction l as [|x l IH]; intros H; cbn [renderCalloutItems]; [apply k_ret|]. destruct x; try apply k_fail.
  apply (k_bind C); [apply k_listElements, (psames_list _ _ (H _ (or_introl eq_refl))); cbn [children]; now apply incl_appl, incl_refl|intros ?].
  apply (k_bind C); [apply k_exec|intros ?]. apply (k_bind C); [apply IH; intros v V; apply H; now right|intros ?; apply k_ret].
Qed.
Lemma k_renderList kind a es : asames a -> (forall v, In v es -> psames v) -> K (renderList E rec1 kind a es) (renderList E rec2 kind a es).
Proof.
  intros Ha He. unfold renderList. repeat (match goal with |- K (if ?b then _ else _) _ => destruct b end); try apply k_fail.
  - unfold renderOrderedList. apply (k_bind C); [now apply k_ordered|intros ?]. steps.
  - unfold renderUnorderedList. apply (k_bind C); [steps|intros ?]. apply (k_bind C); [now apply k_unordered|intros ?]. steps.
  - unfold renderLabeledList. apply (k_bind C); [unfold getLabeledListTmpl; steps|intros ?]. apply k_usual; auto with kit. now apply k_labeled.
  - unfold renderCalloutList. apply k_usual; auto with kit. now apply k_calloutItems.
Qed.

Lemma k_edgeCells t cols cells : (forall v, In v cells -> psames v) ->
  forall i, K (renderEdgeCells E rec1 t cols i cells) (renderEdgeCells E rec2 t cols i cells).
Proof.
  induction cells as [|c l IH]; intros H i; cbn [renderEdgeCells]; [apply k_ret|]. destruct cols as [|d cols]; [apply k_panic|].
  apply (k_bind C); [|intros ?; apply (k_bind C); [apply IH; intros v V; apply H; now right|intros ?; apply k_ret]].
  specialize (H c (or_introl eq_refl)). unfold renderEdgeCell. destruct c; try apply k_fail.
  destruct elements as [|p [|? ?]]; try apply k_fail; destruct p; try apply k_fail.
  apply (k_bind C); [|intros ?; apply k_exec]. apply k_inline.
  intros x X. apply H. eapply within_step; [cbn [children]; now left|]. apply within_child. cbn [children]. apply in_or_app. now left.
Qed.
Lemma k_edgeRow t tc row cols : psames row -> K (renderEdgeRow E rec1 t tc row cols) (renderEdgeRow E rec2 t tc row cols).
Proof.
  intros H. unfold renderEdgeRow. destruct row; try apply k_ret. apply (k_bind C); [|intros ?; apply k_exec].
  apply k_edgeCells. intros v V. eapply psames_children; eauto.
Qed.
Lemma k_cellBlocks l : (forall v, In v l -> same v /\ psames v) -> K (renderCellBlocks E rec1 l) (renderCellBlocks E rec2 l).
Proof.
  induction l as [|x l IH]; intros H; cbn [renderCellBlocks]; [apply k_ret|].
  apply (k_bind C); [|intros ?; apply (k_bind C); [apply IH; intros v V; apply H; now right|intros ?; apply k_ret]].
  destruct (H x (or_introl eq_refl)) as [H1 H2]. unfold renderTableCellBlock.
  destruct x; try (apply (k_bind C); [exact H1|intros ?; apply k_exec]).
  apply (k_bind C); [apply k_elements, (psames_list _ _ H2); cbn [children]; now apply incl_appl, incl_refl|intros ?].
  apply (k_bind C); [apply k_title, (psames_attrs _ _ H2); cbn [children]; now apply incl_appr, incl_refl|intros ?]. steps.
Qed.
Lemma k_cells cols cells : (forall v, In v cells -> psames v) -> forall i, K (renderCells E rec1 cols i cells) (renderCells E rec2 cols i cells).
Proof.
  induction cells as [|c l IH]; intros H i; cbn [renderCells]; [apply k_ret|]. destruct (nth_error cols i); [|apply k_panic].
  apply (k_bind C); [|intros ?; apply (k_bind C); [apply IH; intros v V; apply H; now right|intros ?; apply k_ret]].
  specialize (H c (or_introl eq_refl)). unfold renderTableCell. destruct c; try apply k_fail.
  apply (k_bind C); [|intros ?; apply k_exec]. apply k_cellBlocks. intros v V. split.
  - apply H. now apply within_child.
  - eapply psames_children; eauto.
Qed.
Lemma k_rows cols rows : (forall v, In v rows -> psames v) -> K (renderRows E rec1 cols rows) (renderRows E rec2 cols rows).
Proof.
  induction rows as [|c l IH]; intros H; cbn [renderRows]; [apply k_ret|]. destruct c; try apply k_fail.
  apply (k_bind C); [apply k_cells; intros v V; apply (psames_children _ _ (H _ (or_introl eq_refl))); exact V|intros ?].
  apply (k_bind C); [apply k_exec|intros ?]. apply (k_bind C); [apply IH; intros v V; apply H; now right|intros ?; apply k_ret].
Qed.
Lemma k_table v : psames v -> K (renderTable E rec1 v) (renderTable E rec2 v).
Proof.
  intros H. unfold renderTable. destruct v; try apply k_fail.
  assert (Ha : asames attrs). { apply (psames_attrs _ _ H). cbn [children]. intros x X. right. right. apply in_or_app. now right. }
  apply (k_bind C); [destruct (ahas attrs "title"); auto with kit|intros ?].
  apply (k_bind C); [apply k_lift|intros ?].
  apply (k_bind C); [apply k_edgeRow, (psames_children _ _ H); now left|intros ?].
  apply (k_bind C); [apply k_edgeRow, (psames_children _ _ H); cbn [children]; right; now left|intros ?].
  apply (k_bind C); [apply (k_bind C); [|intros ?; apply k_exec]|intros ?].
  { apply k_rows. intros v V. apply (psames_children _ _ H). cbn [children]. right. right. apply in_or_app. now left. }
  steps.
Qed.

Lemma k_xref id label : (forall x, need x (InternalCrossReference id label) -> same x) ->
  K (renderInternalCrossReference E rec1 id label) (renderInternalCrossReference E rec2 id label).
Proof.
  intros H. unfold renderInternalCrossReference. destruct id; try apply k_fail. apply (k_bind C); [|intros ?; apply k_exec].
  assert (G : K (renderRefLabel E rec1 s) (renderRefLabel E rec2 s)).
  { unfold renderRefLabel. destruct (mget (e_refs E) s) as [v|] eqn:G; [|apply k_ret]. destruct v; auto with kit.
    apply k_label. intros x X. apply H. eapply need_ref; eauto. }
  destruct label; try exact G. apply k_ret.
Qed.

Ltac attrs_of H := apply (psames_attrs _ _ H); cbn [children]; auto using incl_appl, incl_refl, incl_appr, incl_tl.
Ltac list_of H := apply (psames_list _ _ H); cbn [children]; auto using incl_appl, incl_refl, incl_appr, incl_tl.

(** the parts of an element are rendered alike: so is the element *)
Theorem k_with v : D v -> (forall x, need x v -> same x) -> K (renderElementWith E rec1 v) (renderElementWith E rec2 v).
Proof.
  intros HD HN. assert (H : psames v) by (intros x X; apply HN; now apply need_part).
  destruct v; cbn [renderElementWith]; auto with kit.
  - (* StringElement *) unfold renderString. steps.
  - (* QuotedText *) unfold renderQuotedText. apply (k_bind C); [apply k_elements; list_of H|intros ?].
    apply (k_bind C); [apply k_roles; attrs_of H|intros ?]. steps.
  - (* InlinePassthrough *) unfold renderInlinePassthrough, renderPassthroughContent.
    apply (k_bind C); [apply k_mapS, k_raw; list_of H|intros ?]. apply k_ret.
  - (* InlineLink *) unfold renderLink. assert (Ha : asames attrs) by (attrs_of H).
    apply (k_bind C); [auto with kit|intros ?]. apply (k_bind C); [|intros ?; apply k_exec].
    destruct (mget attrs "text") as [t|] eqn:G; [|apply k_ret]. apply (k_bind C); [|intros ?; apply k_ret].
    destruct t; auto with kit. apply k_inline. eapply asames_slice; eauto.
  - (* InternalCrossReference *) now apply k_xref.
  - (* ExternalCrossReference *) unfold renderExternalCrossReference. assert (Ha : asames attrs) by (attrs_of H).
    apply (k_bind C); [|intros ?; apply k_exec]. destruct (mget attrs "xrefLabel") as [t|] eqn:G; [|apply k_ret].
    destruct t; auto with kit. apply k_inline. eapply asames_slice; eauto.
  - (* InlineImage *) unfold renderInlineImage. assert (Ha : asames attrs) by (attrs_of H).
    steps.
  - (* Icon *) unfold renderInlineIcon. steps.
  - (* IndexTerm *) apply k_inline. list_of H.
  - (* FootnoteReference *) unfold renderFootnoteReference. steps.
  - (* InlineButton *) unfold renderInlineButton. steps.
  - (* UserMacro *) unfold renderUserMacro. destruct (e_macro E _); [apply k_lift|]. destruct (String.eqb kind "block"); [|apply k_ret].
    apply k_paragraph; [intros v x []|]. intros x [<-|[]]. apply HN. apply need_raw.
  - (* Callout *) unfold renderCalloutRef. apply k_exec.
  - (* Paragraph *) apply k_paragraph; [attrs_of H|list_of H].
  - (* DelimitedBlock *) apply k_block'; [attrs_of H|list_of H].
  - (* Section *) unfold renderSection, renderSectionTitle.
    apply (k_bind C).
    { apply (k_bind C); [apply k_inline|intros ?; apply k_exec]. destruct title as [l|]; [list_of H|intros x []]. }
    intros ?. apply (k_bind C); [apply k_elements; list_of H|intros ?]. apply (k_bind C); [apply k_roles; attrs_of H|intros ?]. apply k_exec.
  - (* ImageBlock *) unfold renderImageBlock. assert (Ha : asames attrs) by (attrs_of H). steps.
  - (* FrontMatter *) apply (k_bind C); [now apply (k_front C)|intros ?; apply k_ret].
  - (* Preamble *) unfold renderPreamble. apply (k_bind C); [apply k_elements; list_of H|intros ?]. steps.
  - (* AttributeDeclaration *) apply (k_bind C); [now apply (k_decl C)|intros ?; apply k_ret].
  - (* AttributeReset *) apply (k_bind C); [now apply (k_reset C)|intros ?; apply k_ret].
  - (* ListBlock *) apply k_renderList; [attrs_of H|]. intros v V. apply (psames_children _ _ H). cbn [children]. apply in_or_app. now left.
  - (* Table *) now apply k_table.
Qed.

(** ** documents *)
Variable G : val -> Prop.
Hypothesis G_same : forall x, G x -> same x.
Hypothesis G_children : forall c v, G v -> In c (children v) -> G c.
Hypothesis G_refs : forall id v, mget (e_refs E) id = Some v -> G v.
Hypothesis G_toc : forall a v, IA a -> mget a "toc-title" = Some v -> G v.

Lemma G_occurs x v : G v -> occurs x v -> G x.
Proof. intros H O. induction O; [exact H|]. eauto. Qed.
Lemma G_within x v : G v -> within x v -> G x.
Proof. intros H (c & I & O). eapply G_occurs; [|exact O]. eauto. Qed.
Lemma G_psames v : G v -> psames v.
Proof. intros H x X. apply G_same. eapply G_within; eauto. Qed.
Lemma G_sames l : Forall G l -> sames l.
Proof. intros H x X. apply G_same. rewrite Forall_forall in H. auto. Qed.
Lemma G_list v l : G v -> incl l (children v) -> Forall G l.
Proof. intros H I. apply Forall_forall. intros x X. eauto. Qed.

Lemma k_entry t : K (prerenderEntry E rec1 t) (prerenderEntry E rec2 t).
Proof.
  revert t. fix IH 1. intros [id level sub]. cbn [prerenderEntry]. apply (k_bind C).
  - induction sub as [|x r IHr]; [apply k_ret|]. apply (k_bind C); [apply IH|intros ?]. apply (k_bind C); [apply IHr|intros ?]. apply k_ret.
  - intros ?. destruct (mget (e_refs E) id) as [v|] eqn:R; [|apply k_fail]. apply (k_bind C); [|intros ?; apply k_ret].
    apply G_refs in R. destruct v; try (now apply G_same). apply k_elements, G_sames, (G_list _ _ R). apply incl_refl.
Qed.
Lemma k_entries l : K (prerenderEntries E rec1 l) (prerenderEntries E rec2 l).
Proof. induction l; cbn [prerenderEntries]; [apply k_ret|]. apply (k_bind C); [apply k_entry|intros ?]. apply (k_bind C); [assumption|intros ?]. apply k_ret. Qed.
Lemma k_tocEntry t : K (renderTocEntry E t) (renderTocEntry E t).
Proof.
  revert t. fix IH 1. intros [id level number title sub]. cbn [renderTocEntry]. apply (k_bind C); [|intros ?; apply k_exec].
  set (go := fix go (l : list tocr) : M string := match l with [] => ret "" | x :: r => let* a := renderTocEntry E x in let* b := go r in ret (a ++ b)%string end).
  assert (H : K (go sub) (go sub)).
  { induction sub as [|x r IHr]; [apply k_ret|]. apply (k_bind C); [apply IH|intros ?]. apply (k_bind C); [apply IHr|intros ?]. apply k_ret. }
  destruct sub as [|[i l n u s] r]; [apply k_ret|]. apply (k_bind C); [exact H|intros ?]. apply k_exec.
Qed.
Lemma k_tocEntries l : K (renderTocEntries E l) (renderTocEntries E l).
Proof. induction l; cbn [renderTocEntries]; [apply k_ret|]. apply (k_bind C); [apply k_tocEntry|intros ?]. apply (k_bind C); [assumption|intros ?]. apply k_ret. Qed.
Lemma k_toc t : K (renderToc E rec1 t) (renderToc E rec2 t).
Proof.
  unfold renderToc. destruct t as [l|]; [|apply k_ret]. apply (k_bind C).
  - unfold renderTocTitle. apply (k_ctx C). intros a I. destruct (mget a "toc-title") as [v|] eqn:R; [|apply k_ret].
    apply (G_toc a v I) in R. destruct v; try (now apply G_same); [apply k_ret|]. apply k_elements, G_sames, (G_list _ _ R). apply incl_refl.
  - intros ?. apply (k_bind C); [|intros ?; steps]. unfold renderTocSections. destruct l as [|[i lv n u s] r]; [apply k_ret|].
    apply (k_bind C); [apply k_tocEntries|intros ?]. apply k_exec.
Qed.
Lemma k_notes l : Forall G l -> K (renderFootnotes E rec1 l) (renderFootnotes E rec2 l).
Proof.
  intros H. assert (H' : K (renderFootnoteElements E rec1 l) (renderFootnoteElements E rec2 l)).
  { induction H as [|x l X L IH]; cbn [renderFootnoteElements]; [apply k_ret|].
    apply (k_bind C); [|intros ?; apply (k_bind C); [exact IH|intros ?; apply k_ret]].
    unfold renderFootnoteElement. destruct x; try apply k_fail. apply (k_bind C); [|intros ?; apply k_exec].
    apply k_inline, G_sames, (G_list _ _ X). cbn [children]. now apply incl_tl, incl_refl. }
  unfold renderFootnotes. destruct l; [apply k_ret|]. apply (k_bind C); [exact H'|intros ?; apply k_exec].
Qed.
Lemma k_elementsToc t l : Forall G l -> K (renderElementsToc E rec1 t l) (renderElementsToc E rec2 t l).
Proof.
  intros H. induction H as [|x l X L IH]; cbn [renderElementsToc]; [apply k_ret|].
  assert (P : K (let* s := rec1 x in let* q := renderElementsToc E rec1 t l in ret (s ++ q)%string)
                (let* s := rec2 x in let* q := renderElementsToc E rec2 t l in ret (s ++ q)%string)).
  { apply (k_bind C); [now apply G_same|intros ?]. apply (k_bind C); [exact IH|intros ?; apply k_ret]. }
  destruct x; try exact P. apply (k_bind C).
  - unfold renderPreamble. apply (k_bind C); [apply k_elements, G_sames, (G_list _ _ X); cbn [children]; apply incl_refl|intros ?].
    apply (k_bind C); [apply k_toc|intros ?]. apply k_exec.
  - intros ?. apply (k_bind C); [apply k_elements; now apply G_sames|intros ?; apply k_ret].
Qed.
Lemma k_body l t n : Forall G l -> Forall G n -> K (renderDocumentBody E rec1 l t n) (renderDocumentBody E rec2 l t n).
Proof.
  intros HL HN. unfold renderDocumentBody. apply (k_ctx C). intros a I. apply (k_bind C).
  - assert (P : K (renderElements rec1 l) (renderElements rec2 l)) by (now apply k_elements, G_sames).
    destruct (mget a "toc"); [|exact P]. destruct t as [t|]; [|exact P].
    destruct (eq_str v "preamble"); [now apply k_elementsToc|].
    destruct (eq_str v "" || match v with VNil => true | _ => false end); [|apply k_fail].
    apply (k_bind C); [apply k_toc|intros ?]. apply (k_bind C); [exact P|intros ?; apply k_ret].
  - intros ?. apply (k_bind C); [now apply k_notes|intros ?; apply k_ret].
Qed.
Lemma k_details : K (renderDocumentDetails E) (renderDocumentDetails E).
Proof.
  unfold renderDocumentDetails. apply (k_ctx C). intros a I. destruct (ahas a "authors"); [|apply k_ret].
  apply (k_bind C); [|intros ?; apply k_exec]. generalize true. induction (authorsDetails a) as [|[[i n] e] l IH]; intros b; cbn [renderAuthorsList]; [apply k_ret|].
  apply (k_bind C); [apply k_exec|intros ?]. apply (k_bind C); [apply IH|intros ?; apply k_ret].
Qed.

Variable c : rconf.
Variable d : rdoc.
Hypothesis G_elements : Forall G (rd_elements d).
Hypothesis G_notes : Forall G (rd_notes d).

Lemma docHeader_In els i h j : docHeader_from els i = Some (h, j) -> In h els.
Proof.
  revert i. induction els as [|x l IH]; intros i; cbn [docHeader_from]; [discriminate|].
  destruct x; try discriminate; try (intros X; apply IH in X; now right).
  intros X. injection X as <- <-. now left.
Qed.

Lemma k_titleOf l : headerTitle (rd_elements d) = Some l -> sames l.
Proof.
  unfold headerTitle. destruct (docHeader (rd_elements d)) as [[h r]|] eqn:H; [|discriminate].
  apply docHeader_In in H. rewrite Forall_forall in G_elements. specialize (G_elements h H).
  destruct h; try discriminate. intros X. rewrite X in *. apply G_sames, (G_list _ _ G_elements). cbn [children]. now apply incl_appl, incl_refl.
Qed.
Lemma k_header : K (renderDocumentHeader E rec1 (headerTitle (rd_elements d))) (renderDocumentHeader E rec2 (headerTitle (rd_elements d))).
Proof.
  unfold renderDocumentHeader. apply (k_bind C); [|intros ?; apply (k_bind C); [apply k_details|intros ?; apply k_exec]].
  destruct (headerTitle (rd_elements d)) eqn:H; [|apply k_ret]. now apply k_elements, k_titleOf.
Qed.
Lemma k_manHeader t name : (forall l, t = Some l -> sames l) -> G name -> K (renderManpageHeader E rec1 t name) (renderManpageHeader E rec2 t name).
Proof.
  intros HT HN. unfold renderManpageHeader. destruct name; try apply k_panic. destruct elements as [|p es]; [apply k_panic|].
  apply (k_bind C); [destruct t; [now apply k_elements, HT|apply k_ret]|intros ?].
  apply (k_bind C); [apply k_elements|intros ?].
  { destruct title as [l|]; [|intros x []]. apply G_sames, (G_list _ _ HN). cbn [children]. now apply incl_appl, incl_refl. }
  assert (HP : G p). { apply (G_children p _ HN). cbn [children]. apply in_or_app. right. now left. }
  destruct p; try apply k_panic. apply (k_bind C); [|intros ?; apply k_exec].
  apply k_paragraph.
  - assert (HA : asames attrs0). { intros v x V X. apply G_same. apply (G_within x v); [|exact X]. apply (G_children v _ HP). cbn [children]. apply in_or_app. now right. }
    unfold aset. change (String.eqb "style" AttrRoles) with false. cbn. now apply asames_mset_str.
  - apply G_sames, (G_list _ _ HP). cbn [children]. now apply incl_appl, incl_refl.
Qed.

Lemma bodyElements_G : Forall G (bodyElements (rd_elements d)).
Proof.
  clear - G_elements. induction (rd_elements d) as [|x l IH]; cbn [bodyElements]; [constructor|].
  inversion G_elements as [|? ? X L]; subst. destruct x; try (constructor; [exact X|now apply IH]). exact L.
Qed.
Lemma k_split t : K (splitAndRender E rec1 c d t) (splitAndRender E rec2 c d t).
Proof.
  unfold splitAndRender. apply (k_ctx C). intros a I. pose proof bodyElements_G as HB.
  destruct (String.eqb (getD E a "doctype" "article") "manpage").
  - destruct (bodyElements (rd_elements d)) as [|name rest]; [apply k_panic|]. inversion HB; subst. destruct (rc_wrap c).
    + apply (k_bind C); [apply k_manHeader; [apply k_titleOf|assumption]|intros ?]. apply (k_bind C); [now apply k_body|intros ?; apply k_ret].
    + apply (k_bind C); [apply k_manHeader; [discriminate|assumption]|intros ?]. apply (k_bind C); [now apply k_body|intros ?; apply k_ret].
  - apply (k_bind C); [destruct (hasHeader (rd_elements d)); [apply k_header|apply k_ret]|intros ?].
    apply (k_bind C); [now apply k_body|intros ?; apply k_ret].
Qed.
Theorem k_document : K (renderDocument E rec1 c d) (renderDocument E rec2 c d).
Proof.
  unfold renderDocument. apply (k_bind C); [destruct (headerTitle (rd_elements d)); auto with kit|intros ?].
  apply (k_bind C).
  { destruct (rd_toc d); [|apply k_ret]. apply (k_bind C); [apply k_entries|intros ?; apply k_ret]. }
  intros ?. apply (k_bind C); [apply k_split|intros ?]. apply (k_bind C).
  { destruct (hasHeader (rd_elements d)); [|apply k_ret]. apply k_roles. unfold headerAttrs.
    destruct (docHeader (rd_elements d)) as [[h j]|] eqn:H; [|intros v x []]. apply docHeader_In in H. rewrite Forall_forall in G_elements.
    specialize (G_elements h H). destruct h; try (intros v x []). intros v x V X. apply G_same. apply (G_within x v); [|exact X].
    apply (G_children v _ G_elements). cbn [children]. apply in_or_app. right. apply in_or_app. now right. }
  intros ?. apply (k_ctx C). intros ? ?. destruct (rc_wrap c); [|apply k_ret].
  apply (k_bind C); [destruct (hasHeader (rd_elements d)); auto with kit|intros ?]. apply (k_bind C); [apply k_exec|intros ?]. apply k_ret.
Qed.
End Kit.
