(** The rendering of a document keeps to its alphabet. *)
From Verif Require Import GoBase GoLemmas Types Attrs Aggregate Toc TocRender Escape Merge Elements Ids Locations Indent Footnotes
  Templates Tmpl SectNum RenderAttrs Authors TocLemmas SectNumLemmas Render RenderKit HtmlSpec HtmlMachine HtmlOps TmplCheck HtmlTmpl AlphaSpec AlphaOps.
Local Open Scope string_scope.

Section Alpha.
Variable conv : bool.
Variable P : ascii -> bool.
Hypothesis HP : alphabet P.
Hypothesis HC : conv = true -> forall n, (9 <= n <= 13)%N -> P (chr n) = true.
Variable E : renv.
Hypothesis S : keeps conv P E.
Notation fmtv := (e_fmtv E).
Notation W := (over P).
Notation benign := (in_alphabet conv P).
Notation local := (written conv P).
Notation ok := (in_alphabet conv P (e_fmtv E)).
Notation ctx_ok := (attrs_in conv P (e_fmtv E)).

Ltac wc := first [reflexivity | apply (W_const P HP); reflexivity].

Lemma W_nil : W "".
Proof. reflexivity. Qed.
Lemma W_app x y : W x -> W y -> W (x ++ y).
Proof. apply (AlphaOps.W_app P). Qed.
Lemma W_join ls : Forall W ls -> W (join " " ls).
Proof. apply AlphaOps.W_join. wc. Qed.
Lemma W_itoa z : W (itoa z).
Proof. apply (AlphaOps.W_itoa P HP). Qed.
Lemma W_itoaN z : W (itoaN z).
Proof. apply (AlphaOps.W_itoaN P HP). Qed.
Lemma W_trimLF x : W x -> W (trimLF x).
Proof. apply (AlphaOps.W_trimLF P). Qed.
Lemma W_trimSpaces x : W x -> W (trimSpaces x).
Proof. apply (AlphaOps.W_trimSpaces P HP). Qed.
Lemma W_adjust x : W x -> W (adjustHeadingSpaces x).
Proof. apply (AlphaOps.W_adjust P HP). Qed.
Lemma W_escape x : W x -> W (escapeString x).
Proof. apply (AlphaOps.W_escape P HP). Qed.
Lemma W_html x : W x -> W (htmlEscapeString x).
Proof. apply (AlphaOps.W_html P HP). Qed.
Lemma W_replace old new x : W new -> W x -> W (replace_all x old new).
Proof. apply AlphaOps.W_replace. Qed.

Definition J (st : rst) : Prop := ctx_ok (r_attrs st).
Definition tri {A} (m : M A) (Q : A -> Prop) : Prop :=
  forall st a st', J st -> m st = Ok (a, st') -> J st' /\ Q a.

Lemma tri_ret {A} (a : A) (Q : A -> Prop) : Q a -> tri (ret a) Q.
Proof. intros H st b st' HJ [= <- <-]. auto. Qed.
Lemma tri_fail {A} e (Q : A -> Prop) : tri (fail e) Q.
Proof. intros st b st' HJ X. discriminate X. Qed.
Lemma tri_panic {A} e (Q : A -> Prop) : tri (fun _ => Panic e) Q.
Proof. intros st b st' HJ X. discriminate X. Qed.
Lemma tri_lift {A} (r : result A) (Q : A -> Prop) : (forall a, r = Ok a -> Q a) -> tri (lift r) Q.
Proof. intros H st b st' HJ X. unfold lift in X. destruct r; [|discriminate X..]. injection X as -> ->. auto. Qed.
Lemma tri_bind {A B} (m : M A) (f : A -> M B) (R : A -> Prop) (Q : B -> Prop) : tri m R -> (forall a, R a -> tri (f a) Q) -> tri (bindM m f) Q.
Proof.
  intros Hm Hf st b st' HJ X. unfold bindM in X. destruct (m st) as [[a st1]| |] eqn:M1; [|discriminate X..].
  destruct (Hm _ _ _ HJ M1) as (J1 & Pa). exact (Hf a Pa _ _ _ J1 X).
Qed.
Lemma tri_ctx : tri getAttrs ctx_ok.
Proof. intros st a st' HJ [= <- <-]. split; [exact HJ|apply HJ]. Qed.
Lemma tri_counter n : tri (nextCounter n) (fun _ => True).
Proof. intros st a st' HJ [= <- <-]. split; [exact HJ|]. auto. Qed.
Lemma tri_block {A} (m : M A) Q : tri m Q -> tri (inBlock m) Q.
Proof.
  intros H st a st' HJ X. unfold inBlock in X. match type of X with match m ?s with _ => _ end = _ => destruct (m s) as [[b st1]| |] eqn:M1; [|discriminate X..] end.
  injection X as <- <-. apply H in M1; [|exact HJ]. exact M1.
Qed.
Lemma tri_list {A} (m : M A) Q : tri m Q -> tri (inList m) Q.
Proof.
  intros H st a st' HJ X. unfold inList in X. match type of X with match m ?s with _ => _ end = _ => destruct (m s) as [[b st1]| |] eqn:M1; [|discriminate X..] end.
  injection X as <- <-. apply H in M1; [|exact HJ]. exact M1.
Qed.
Lemma tri_upd f : (forall a, ctx_ok a -> ctx_ok (f a)) -> tri (upd_attrs f) (fun _ => True).
Proof. intros H st a st' HA [= <- <-]. split; [now apply H|]. auto. Qed.
Lemma tri_mapS f m : (forall x, W x -> W (f x)) -> tri m W -> tri (mapS f m) W.
Proof. intros H Hm. eapply tri_bind; [exact Hm|]. intros x X. apply tri_ret. auto. Qed.

(** ** benign values *)
Lemma ok_local v : ok v -> local fmtv v.
Proof. intros H. apply H. constructor. Qed.
Lemma ok_child v c : ok v -> In c (children v) -> ok c.
Proof. intros H I x X. apply H. econstructor; eauto. Qed.
Definition oks (l : list val) : Prop := forall x, In x l -> ok x.
Definition oka (a : attributes) : Prop := forall v, In v (map snd a) -> ok v.
Lemma ok_list v l : ok v -> incl l (children v) -> oks l.
Proof. intros H I x X. apply (ok_child v); auto. Qed.
Lemma ok_attrs v a : ok v -> incl (map snd a) (children v) -> oka a.
Proof. intros H I x X. apply (ok_child v); auto. Qed.
Lemma oka_get a k v : oka a -> mget a k = Some v -> ok v.
Proof. intros H G. apply H. eapply mget_snd; eauto. Qed.
Lemma oka_slice a k l : oka a -> mget a k = Some (VSlice l) -> oks l.
Proof. intros H G. apply oka_get in G; [|exact H]. apply (ok_list _ _ G). apply incl_refl. Qed.
Lemma oka_str a k s : oka a -> mget a k = Some (VStr s) -> W s.
Proof. intros H G. apply oka_get in G; [|exact H]. exact (ok_local _ G). Qed.
Lemma ok_str s : W s -> ok (VStr s).
Proof. intros H x X. inversion X as [|? c ? C]; subst; [exact H|destruct C]. Qed.
Lemma ok_string s : W s -> ok (StringElement s).
Proof. intros H x X. inversion X as [|? c ? C]; subst; [right; exact H|destruct C]. Qed.
Lemma safe_get a k : oka a -> W (optS (getAsString a k)).
Proof.
  intros H. unfold getAsString. destruct (mget a k) as [v|] eqn:G; [|reflexivity]. destruct v; try reflexivity. eapply oka_str; eauto.
Qed.
Lemma safe_getSome a k s : oka a -> getAsString a k = Some s -> W s.
Proof. intros H G. pose proof (safe_get a k H) as X. now rewrite G in X. Qed.
Lemma safe_getD a k d : oka a -> W d -> W (getD E a k d).
Proof.
  intros H D. unfold getD, getAsStringD. destruct (mget a k) as [v|] eqn:G; [|exact D]. pose proof (oka_get a k v H G) as V.
  destruct v; try (apply (kp_fmtv _ _ _ S); exact V); [reflexivity|]. exact (ok_local _ V).
Qed.
Lemma safe_id a : oka a -> W (renderElementID a).
Proof.
  intros H. unfold renderElementID. destruct (mget a "id") as [v|] eqn:G; [|reflexivity]. destruct v; try reflexivity.
  apply W_html. eapply oka_str; eauto.
Qed.
Lemma safe_style a : oka a -> W (renderElementStyle a).
Proof.
  intros H. unfold renderElementStyle. destruct (mget a "style") as [v|] eqn:G; [|reflexivity]. destruct v; try reflexivity.
  apply W_html. eapply oka_str; eauto.
Qed.
Lemma safe_attr1 a : oka a -> W (fst (newAttribution a)).
Proof.
  intros H. unfold newAttribution. destruct (getAsString a "quoteAuthor") eqn:G; cbn [fst]; [eapply safe_getSome; [|eassumption]; eassumption|now apply safe_get].
Qed.
Lemma safe_attr2 a : oka a -> W (snd (newAttribution a)).
Proof.
  intros H. unfold newAttribution. destruct (getAsString a "quoteAuthor") eqn:G; cbn [snd]; [now apply safe_get|reflexivity].
Qed.
Lemma ctx_oka a : ctx_ok a -> oka a.
Proof. intros [H _]. exact H. Qed.
Lemma bal_check v : W (renderCheckStyle v).
Proof.
  unfold renderCheckStyle. destruct v as [v|]; [|reflexivity]. destruct v; try reflexivity.
  repeat match goal with |- W (if ?b then _ else _) => destruct b; [wc|] end. wc.
Qed.
Hint Resolve W_nil safe_get safe_getD safe_id safe_style safe_attr1 safe_attr2 ctx_oka bal_check W_trimLF W_trimSpaces
  W_adjust W_itoa W_itoaN : ok.
Hint Resolve ok_local : ok.
Hint Extern 5 (over _ _) => wc : ok.

(** ** templates *)
Lemma exec_nodes_of t e st x st' : exec E t e st = Ok (x, st') -> st' = st /\ exec_nodes (e_toLower E) (nodes (e_xhtml E) t) e = Ok x.
Proof.
  unfold exec, lift, execute. destruct (String.eqb (template E t) ""); [discriminate|]. unfold nodes. unfold template.
  destruct (parse (if e_xhtml E then xhtml5 t else html5 t)) as [ns|]; [|discriminate].
  destruct (exec_nodes (e_toLower E) ns e); [|discriminate..]. intros [= -> ->]. auto.
Qed.
Lemma tri_exec t e : foks P e -> tri (exec E t e) W.
Proof.
  intros He st x st' HJ X. apply exec_nodes_of in X as [-> X]. split; [exact HJ|].
  exact (exec_W P HP (e_toLower E) (kp_lower _ _ _ S) (e_xhtml E) t e x He X).
Qed.

Ltac fieldt := match goal with |- True => exact Logic.I | |- W (if _ then _ else _) => idtac | |- _ => solve [eauto 3 with ok] | |- W _ => solve [wc] | |- _ => idtac end.
Ltac fields_go := lazymatch goal with
  | |- Forall _ [] => apply Forall_nil
  | |- Forall _ (_ :: _) => apply Forall_cons; [cbn [fst snd fok]; fieldt|fields_go]
  end.
Ltac fields := unfold foks, attribution_fields; cbn [app]; fields_go.
Ltac texec := apply tri_exec; fields.

Section Rec.
Variable rec : val -> M string.
Hypothesis Hrec : forall v, ok v -> tri (rec v) W.

Lemma oks_cons x l : oks (x :: l) -> ok x /\ oks l.
Proof. intros H. split; [apply H; now left|intros y Y; apply H; now right]. Qed.

Ltac bnd := eapply tri_bind; [|intros].

Lemma t_elements l : oks l -> tri (renderElements rec l) W.
Proof.
  induction l as [|x l IH]; intros H; cbn [renderElements]; [apply tri_ret; reflexivity|]. apply oks_cons in H as [H1 H2].
  eapply tri_bind; [now apply Hrec|intros s Hs]. eapply tri_bind; [now apply IH|intros u Hu]. apply tri_ret. now apply W_app.
Qed.
Lemma t_listElements l : oks l -> tri (renderListElements rec l) W.
Proof.
  destruct l as [|x l]; intros H; cbn [renderListElements]; [apply tri_ret; reflexivity|]. apply oks_cons in H as [H1 H2].
  eapply tri_bind; [apply tri_list; now apply Hrec|intros s Hs]. eapply tri_bind; [now apply t_elements|intros u Hu]. apply tri_ret. now apply W_app.
Qed.
Lemma t_inline l : oks l -> tri (renderInlineElements rec l) W.
Proof.
  induction l as [|x l IH]; intros H; cbn [renderInlineElements]; [apply tri_ret; reflexivity|]. apply oks_cons in H as [H1 H2].
  eapply tri_bind; [now apply Hrec|intros s Hs]. eapply tri_bind; [now apply IH|intros u Hu]. apply tri_ret. apply W_app; [|exact Hu].
  destruct l; [|exact Hs]. destruct x; try exact Hs. now apply AlphaOps.W_trim_right.
Qed.
Lemma t_raw l : oks l -> raw_text P l -> tri (renderRawElements rec l) W.
Proof.
  induction l as [|x l IH]; intros H R; cbn [renderRawElements]; [apply tri_ret; reflexivity|]. apply oks_cons in H as [H1 H2].
  eapply tri_bind; [|intros s Hs; eapply tri_bind; [apply IH; [exact H2|intros y Y; apply R; now right]|intros u Hu]; apply tri_ret; exact (W_app s u Hs Hu)].
  destruct x; try (now apply Hrec). apply tri_ret. apply R. now left.
Qed.

Lemma t_role r : ok r -> tri (renderElementRole rec r) W.
Proof.
  intros H. unfold renderElementRole. destruct r; try apply tri_fail; [apply tri_ret; exact (ok_local _ H)|]. apply t_elements, (ok_list _ _ H), incl_refl.
Qed.
Lemma t_roleList l : oks l -> tri (renderRoles rec l) (Forall W).
Proof.
  induction l as [|r l IH]; intros O; cbn [renderRoles]; [apply tri_ret; constructor|]. apply oks_cons in O as [O1 O2].
  eapply tri_bind; [now apply t_role|intros u Hu]. eapply tri_bind; [now apply IH|intros w Hw]. apply tri_ret. now constructor.
Qed.
Lemma t_roles a : oka a -> tri (renderElementRoles rec a) W.
Proof.
  intros H. unfold renderElementRoles. destruct (mget a "roles") as [v|] eqn:G; [|apply tri_ret; reflexivity].
  destruct v; try (apply tri_ret; reflexivity). pose proof (oka_get _ _ _ H G) as V.
  eapply tri_bind; [apply t_roleList, (ok_list _ _ V), incl_refl|intros r Hr]. apply tri_ret. now apply W_join.
Qed.
Lemma t_imageRoles a : oka a -> tri (renderImageRoles rec a) W.
Proof.
  intros H. unfold renderImageRoles. eapply (tri_bind _ _ (Forall W)).
  - destruct (mget a "roles") as [v|] eqn:G; [|apply tri_ret; constructor]. destruct v; try (apply tri_ret; constructor).
    pose proof (oka_get _ _ _ H G) as V. apply t_roleList, (ok_list _ _ V), incl_refl.
  - intros r Hr. apply tri_ret. apply W_join. apply Forall_app. split; [|apply Forall_app; split; [|exact Hr]].
    + destruct (getAsString a "float") eqn:G; constructor; [|constructor]. eapply safe_getSome; [|eassumption]; eassumption.
    + destruct (getAsString a "align") eqn:G; constructor; [|constructor]. apply W_app; [wc|]. eapply safe_getSome; [|eassumption]; eassumption.
Qed.
Lemma t_title a : oka a -> tri (renderElementTitle rec a) W.
Proof.
  intros H. unfold renderElementTitle. destruct (mget a "title") as [v|] eqn:G; [|apply tri_ret; reflexivity].
  destruct v; try apply tri_fail.
  - apply tri_ret. eapply oka_str; eauto.
  - apply t_elements. eapply oka_slice; eauto.
Qed.
Hint Resolve t_elements t_listElements t_inline t_roles t_imageRoles t_title : ok.

Lemma t_usual a c k : oka a -> tri c W ->
  (forall i ti r co, W i -> W ti -> W r -> W co ->
     tri (k [(".ID", FS i); (".Title", FS ti); (".Roles", FS r); (".Content", FS co)]) W) -> tri (usual rec a c k) W.
Proof.
  intros Ha Hc Hk. unfold usual. eapply tri_bind; [exact Hc|intros co Hco].
  eapply tri_bind; [now apply t_roles|intros r Hr]. eapply tri_bind; [now apply t_title|intros ti Hti]. apply Hk; auto with ok.
Qed.
Ltac tusual := apply t_usual; [assumption| |intros ? ? ? ? ? ? ? ?; cbn [app attribution_fields]].

Lemma t_paraElements a es : oks es -> tri (renderParagraphElements E rec a es) W.
Proof.
  intros H. unfold renderParagraphElements. eapply tri_bind; [apply tri_ctx|intros ctx _]. eapply tri_bind; [now apply t_elements|intros s Hs].
  destruct (hasOption a "hardbreaks" || hasOption ctx "hardbreaks"); [|now apply tri_ret].
  eapply tri_bind; [texec|intros br Hbr]. apply tri_ret. apply W_replace; [apply W_app; [exact Hbr|wc]|exact Hs].
Qed.
Hint Resolve t_paraElements : ok.
Lemma t_icon class a adm : W class -> oka a -> tri (renderIcon E class a adm) W.
Proof.
  intros Hc Ha. unfold renderIcon. eapply tri_bind; [apply tri_ctx|intros ctx Hx]. pose proof (ctx_oka _ Hx) as Hx'.
  eapply (tri_bind _ _ (fun _ => True)).
  { repeat match goal with |- tri (if ?b then _ else _) _ => destruct b; [now apply tri_ret|] end. apply tri_fail. }
  intros t _.
  assert (D : W (defaultIconClass (class ++ "-caption"))).
  { unfold defaultIconClass. cbn [mget]. repeat match goal with |- context [if ?b then _ else _] => destruct b; [wc|] end. reflexivity. }
  assert (C : W (getD E a "caption" (getD E ctx (class ++ "-caption") (defaultIconClass (class ++ "-caption"))))) by auto with ok.
  pose proof (kp_iconpath _ _ _ S ctx class Hx Hc) as HS.
  texec; repeat match goal with |- W (if ?b then _ else _) => destruct b end; auto with ok.
Qed.
Lemma t_inlineIcon class a : W class -> oka a -> tri (renderInlineIcon E class a) W.
Proof. intros Hc Ha. unfold renderInlineIcon. eapply tri_bind; [now apply t_icon|intros i Hi]. texec. Qed.
Lemma t_caption a k c p : oka a -> W p -> tri (renderCaption a k c p) (fun cn => W (fst cn)).
Proof.
  intros Ha Hp. unfold renderCaption. eapply tri_bind; [apply tri_ctx|intros ctx Hx]. apply ctx_oka in Hx.
  set (x := match getAsString a "caption" with Some c0 => c0 | None => _ end).
  assert (X : W x).
  { unfold x. destruct (getAsString a "caption") eqn:G; [eapply safe_getSome; [|eassumption]; eassumption|].
    destruct (getAsString ctx k) as [y|] eqn:G'; [|reflexivity]. pose proof (safe_getSome _ _ _ Hx G') as Y.
    destruct (String.eqb y ""); [exact Y|]. apply W_app; [exact Y|]. apply W_app; [wc|]. apply W_app; [exact Hp|wc]. }
  destruct (contains x p); [|apply tri_ret; auto with ok]. eapply tri_bind; [apply tri_counter|intros n _]. apply tri_ret. cbn [fst].
   apply W_replace; [apply W_itoa|exact X].
Qed.
Hint Resolve t_icon t_caption : ok.

(** ** blocks *)
Lemma safe_lower x : W x -> W (e_toLower E x).
Proof. apply (kp_lower _ _ _ S). Qed.
Hint Resolve safe_lower : ok.
Lemma t_admBlock a es : oka a -> oks es -> tri (renderAdmonitionBlock E rec a es) W.
Proof.
  intros Ha He. unfold renderAdmonitionBlock. eapply tri_bind; [apply t_icon; auto with ok|intros i Hi]. tusual; [auto with ok|]. texec.
Qed.
Lemma t_admPara a es : oka a -> oks es -> tri (renderAdmonitionParagraph E rec a es) W.
Proof.
  intros Ha He. unfold renderAdmonitionParagraph. destruct (getAsString a "style") as [s|] eqn:G; [|apply tri_fail].
  apply safe_getSome in G; [|exact Ha]. eapply tri_bind; [apply t_icon; auto with ok|intros i Hi]. tusual; [auto with ok|]. texec.
Qed.
Lemma t_example a es : oka a -> oks es -> tri (renderExampleBlock E rec a es) W.
Proof.
  intros Ha He. unfold renderExampleBlock. eapply tri_bind; [now apply t_elements|intros c Hc]. eapply tri_bind; [now apply t_roles|intros r Hr].
  eapply tri_bind; [apply t_caption; [exact Ha|wc]|intros cn Hcn]. eapply tri_bind; [now apply t_title|intros ti Hti]. texec.
Qed.
Lemma t_examplePara a es : oka a -> oks es -> tri (renderExampleParagraph E rec a es) W.
Proof.
  intros Ha He. unfold renderExampleParagraph. tusual; [apply tri_mapS; [intros x X; apply W_app; [exact X|wc]|auto with ok]|]. texec.
Qed.
Lemma t_literalPara a es : oka a -> oks es -> tri (renderLiteralParagraph E rec a es) W.
Proof.
  intros Ha He. unfold renderLiteralParagraph. tusual; [|texec]. apply tri_mapS; [|auto with ok]. intros x X.
  destruct (mget a "style") as [v|]; [|exact X]. destruct v; try exact X. destruct (String.eqb s "literal_paragraph"); auto with ok.
Qed.
Lemma t_literal a es : oka a -> oks es -> tri (renderLiteralBlock E rec a es) W.
Proof. intros Ha He. unfold renderLiteralBlock. tusual; [|texec]. apply tri_mapS; auto with ok. Qed.
Lemma t_fenced a es : oka a -> oks es -> tri (renderFencedBlock E rec a es) W.
Proof. intros Ha He. unfold renderFencedBlock. apply tri_block. tusual; [apply tri_mapS; auto with ok|]. texec. Qed.
Lemma t_listingPara a es : oka a -> oks es -> tri (renderListingParagraph E rec a es) W.
Proof. intros Ha He. unfold renderListingParagraph. tusual; [auto with ok|]. texec. Qed.

Lemma t_calloutRef n : tri (renderCalloutRef E n) W.
Proof. unfold renderCalloutRef. texec. Qed.
Lemma t_callouts l : tri (renderCallouts E l) W.
Proof.
  induction l as [|n l IH]; cbn [renderCallouts]; [apply tri_ret; wc|]. eapply tri_bind; [apply t_calloutRef|intros s Hs].
  eapply tri_bind; [exact IH|intros u Hu]. apply tri_ret. now apply W_app.
Qed.
Lemma t_sourceLine l : oks l -> raw_text P l -> forall x, renderSourceLine E l = Ok x -> W (fst x).
Proof.
  induction l as [|e l IH]; intros H R x X; cbn [renderSourceLine] in X; [injection X as <-; wc|]. apply oks_cons in H as [H1 H2].
  assert (R' : raw_text P l) by (intros y Y; apply R; now right). specialize (IH H2 R').
  destruct e; try discriminate X.
  - change (renderPlainTextNoEscape E (StringElement content)) with (Ok content) in X. cbn [bind] in X.
    destruct (renderSourceLine E l) as [[t cs]| |]; [|discriminate X..]. cbn [bind] in X. injection X as <-. cbn [fst].
    apply W_app; [apply R; now left|exact (IH _ eq_refl)].
  - change (renderPlainTextNoEscape E (SpecialCharacter name)) with (Ok name) in X. cbn [bind] in X.
    destruct (renderSourceLine E l) as [[t cs]| |]; [|discriminate X..]. cbn [bind] in X. injection X as <-. cbn [fst].
    apply W_app; [exact (ok_local _ H1)|exact (IH _ eq_refl)].
  - destruct (renderSourceLine E l) as [[t cs]| |]; [|discriminate X..]. cbn [bind] in X. injection X as <-. exact (IH _ eq_refl).
Qed.
Lemma t_highlighted a l : Forall (fun x => oks x /\ raw_text P x) l -> forall i, tri (renderHighlighted E a i l) W.
Proof.
  induction 1 as [|x l [Hx1 Hx2] Hl IH]; intros i; cbn [renderHighlighted]; [apply tri_ret; wc|].
  eapply tri_bind; [apply tri_ctx|intros ctx _]. eapply (tri_bind _ _ (fun tc => W (fst tc))); [apply tri_lift; now apply t_sourceLine|intros tc Htc].
  eapply (tri_bind _ _ W); [apply tri_lift; intros h Hh; eapply (kp_highlight _ _ _ S); eauto|intros h Hh].
  eapply tri_bind; [apply t_callouts|intros cs Hcs]. eapply tri_bind; [apply IH|intros u Hu]. apply tri_ret.
  apply W_app; [exact Hh|]. apply W_app; [exact Hcs|]. apply W_app; [destruct l; wc|exact Hu].
Qed.
Definition line_ok (x : list val) : Prop := oks x /\ raw_text P x.
Lemma line_app x y : line_ok x -> line_ok y -> line_ok (x ++ y)%list.
Proof. intros [A B] [C D]. split; intros z Z; apply in_app_or in Z as [Z|Z]; auto. Qed.
Lemma line_string s : W s -> line_ok [StringElement s].
Proof. intros H. split; [intros x [<-|[]]; now apply ok_string|intros x [X|[]]; now injection X as <-]. Qed.
Lemma parts_ok ps : Forall W ps -> forall line, line_ok line -> Forall line_ok (fst (split_parts ps line)) /\ line_ok (snd (split_parts ps line)).
Proof.
  assert (N : line_ok []) by (split; intros x []).
  induction 1 as [|s ps Hs Hps IH]; intros line L; [split; [constructor|exact L]|].
  assert (A : line_ok (if String.eqb s "" then line else line ++ [StringElement s])%list).
  { destruct (String.eqb s ""); [exact L|]. apply line_app; [exact L|now apply line_string]. }
  cbn [split_parts]. destruct ps as [|s' ps]; [split; [constructor|exact A]|]. specialize (IH [] N).
  destruct (split_parts (s' :: ps) []) as [ls l']. cbn [fst snd] in *. destruct IH. split; [now constructor|assumption].
Qed.
Lemma split_lines es : oks es -> raw_text P es -> Forall line_ok (SplitElementsPerLine es).
Proof.
  intros H R. unfold SplitElementsPerLine. assert (N : line_ok []) by (split; intros x []). revert N. generalize (@nil val) as line. revert H R.
  induction es as [|e es IH]; intros H R line L; cbn [split_lines_loop]; [destruct line; [constructor|constructor; [exact L|constructor]]|].
  apply oks_cons in H as [H1 H2]. assert (R2 : raw_text P es) by (intros y Y; apply R; now right).
  assert (D : (forall s, e <> StringElement s) -> Forall line_ok (split_lines_loop es (line ++ [e]))).
  { intros NS. apply IH; [exact H2|exact R2|]. apply line_app; [exact L|]. split; [intros x [<-|[]]; exact H1|intros x [X|[]]; now apply NS in X]. }
  destruct e; try (apply D; discriminate). clear D.
  destruct (parts_ok (split_char (chr 10) content)) with (line := line) as [A B]; [|exact L|].
  { apply (AlphaOps.W_split P). apply R. now left. }
  destruct (split_parts (split_char (chr 10) content) line) as [ls l']. cbn [fst snd] in *. apply Forall_app. split; [exact A|]. now apply IH.
Qed.
Lemma t_sourceElements a es : oka a -> oks es -> raw_text P es ->
  tri (renderSourceBlockElements E rec a es) (fun p => W (fst p) /\ W (fst (snd p)) /\ W (snd (snd p))).
Proof.
  intros Ha He R. unfold renderSourceBlockElements. apply tri_block. eapply tri_bind; [apply tri_ctx|intros ctx Hx]. apply ctx_oka in Hx.
  eapply (tri_bind _ _ W); [|intros s Hs; apply tri_ret; cbn [fst snd]; auto with ok].
  match goal with |- tri (if ?b then _ else _) _ => destruct b end; [now apply t_elements|apply t_highlighted]. now apply split_lines.
Qed.
Lemma t_source a es : oka a -> oks es -> raw_text P es -> tri (renderSourceBlock E rec a es) W.
Proof.
  intros Ha He R. unfold renderSourceBlock. eapply tri_bind; [now apply t_sourceElements|intros p (P1 & P2 & P3)].
  eapply tri_bind; [now apply t_roles|intros r Hr]. eapply tri_bind; [now apply t_title|intros ti Hti]. texec.
Qed.
Lemma oka_mset a k v : oka a -> ok v -> oka (mset a k v).
Proof.
  intros H V w W. induction a as [|[k' x] a IH]; cbn [mset map snd In] in W.
  - destruct W as [<-|[]]. exact V.
  - destruct (String.eqb k k'); cbn [map snd In] in W; (destruct W as [<-|W]; [try exact V; apply H; now left|]).
    + apply H. now right.
    + apply IH; [intros y Y; apply H; now right|exact W].
Qed.
Lemma t_sourcePara a es : oka a -> oks es -> raw_text P es -> tri (renderSourceParagraph E rec a es) W.
Proof. intros Ha He R. unfold renderSourceParagraph. apply t_source; [|exact He|exact R]. apply oka_mset; [exact Ha|]. apply ok_str. wc. Qed.
Lemma t_listing a es : oka a -> oks es -> (styled a "source" -> raw_text P es) -> tri (renderListingBlock E rec a es) W.
Proof.
  intros Ha He R. unfold renderListingBlock. match goal with |- tri (if ?b then _ else _) _ => destruct b eqn:B end.
  { apply t_source; [exact Ha|exact He|]. apply R. unfold styled. destruct (mget a "style") as [v|]; [|discriminate B].
    destruct v; try discriminate B. cbn [eq_str] in B. apply String.eqb_eq in B. congruence. }
  apply tri_block. tusual; [apply tri_mapS; auto with ok|]. texec.
Qed.
Lemma t_mdquote a es : oka a -> oks es -> tri (renderMarkdownQuoteBlock E rec a es) W.
Proof. intros Ha He. unfold renderMarkdownQuoteBlock. tusual; [apply tri_mapS; auto with ok|]. texec. Qed.
Lemma t_quote a es : oka a -> oks es -> tri (renderQuoteBlock E rec a es) W.
Proof. intros Ha He. unfold renderQuoteBlock. tusual; [auto with ok|]. texec. Qed.
Lemma t_quotePara a es : oka a -> oks es -> tri (renderQuoteParagraph E rec a es) W.
Proof.
  intros Ha He. unfold renderQuoteParagraph. eapply tri_bind; [now apply t_paraElements|intros c Hc]. eapply tri_bind; [now apply t_title|intros ti Hti].
  cbn [app attribution_fields]. texec.
Qed.
Lemma t_verse a es : oka a -> oks es -> tri (renderVerseBlock E rec a es) W.
Proof.
  intros Ha He. unfold renderVerseBlock. eapply tri_bind; [now apply t_roles|intros r Hr]. apply tri_block.
  eapply tri_bind; [now apply t_elements|intros c Hc]. eapply tri_bind; [now apply t_title|intros ti Hti]. cbn [app attribution_fields]. texec.
Qed.

(** ** plain W *)
Lemma ok_inj {A} (x y : A) : Ok x = Ok y -> y = x.
Proof. congruence. Qed.
Definition symbol_text (name : string) : string := match mget symbols name with Some s => s | None => name end.
Lemma symbol_in name s : mget symbols name = Some s -> W s.
Proof.
  intros M. apply mget_In in M. assert (F : forallb (fun p => all_chars basicb (snd p)) symbols = true) by (vm_compute; reflexivity).
  rewrite forallb_forall in F. exact (W_const P HP _ (F _ M)).
Qed.
Lemma bal_symbol name : W name -> W (symbol_text name).
Proof. intros Hn. unfold symbol_text. destruct (mget symbols name) as [s|] eqn:M; [now apply (symbol_in name)|exact Hn]. Qed.
Definition deep (v : val) : Prop := forall s, occurs (StringElement s) v -> W s.
Definition deeps (l : list val) : Prop := forall x, In x l -> deep x.
Lemma deep_child v c : deep v -> In c (children v) -> deep c.
Proof. intros H I x X. apply H. econstructor; eauto. Qed.
Lemma deep_list v l : deep v -> incl l (children v) -> deeps l.
Proof. intros H I x X. apply (deep_child v); auto. Qed.
Lemma deeps_cons x l : deeps (x :: l) -> deep x /\ deeps l.
Proof. intros H. split; [apply H; now left|intros y Y; apply H; now right]. Qed.
Lemma safe_display loc : ok loc -> W (toDisplayString fmtv loc).
Proof.
  intros H. destruct loc; try wc. destruct (ok_local _ H) as [L1 L2]. cbn [toDisplayString].
  apply W_app; [destruct (String.eqb scheme "mailto:"); auto with ok|exact L2].
Qed.
Lemma bal_plain esc k : (forall f, esc = Some f -> forall n, W n -> W (f n)) -> forall v x, ok v -> deep v -> plain E k esc v = Ok x -> W x.
Proof.
  intros HE. induction k as [|k IH]; intros v x Hv Dv X; [discriminate X|].
  assert (G : forall l x, oks l -> deeps l -> (fix go (l : list val) : result string :=
         match l with
         | [] => Ok EmptyString
         | e :: r => do s <- plain E k esc e;
                     do t <- go r;
                     Ok ((match r, e with [], StringElement _ => trim_right_char " "%char s | _, _ => s end) ++ t)%string
         end) l = Ok x -> W x).
  { induction l as [|e l IHl]; intros y O D Y; [injection Y as <-; wc|]. apply oks_cons in O as [O1 O2]. apply deeps_cons in D as [D1 D2].
    destruct (plain E k esc e) as [s| |] eqn:PE; [|discriminate Y..]. cbn [bind] in Y.
    match type of Y with context [bind (?g l) _] => destruct (g l) as [u| |] eqn:U; [|discriminate Y..] end. cbn [bind] in Y. injection Y as <-.
    apply W_app; [|now apply IHl]. apply IH in PE; [|exact O1|exact D1]. destruct l; [|exact PE]. destruct e; try exact PE.
    now apply AlphaOps.W_trim_right. }
  cbn [plain] in X. destruct v; try discriminate X.
  - eapply G; [| |exact X]; [apply (ok_list _ _ Hv), incl_refl|apply (deep_list _ _ Dv), incl_refl].
  - injection X as <-. apply Dv. constructor.
  - destruct esc as [f|]; [|discriminate X]. injection X as <-. apply HE; [reflexivity|]. exact (ok_local _ Hv).
  - apply ok_inj in X. subst x. exact (bal_symbol _ (ok_local _ Hv)).
  - eapply G; [| |exact X]; [apply (ok_list _ _ Hv)|apply (deep_list _ _ Dv)]; cbn [children]; now apply incl_appl, incl_refl.
  - eapply G; [| |exact X]; [apply (ok_list _ _ Hv), incl_refl|apply (deep_list _ _ Dv), incl_refl].
  - assert (A : oka attrs) by (apply (ok_attrs _ _ Hv); cbn [children]; now apply incl_tl, incl_refl).
    assert (D : W (toDisplayString fmtv v)) by (apply safe_display, (ok_child _ _ Hv); cbn [children]; now left).
    destruct (mget attrs "text") as [w|] eqn:M; [|injection X as <-; exact D].
    destruct w; try (injection X as <-; exact D).
    + injection X as <-.  eapply oka_str; eauto.
    + eapply G; [| |exact X]; [eapply oka_slice; eauto|].
      apply (deep_list (VSlice l)); [|apply incl_refl]. apply (deep_child _ _ Dv). cbn [children]. right. eapply mget_snd; eauto.
  - injection X as <-. apply safe_getD; [|wc]. apply (ok_attrs _ _ Hv). cbn [children]. now apply incl_tl, incl_refl.
  - injection X as <-. apply safe_getD; [|wc]. apply (ok_attrs _ _ Hv). cbn [children]. apply incl_refl.
  - destruct (Z.eqb id InvalidFootnoteReference); [discriminate X|]. injection X as <-.
    match goal with |- W ?y => change y with ("<sup class=""footnote"">[" ++ itoa id ++ "]</sup>") end.
    apply W_app; [wc|]. apply W_app; [apply W_itoa|wc].
  - injection X as <-. wc.
Qed.
Lemma bal_plainText v x : ok v -> deep v -> renderPlainText E v = Ok x -> W x.
Proof. apply bal_plain. intros f [= <-] n. apply W_escape. Qed.
Lemma bal_plainElements l : oks l -> deeps l -> forall x, renderPlainElements E l = Ok x -> W x.
Proof.
  induction l as [|e l IH]; intros H D x X; cbn [renderPlainElements] in X; [injection X as <-; wc|]. apply oks_cons in H as [H1 H2]. apply deeps_cons in D as [D1 D2].
  destruct (plain E _ None e) as [s| |] eqn:PE; [|discriminate X..]. cbn [bind] in X.
  destruct (renderPlainElements E l) as [u| |]; [|discriminate X..]. cbn [bind] in X. injection X as <-. apply W_app; [|now apply IH].
  eapply bal_plain; [|exact H1|exact D1|exact PE]. discriminate.
Qed.
Lemma raw_deeps l : raw_deep P l -> deeps l.
Proof. intros H x X s Y. exact (H x s X Y). Qed.
Lemma t_versePara a es : oka a -> oks es -> raw_deep P es -> tri (renderVerseParagraph E rec a es) W.
Proof.
  intros Ha He D. unfold renderVerseParagraph. eapply (tri_bind _ _ W); [apply tri_lift; apply bal_plainElements; [exact He|now apply raw_deeps]|intros c Hc].
  eapply tri_bind; [now apply t_title|intros ti Hti]. cbn [app attribution_fields]. texec.
Qed.
Lemma t_sidebar a es : oka a -> oks es -> tri (renderSidebarBlock E rec a es) W.
Proof. intros Ha He. unfold renderSidebarBlock. tusual; [auto with ok|]. texec. Qed.
Lemma t_open a es : oka a -> oks es -> tri (renderOpenBlock E rec a es) W.
Proof. intros Ha He. unfold renderOpenBlock. tusual; [auto with ok|]. texec. Qed.
Lemma t_passContent l : oks l -> raw_text P l -> tri (renderPassthroughContent rec l) W.
Proof. intros H R. unfold renderPassthroughContent. apply tri_mapS; [auto with ok|now apply t_raw]. Qed.
Lemma t_passPara l : oks l -> raw_text P l -> tri (renderPassthroughParagraph rec l) W.
Proof. intros H R. unfold renderPassthroughParagraph. apply tri_mapS; [intros x X; apply W_app; [exact X|wc]|now apply t_passContent]. Qed.
Lemma t_pass k l : oks l -> raw_text P l -> tri (renderInlinePassthrough rec k l) W.
Proof.
  intros H R. unfold renderInlinePassthrough. eapply tri_bind; [now apply t_passContent|intros s Hs]. apply tri_ret.
  destruct (String.eqb k "+"); [now apply W_html|exact Hs].
Qed.
Lemma t_passBlock a es : oka a -> oks es -> tri (renderPassthroughBlock E rec a es) W.
Proof.
  intros Ha He. unfold renderPassthroughBlock. apply tri_block. eapply tri_bind; [now apply t_elements|intros c Hc].
  eapply tri_bind; [now apply t_roles|intros r Hr]. texec.
Qed.
Lemma t_delimited k a es : oka a -> oks es -> (k = "listing" -> styled a "source" -> raw_text P es) -> tri (renderDelimitedBlock E rec k a es) W.
Proof.
  intros Ha He N. unfold renderDelimitedBlock.
  destruct (String.eqb k "example"). { destruct (ahas a "style"); [now apply t_admBlock|now apply t_example]. }
  destruct (String.eqb k "fenced"); [now apply t_fenced|]. destruct (String.eqb k "literal"); [now apply t_literal|].
  destruct (String.eqb_spec k "listing") as [->|]; [apply t_listing; auto|]. destruct (String.eqb k "markdown-quote"); [now apply t_mdquote|].
  destruct (String.eqb k "pass"); [now apply t_passBlock|]. destruct (String.eqb k "quote"); [now apply t_quote|].
  destruct (String.eqb k "verse"); [now apply t_verse|]. destruct (String.eqb k "sidebar"); [now apply t_sidebar|].
  destruct (String.eqb k "open"); [now apply t_open|]. apply tri_fail.
Qed.
Lemma t_regular a es : oka a -> oks es -> tri (renderRegularParagraph E rec a es) W.
Proof. intros Ha He. unfold renderRegularParagraph. tusual; [apply tri_mapS; auto with ok|]. texec. Qed.
Lemma t_manpagePara es : oks es -> tri (renderManpageNameParagraph E rec es) W.
Proof. intros He. unfold renderManpageNameParagraph. eapply tri_bind; [now apply t_elements|intros c Hc]. texec. Qed.
Lemma t_embedded a es : oks es -> tri (renderEmbeddedParagraph E rec a es "") W.
Proof. intros He. unfold renderEmbeddedParagraph. eapply tri_bind; [now apply t_elements|intros c Hc]. texec. Qed.
Lemma t_paragraph a es : oka a -> oks es -> (styled a "pass" \/ styled a "source" -> raw_text P es) -> (styled a "verse" -> raw_deep P es) ->
  tri (renderParagraph E rec a es) W.
Proof.
  unfold styled. intros Ha He N1 N2 st x st' HJ X. unfold renderParagraph in X.
  destruct (r_within st || (0 <? r_list st)%Z); [now apply (t_embedded a es He st x st')|].
  destruct (mget a "style") as [v|] eqn:G; [|now apply (t_regular a es Ha He st x st')].
  destruct v; try (now apply (t_regular a es Ha He st x st')).
  destruct (String.eqb s "example"); [now apply (t_examplePara a es Ha He st x st')|]. destruct (String.eqb s "listing"); [now apply (t_listingPara a es Ha He st x st')|].
  destruct (String.eqb_spec s "source") as [->|]; [exact (t_sourcePara a es Ha He (N1 (or_intror eq_refl)) st x st' HJ X)|].
  destruct (String.eqb_spec s "verse") as [->|]; [exact (t_versePara a es Ha He (N2 eq_refl) st x st' HJ X)|].
  destruct (String.eqb s "quote"); [now apply (t_quotePara a es Ha He st x st')|].
  destruct (String.eqb_spec s "pass") as [->|]; [exact (t_passPara es He (N1 (or_introl eq_refl)) st x st' HJ X)|].
  destruct (String.eqb s "manpage"); [now apply (t_manpagePara es He st x st')|].
  destruct (existsb (String.eqb s) ["TIP"; "NOTE"; "IMPORTANT"; "WARNING"; "CAUTION"]); [now apply (t_admPara a es Ha He st x st')|].
  destruct (String.eqb s "literal_paragraph" || String.eqb s "literal"); [now apply (t_literalPara a es Ha He st x st')|now apply (t_regular a es Ha He st x st')].
Qed.

(** ** lists *)
Ltac use H := eapply tri_bind; [exact H|].
Lemma t_item t es : t = TOrderedListElement \/ t = TUnorderedListElement -> oks es -> tri (renderItem E rec t es) W.
Proof.
  intros T H. unfold renderItem. eapply tri_bind; [now apply t_listElements|intros c Hc]. destruct T as [-> | ->]; texec.
Qed.
Lemma t_orderedItems l : oks l -> tri (renderOrderedItems E rec l) W.
Proof.
  induction l as [|x l IH]; intros H; cbn [renderOrderedItems]; [apply tri_ret, W_nil|]. apply oks_cons in H as [H1 H2].
  destruct x; try apply tri_fail. eapply tri_bind; [apply t_item; [auto|]|intros s0 Hs].
  { apply (ok_list _ _ H1). cbn [children]. now apply incl_appl, incl_refl. }
  eapply tri_bind; [now apply IH|intros u Hu]. apply tri_ret. now apply W_app.
Qed.
Lemma safe_numbering x : W (numberingType x).
Proof.
  unfold numberingType. cbn [mget]. repeat match goal with |- context [if ?b then _ else _] => destruct b; [wc|] end. wc.
Qed.
Hint Resolve safe_numbering t_orderedItems : ok.
Lemma t_ordered a es : oka a -> oks es -> tri (renderOrderedList E rec a es) W.
Proof.
  intros Ha He. unfold renderOrderedList. eapply tri_bind; [now apply t_orderedItems|intros c Hc]. eapply tri_bind; [now apply t_roles|intros r Hr].
  eapply (tri_bind _ _ W).
  { apply tri_lift. intros s G. unfold getNumberingStyle in G. destruct (getAsString a "style") as [y|] eqn:Y.
    { injection G as <-. eapply safe_getSome; eauto. }
    destruct es as [|x es]; [discriminate G|]. destruct x; try discriminate G. injection G as <-. apply oks_cons in He as [H1 _]. exact (ok_local _ H1). }
  intros sty Hsty. eapply tri_bind; [now apply t_title|intros ti Hti]. texec.
Qed.
Lemma t_unorderedItems l : oks l -> tri (renderUnorderedItems E rec l) W.
Proof.
  induction l as [|x l IH]; intros H; cbn [renderUnorderedItems]; [apply tri_ret, W_nil|]. apply oks_cons in H as [H1 H2].
  destruct x; try apply tri_fail; (eapply tri_bind; [apply t_item; [auto|]; apply (ok_list _ _ H1); cbn [children]|intros s0 Hs;
    eapply tri_bind; [now apply IH|intros u Hu]; apply tri_ret; now apply W_app]);
    try (now apply incl_appl, incl_refl). now apply incl_appr, incl_appl, incl_refl.
Qed.
Lemma t_unordered a es : oka a -> oks es -> tri (renderUnorderedList E rec a es) W.
Proof.
  intros Ha He. unfold renderUnorderedList. eapply (tri_bind _ _ (fun _ => True)).
  { destruct es as [|x es]; [now apply tri_ret|]. destruct x; try apply tri_fail. now apply tri_ret. }
  intros ck _. eapply tri_bind; [now apply t_unorderedItems|intros c Hc]. eapply tri_bind; [now apply t_roles|intros r Hr].
  eapply tri_bind; [now apply t_title|intros ti Hti]. texec.
Qed.
Lemma t_calloutItems l : oks l -> tri (renderCalloutItems E rec l) W.
Proof.
  induction l as [|x l IH]; intros H; cbn [renderCalloutItems]; [apply tri_ret, W_nil|]. apply oks_cons in H as [H1 H2].
  destruct x; try apply tri_fail. eapply tri_bind; [apply t_listElements|intros c Hc].
  { apply (ok_list _ _ H1). cbn [children]. now apply incl_appl, incl_refl. }
  eapply (tri_bind _ _ W); [texec|intros s0 Hs]. eapply tri_bind; [now apply IH|intros u Hu]. apply tri_ret. now apply W_app.
Qed.
Lemma t_callout a es : oka a -> oks es -> tri (renderCalloutList E rec a es) W.
Proof. intros Ha He. unfold renderCalloutList. tusual; [now apply t_calloutItems|]. texec. Qed.
Lemma t_labeledItems t l : forall cont, oks l -> tri (renderLabeledItems E rec t cont l) W.
Proof.
  induction l as [|x l IH]; intros cont H; cbn [renderLabeledItems]; [apply tri_ret, W_nil|]. apply oks_cons in H as [H1 H2].
  destruct x; try apply tri_fail. eapply (tri_bind _ _ (fun p => W (fst p))).
  { unfold renderLabeledListItem. eapply tri_bind; [apply t_inline; apply (ok_list _ _ H1); cbn [children]; now apply incl_appl, incl_refl|intros tm Htm].
    eapply tri_bind; [apply t_listElements; apply (ok_list _ _ H1); cbn [children]; now apply incl_appr, incl_appl, incl_refl|intros c Hc].
    eapply (tri_bind _ _ W); [texec|intros u Hu]. now apply tri_ret. }
  intros p Hp. eapply tri_bind; [apply IH, H2|intros u Hu]. apply tri_ret. now apply W_app.
Qed.
Lemma t_labeled a es : oka a -> oks es -> tri (renderLabeledList E rec a es) W.
Proof.
  intros Ha He. unfold renderLabeledList. eapply (tri_bind _ _ (fun _ => True)).
  { unfold getLabeledListTmpl. destruct (mget a "style"); [|now apply tri_ret].
    repeat match goal with |- tri (if ?b then _ else _) _ => destruct b; [now apply tri_ret|] end. apply tri_fail. }
  intros tt _. tusual; [now apply t_labeledItems|]. texec.
Qed.
Lemma t_list k a es : ok (ListBlock k a es) -> tri (renderList E rec k a es) W.
Proof.
  intros Hv. assert (Ha : oka a) by (apply (ok_attrs _ _ Hv); cbn [children]; now apply incl_appr, incl_refl).
  assert (He : oks es) by (apply (ok_list _ _ Hv); cbn [children]; now apply incl_appl, incl_refl).
  unfold renderList. destruct (String.eqb k "ordered_list"); [now apply t_ordered|]. destruct (String.eqb k "unordered_list"); [now apply t_unordered|].
  destruct (String.eqb k "labeled_list"); [now apply t_labeled|].
  destruct (String.eqb k "callout_list"); [now apply t_callout|apply tri_fail].
Qed.

(** ** tables *)
Definition col_ok (c : rcol) : Prop := W (rc_halign c) /\ W (rc_valign c) /\ W (rc_width c).
Lemma cell_exec t col s : t = TTableHeaderCell \/ t = TTableFooterCell \/ t = TTableCell -> col_ok col -> W s -> tri (exec E t (cell_fields col s)) W.
Proof. intros T (C1 & C2 & _) Hs. unfold cell_fields. destruct T as [-> |[-> | ->]]; texec; assumption. Qed.
Lemma t_edgeCell t c col : t = TTableHeaderCell \/ t = TTableFooterCell -> ok c -> col_ok col -> tri (renderEdgeCell E rec t c col) W.
Proof.
  intros T H C. unfold renderEdgeCell. destruct c; try apply tri_fail. destruct elements as [|p l]; [apply tri_fail|]. destruct p; try apply tri_fail.
  destruct l; [|apply tri_fail]. eapply tri_bind; [apply t_inline|intros s0 Hs; apply cell_exec; tauto].
  eapply ok_list; [eapply (ok_child _ _ H); now left|]. cbn [children]. now apply incl_appl, incl_refl.
Qed.
Lemma t_edgeCells t cols l : t = TTableHeaderCell \/ t = TTableFooterCell -> Forall col_ok cols -> forall i, oks l -> tri (renderEdgeCells E rec t cols i l) W.
Proof.
  intros T C. induction l as [|c l IH]; intros i H; cbn [renderEdgeCells]; [apply tri_ret, W_nil|]. apply oks_cons in H as [H1 H2].
  destruct cols as [|d cols']; [apply tri_panic|]. eapply tri_bind; [apply t_edgeCell; [exact T|exact H1|]|intros s0 Hs].
  { apply Forall_nth; [exact C|]. apply Nat.mod_upper_bound. discriminate. }
  eapply tri_bind; [now apply IH|intros u Hu]. apply tri_ret. now apply W_app.
Qed.
Lemma t_edgeRow t tc row cols : t = TTableHeader /\ tc = TTableHeaderCell \/ t = TTableFooter /\ tc = TTableFooterCell -> ok row -> Forall col_ok cols ->
  tri (renderEdgeRow E rec t tc row cols) W.
Proof.
  intros T H C. unfold renderEdgeRow. destruct row; try (apply tri_ret, W_nil).
  eapply tri_bind; [apply t_edgeCells; [tauto|exact C|]; apply (ok_list _ _ H), incl_refl|intros c Hc].
  destruct T as [[-> ->]|[-> ->]]; texec.
Qed.
Lemma t_cellBlock v : ok v -> tri (renderTableCellBlock E rec v) W.
Proof.
  intros H. unfold renderTableCellBlock. destruct v; try (eapply tri_bind; [now apply Hrec|intros s0 Hs; texec]).
  eapply tri_bind; [apply t_elements; apply (ok_list _ _ H); cbn [children]; now apply incl_appl, incl_refl|intros c Hc].
  eapply tri_bind; [apply t_title; apply (ok_attrs _ _ H); cbn [children]; now apply incl_appr, incl_refl|intros ti Hti].
  assert (Ha : oka attrs) by (apply (ok_attrs _ _ H); cbn [children]; now apply incl_appr, incl_refl).
  eapply (tri_bind _ _ W); [texec|intros s0 Hs]. apply tri_ret. now apply AlphaOps.W_suffix.
Qed.
Lemma t_cellBlocks l : oks l -> tri (renderCellBlocks E rec l) W.
Proof.
  induction l as [|x l IH]; intros H; cbn [renderCellBlocks]; [apply tri_ret, W_nil|]. apply oks_cons in H as [H1 H2].
  eapply tri_bind; [now apply t_cellBlock|intros s0 Hs]. eapply tri_bind; [now apply IH|intros u Hu]. apply tri_ret. now apply W_app.
Qed.
Lemma t_tableCell c col : ok c -> col_ok col -> tri (renderTableCell E rec c col) W.
Proof.
  intros H C. unfold renderTableCell. destruct c; try apply tri_fail. eapply tri_bind; [apply t_cellBlocks; apply (ok_list _ _ H), incl_refl|intros s0 Hs].
  destruct (String.eqb (rc_style col) "h"); apply cell_exec; tauto.
Qed.
Lemma t_cells cols l : Forall col_ok cols -> forall i, oks l -> tri (renderCells E rec cols i l) W.
Proof.
  intros C. induction l as [|c l IH]; intros i H; cbn [renderCells]; [apply tri_ret, W_nil|]. apply oks_cons in H as [H1 H2].
  destruct (nth_error cols i) as [col|] eqn:N; [|apply tri_panic]. eapply tri_bind; [apply t_tableCell; [exact H1|]|intros s0 Hs].
  { rewrite Forall_forall in C. apply C. eapply nth_error_In; eauto. }
  eapply tri_bind; [now apply IH|intros u Hu]. apply tri_ret. now apply W_app.
Qed.
Lemma t_rows cols l : Forall col_ok cols -> oks l -> tri (renderRows E rec cols l) W.
Proof.
  intros C. induction l as [|c l IH]; intros H; cbn [renderRows]; [apply tri_ret, W_nil|]. apply oks_cons in H as [H1 H2].
  destruct c; try apply tri_fail. eapply tri_bind; [apply (t_cells cols _ C 0); apply (ok_list _ _ H1), incl_refl|intros c Hc].
  eapply (tri_bind _ _ W); [texec|intros s0 Hs]. eapply tri_bind; [now apply IH|intros u Hu]. apply tri_ret. now apply W_app.
Qed.
Lemma t_table v : ok v -> tri (renderTable E rec v) W.
Proof.
  intros H. unfold renderTable. destruct v; try apply tri_fail.
  assert (Ha : oka attrs) by (apply (ok_attrs _ _ H); cbn [children]; now apply incl_tl, incl_tl, incl_appr, incl_refl).
  eapply (tri_bind _ _ (fun cn => W (fst cn))).
  { destruct (ahas attrs "title"); [apply t_caption; [exact Ha|wc]|apply tri_ret, W_nil]. }
  intros cn Hcn. eapply (tri_bind _ _ (Forall col_ok)); [apply tri_lift; intros cols X; exact (kp_columns _ _ _ S _ _ H X)|intros cols C].
  eapply tri_bind; [apply t_edgeRow; [tauto| |exact C]; eapply (ok_child _ _ H); now left|intros h Hh].
  eapply tri_bind; [apply t_edgeRow; [tauto| |exact C]; eapply (ok_child _ _ H); right; now left|intros f Hf].
  eapply (tri_bind _ _ W).
  { eapply tri_bind; [apply (t_rows cols _ C); apply (ok_list _ _ H); cbn [children]; now apply incl_tl, incl_tl, incl_appl, incl_refl|intros c Hc]. texec. }
  intros b Hb. eapply tri_bind; [now apply t_roles|intros r Hr]. eapply tri_bind; [now apply t_title|intros ti Hti].
  texec; [apply Forall_map; revert C; apply Forall_impl; intros c (_ & _ & C); constructor; [exact C|constructor]|
          repeat match goal with |- context [if ?b then _ else _] => destruct b end; wc].
Qed.

(** ** images *)
Lemma safe_alt a src : oka a -> W src -> forall r, renderImageAlt E a src = Ok r -> W r.
Proof.
  intros Ha Hs r X. unfold renderImageAlt in X. destruct (getAsString a "alt") as [y|] eqn:G; [injection X as <-; eapply safe_getSome; eauto|].
  eapply (kp_alt _ _ _ S); eauto.
Qed.
Lemma t_imageBlock loc a : ok loc -> oka a -> tri (renderImageBlock E rec loc a) W.
Proof.
  intros Hl Ha. unfold renderImageBlock. eapply tri_bind; [now apply t_title|intros ti Hti].
  eapply (tri_bind _ _ (fun cn => W (fst cn))).
  { destruct (String.eqb ti ""); [apply tri_ret, W_nil|apply t_caption; [exact Ha|wc]]. }
  intros cn Hcn. eapply tri_bind; [now apply t_imageRoles|intros r Hr]. eapply tri_bind; [apply tri_ctx|intros ctx Hx].
  pose proof (kp_src _ _ _ S ctx loc Hx Hl) as Hsrc.
  eapply (tri_bind _ _ W); [apply tri_lift; now apply safe_alt|intros alt Halt]. texec.
Qed.
Lemma t_inlineImage loc a : ok loc -> oka a -> tri (renderInlineImage E rec loc a) W.
Proof.
  intros Hl Ha. unfold renderInlineImage. eapply tri_bind; [now apply t_imageRoles|intros r Hr]. eapply tri_bind; [apply tri_ctx|intros ctx Hx].
  pose proof (kp_src _ _ _ S ctx loc Hx Hl) as Hsrc.
  eapply (tri_bind _ _ W); [apply tri_lift; now apply safe_alt|intros alt Halt]. eapply tri_bind; [now apply t_title|intros ti Hti]. texec.
Qed.

(** ** inline elements *)
Lemma t_label l : oks l -> (forall a loc, In (InlineLink a loc) l -> deep (InlineLink a loc)) -> tri (renderLabel E rec l) W.
Proof.
  induction l as [|x l IH]; intros H D; cbn [renderLabel]; [apply tri_ret, W_nil|]. apply oks_cons in H as [H1 H2].
  eapply (tri_bind _ _ W); [|intros s0 Hs; eapply tri_bind; [apply IH; [exact H2|intros a loc Y; apply D; now right]|intros u Hu]; apply tri_ret; now apply W_app].
  destruct x; try (now apply Hrec). apply tri_lift. intros y. apply bal_plainText; [exact H1|]. apply D. now left.
Qed.
Lemma t_xref id label : ok id -> ok label -> tri (renderInternalCrossReference E rec id label) W.
Proof.
  intros Hi Hl. unfold renderInternalCrossReference. destruct id; try apply tri_fail. pose proof (ok_local _ Hi) as Hs. cbn [local] in Hs.
  eapply (tri_bind _ _ W); [|intros l0 Hl0; texec].
  assert (R : tri (renderRefLabel E rec s) W).
  { unfold renderRefLabel. destruct (mget (e_refs E) s) as [v|] eqn:G.
    - pose proof (kp_refs _ _ _ S _ _ G) as V. destruct v; try apply tri_fail; [apply tri_ret; exact (ok_local _ V)|].
      apply t_label; [apply (ok_list _ _ V), incl_refl|]. intros a loc Y z Z. exact (kp_labels _ _ _ S _ _ _ _ G Y _ z (or_introl eq_refl) Z).
    - apply tri_ret, W_app; [wc|]. apply W_app; [exact Hs|wc]. }
  destruct label; try exact R. apply tri_ret. exact (ok_local _ Hl).
Qed.
Lemma safe_toString loc : ok loc -> W (toString fmtv loc).
Proof. intros H. destruct loc; try wc. destruct (ok_local _ H) as [L1 L2]. cbn [toString]. now apply W_app. Qed.
Lemma safe_xref loc p q : ok loc -> W p -> W q -> W (xrefTarget E loc p q).
Proof.
  intros H P1 Q1. unfold xrefTarget. pose proof (safe_display loc H) as D. destruct (String.eqb _ "").
  - apply W_app; [exact P1|]. now apply W_app.
  - apply W_app; [|wc]. now apply AlphaOps.W_stake.
Qed.
Lemma t_extXref loc a : ok loc -> oka a -> tri (renderExternalCrossReference E rec loc a) W.
Proof.
  intros Hl Ha. unfold renderExternalCrossReference.
  assert (D1 : W (xrefTarget E loc "[" "]")) by (apply safe_xref; [exact Hl|wc|wc]).
  assert (D2 : W (xrefTarget E loc "#" "")) by (apply safe_xref; [exact Hl|wc|wc]).
  eapply (tri_bind _ _ W); [|intros l Hl0; texec].
  destruct (mget a "xrefLabel") as [v|] eqn:G; [|apply tri_ret; auto with ok]. destruct v; try (apply tri_ret; auto with ok).
  -  eapply oka_str; eauto.
  - apply t_inline. eapply oka_slice; eauto.
Qed.
Lemma t_quoted k es a : oks es -> oka a -> tri (renderQuotedText E rec k es a) W.
Proof.
  intros He Ha. unfold renderQuotedText. eapply tri_bind; [now apply t_elements|intros c Hc]. eapply tri_bind; [now apply t_roles|intros r Hr].
  destruct (quotedTemplate k) as [t|] eqn:Q; [|apply tri_fail]. unfold quotedTemplate in Q.
  repeat match type of Q with (if ?b then _ else _) = _ => destruct b; [injection Q as <-; texec|] end. discriminate Q.
Qed.
Lemma t_link a loc : ok loc -> oka a -> tri (renderLink E rec a loc) W.
Proof.
  intros Hl Ha. unfold renderLink. eapply tri_bind; [now apply t_roles|intros r Hr].
  pose proof (W_escape _ (safe_toString loc Hl)) as U.
  eapply (tri_bind _ _ (fun tc => W (fst tc) /\ W (snd tc))); [|intros tc [T1 T2]; texec].
  destruct (mget a "text") as [v|] eqn:G.
  - eapply (tri_bind _ _ W); [|intros x X; apply tri_ret; split; assumption].
    destruct v; try (apply tri_ret, W_nil).
    + apply tri_ret, W_escape. eapply oka_str; eauto.
    + apply t_inline. eapply oka_slice; eauto.
  - apply tri_ret. cbn [fst snd]. split; [now apply W_escape, safe_display|].
    assert (B : W (match scheme_of loc with Some s => if String.eqb s "mailto:" then "" else "bare" | None => "" end)).
    { destruct (scheme_of loc) as [y|]; [|wc]. destruct (String.eqb y "mailto:"); wc. }
    destruct (String.eqb r ""); [exact B|]. apply W_app; [exact B|]. apply W_app; [wc|exact Hr].
Qed.
Lemma safe_ref r : ok r -> W (ref_str r).
Proof. intros H. destruct r; try wc. exact (ok_local _ H). Qed.
Lemma t_noteRef id r dup : ok r -> tri (renderFootnoteReference E id r dup) W.
Proof.
  intros H. apply safe_ref in H. unfold renderFootnoteReference. destruct (negb (Z.eqb id InvalidFootnoteReference) && negb dup); [texec|]. destruct dup; texec.
Qed.
Lemma t_macro v k : ok v -> tri (renderUserMacro E rec v k) W.
Proof.
  intros H. unfold renderUserMacro. destruct (e_macro E v) as [r|] eqn:G.
  - apply tri_lift. intros x ->. eapply (kp_macro _ _ _ S); eauto.
  - pose proof (kp_raw _ _ _ S v H) as R. destruct (String.eqb k "block"); [|now apply tri_ret].
    apply t_paragraph; [intros x []| |intros [X|X]; discriminate X|intros X; discriminate X]. intros x [<-|[]]. now apply ok_string.
Qed.
Lemma t_button a : oka a -> tri (renderInlineButton E a) W.
Proof.
  intros Ha. unfold renderInlineButton. texec. destruct (mget a "label") as [l|] eqn:G; [|wc]. pose proof (oka_get _ _ _ Ha G) as V.
  destruct l; try (apply (kp_fmtv _ _ _ S); exact V); [wc|exact (ok_local _ V)].
Qed.
Lemma t_menu path : Forall W path -> tri (exec E TInlineMenu [(".Path", FL (map (fun s => [("", s)]) path))]) W.
Proof.
  intros H. apply tri_exec. fields. apply Forall_map. revert H. apply Forall_impl. intros x X. constructor; [exact X|constructor].
Qed.

(** ** sections *)
Hypothesis HN : forall k v, mget (e_numbers E) k = Some v -> W v.
Lemma t_sectionTitle lvl a t : oka a -> oks t -> tri (renderSectionTitle E rec lvl a t) W.
Proof.
  intros Ha Ht. unfold renderSectionTitle. eapply tri_bind; [now apply t_inline|intros x Hx].
  assert (Hn : W (optS (mget (e_numbers E) (optS (getAsString a "id"))))).
  { destruct (mget (e_numbers E) (optS (getAsString a "id"))) eqn:G; [eapply HN; eauto|wc]. }
  pose proof (AlphaOps.W_trimSpace P x Hx) as HT. texec.
Qed.
Lemma t_section lvl a t es : oka a -> oks es -> (forall l, t = Some l -> oks l) -> tri (renderSection E rec lvl a t es) W.
Proof.
  intros Ha He Ht. unfold renderSection. eapply tri_bind; [apply t_sectionTitle; [exact Ha|destruct t as [l|]; [now apply Ht|intros x []]]|intros h Hh].
  eapply tri_bind; [now apply t_elements|intros c Hc]. eapply tri_bind; [now apply t_roles|intros r Hr]. texec.
Qed.
Lemma t_preamble es toc : oks es -> tri toc W -> tri (renderPreamble E rec es toc) W.
Proof.
  intros He Ht. unfold renderPreamble. eapply tri_bind; [now apply t_elements|intros c Hc]. eapply tri_bind; [exact Ht|intros t Ht0]. texec.
Qed.

(** ** changes of the attributes of the context *)
Lemma In_mset (a : attributes) k v x : In x (map snd (mset a k v)) -> x = v \/ In x (map snd a).
Proof.
  induction a as [|[k' y] a IH]; cbn [mset map snd In]; [intuition|]. destruct (String.eqb k k'); cbn [map snd In]; intuition.
Qed.
Lemma In_mdel (a : attributes) k x : In x (map snd (mdel a k)) -> In x (map snd a).
Proof.
  induction a as [|[k' y] a IH]; cbn [mdel map snd In]; [auto|]. destruct (String.eqb k k'); cbn [map snd In]; intuition.
Qed.
Definition keep (k : string) : Prop := conv = true -> k <> "unicode".
Lemma ctx_mset a k v : ctx_ok a -> ok v -> keep k -> ctx_ok (mset a k v).
Proof.
  intros [A B] V K. split.
  - intros x X. apply In_mset in X as [->|X]; auto.
  - intros C. specialize (B C). specialize (K C). unfold getAsBool in *. now rewrite mget_mset_neq by congruence.
Qed.
Lemma ctx_mdel a k : ctx_ok a -> keep k -> ctx_ok (mdel a k).
Proof.
  intros [A B] K. split.
  - intros x X. apply In_mdel in X. auto.
  - intros C. specialize (B C). specialize (K C). unfold getAsBool in *. rewrite mget_mdel. apply String.eqb_neq in K. now rewrite K.
Qed.
Lemma ok_roles l : oks l -> ok (VRoles l).
Proof. intros O x X. inversion X as [|? c ? C]; subst; [exact Logic.I|]. eapply (O c); eauto. Qed.
Lemma ok_options l : oks l -> ok (VOptions l).
Proof. intros O x X. inversion X as [|? c ? C]; subst; [exact Logic.I|]. eapply (O c); eauto. Qed.
Lemma oks_app l m : oks l -> oks m -> oks (l ++ m)%list.
Proof. intros H1 H2 x X. apply in_app_or in X as [X|X]; auto. Qed.
Lemma ctx_aset a k v : ctx_ok a -> ok v -> keep k -> ctx_ok (aset a k v).
Proof.
  intros C V K. unfold aset, AttrRole, AttrRoles, AttrOption, AttrOptions.
  assert (G : forall k l, mget a k = Some (VRoles l) -> oks l).
  { intros k0 l X. apply (oka_get a) in X; [|now apply ctx_oka]. apply (ok_list _ _ X), incl_refl. }
  assert (GO : forall k l, mget a k = Some (VOptions l) -> oks l).
  { intros k0 l X. apply (oka_get a) in X; [|now apply ctx_oka]. apply (ok_list _ _ X), incl_refl. }
  assert (K1 : keep "roles") by (intros _; discriminate). assert (K2 : keep "options") by (intros _; discriminate).
  assert (D1 : ok (VRoles [v])) by (apply ok_roles; intros x [<-|[]]; exact V).
  assert (D2 : ok (VOptions [v])) by (apply ok_options; intros x [<-|[]]; exact V).
  assert (D3 : forall l, oks l -> oks (l ++ [v])%list) by (intros l L; apply oks_app; [exact L|intros x [<-|[]]; exact V]).
  destruct (String.eqb k "role").
  { destruct (mget a "roles") as [w|] eqn:M; [|now apply ctx_mset]. destruct w; try (now apply ctx_mset). apply ctx_mset; [exact C| |exact K1].
    apply ok_roles, D3. eapply G; eauto. }
  destruct (String.eqb k "roles").
  { destruct v; try exact C. destruct (mget a "roles") as [w|] eqn:M; [|now apply ctx_mset]. destruct w; try (now apply ctx_mset).
    apply ctx_mset; [exact C| |exact K1]. apply ok_roles, oks_app; [eapply G; eauto|]. apply (ok_list _ _ V), incl_refl. }
  destruct (String.eqb k "option").
  { destruct (mget a "options") as [w|] eqn:M; [|now apply ctx_mset]. destruct w; try (now apply ctx_mset). apply ctx_mset; [exact C| |exact K2].
    apply ok_options, D3. eapply GO; eauto. }
  destruct (String.eqb k "options").
  { destruct v; try (now apply ctx_mset). apply ctx_mset; [exact C| |exact K2]. apply ok_options. intros x X. apply in_map_iff in X as (y & <- & Y).
    apply ok_str. pose proof (AlphaOps.W_split P "," s (ok_local _ V)) as F. rewrite Forall_forall in F. now apply F. }
  now apply ctx_mset.
Qed.
Lemma ctx_aaddall b : oka b -> (forall k v, In (k, v) b -> keep k) -> forall a, ctx_ok a -> ctx_ok (aaddall a b).
Proof.
  unfold aaddall. induction b as [|[k v] b IH]; intros O I a C; cbn [fold_left fst snd]; [exact C|].
  apply IH; [intros x X; apply O; now right|intros k' x X; apply (I k' x); now right|].
  apply ctx_aset; [exact C|apply O; now left|apply (I k v); now left].
Qed.

Ltac lst := match goal with H : benign _ _ |- _ => apply (ok_list _ _ H) end; cbn [children]; auto using incl_appl, incl_refl, incl_appr, incl_tl.
Ltac ats := match goal with H : benign _ _ |- _ => apply (ok_attrs _ _ H) end; cbn [children]; auto using incl_appl, incl_refl, incl_appr, incl_tl.
Theorem t_with v : ok v -> tri (renderElementWith E rec v) W.
Proof.
  intros Hv. destruct v; cbn [renderElementWith]; try apply tri_fail.
  - (* StringElement *) unfold renderString. eapply tri_bind; [apply tri_ctx|intros ctx Hx]. apply tri_ret.
    destruct (ok_local _ Hv) as [C|C]; [|apply (W_text P HP); exact C]. destruct Hx as [_ Hx]. rewrite (Hx C). apply (W_ascii P HP), HC, C.
  - (* SpecialCharacter *) apply tri_lift. intros x X. unfold renderSpecialCharacter in X.
    repeat match type of X with (if ?b then _ else _) = _ => destruct b; [injection X as <-; wc|] end. discriminate X.
  - (* Symbol *) apply tri_lift. intros x X. unfold renderSymbol in X. destruct (mget symbols name) eqn:M; [|discriminate X]. injection X as <-. now apply (symbol_in name).
  - (* PredefinedAttribute *) apply tri_ret. unfold predefinedAttribute.
    destruct (mget predefined_table name) as [y|] eqn:M; [|wc]. apply mget_In in M.
    assert (F : forallb (fun p => all_chars basicb (snd p)) predefined_table = true) by (vm_compute; reflexivity).
    rewrite forallb_forall in F. exact (W_const P HP _ (F _ M)).
  - (* QuotedText *) apply t_quoted; [lst|ats].
  - (* InlinePassthrough *) apply t_pass; [lst|exact (ok_local _ Hv)].
  - (* InlineLink *) apply t_link; [apply (ok_child _ _ Hv); now left|ats].
  - (* InternalCrossReference *) apply t_xref; [apply (ok_child _ _ Hv); now left|apply (ok_child _ _ Hv); right; now left].
  - (* ExternalCrossReference *) apply t_extXref; [apply (ok_child _ _ Hv); now left|ats].
  - (* InlineImage *) apply t_inlineImage; [apply (ok_child _ _ Hv); now left|ats].
  - (* Icon *) apply t_inlineIcon; [exact (ok_local _ Hv)|ats].
  - (* IndexTerm *) apply t_inline. lst.
  - (* ConcealedIndexTerm *) apply tri_ret, W_nil.
  - (* FootnoteReference *) apply t_noteRef. apply (ok_child _ _ Hv). now left.
  - (* LineBreak *) texec.
  - (* InlineButton *) apply t_button; ats.
  - (* InlineMenu *) apply t_menu. exact (ok_local _ Hv).
  - (* UserMacro *) now apply t_macro.
  - (* Callout *) apply t_calloutRef.
  - (* Paragraph *) destruct (ok_local _ Hv) as [N1 N2]. apply t_paragraph; [ats|lst|exact N1|exact N2].
  - (* DelimitedBlock *) apply t_delimited; [ats|lst|exact (ok_local _ Hv)].
  - (* Section *) apply t_section; [ats|lst|]. intros l ->. lst.
  - (* ImageBlock *) apply t_imageBlock; [apply (ok_child _ _ Hv); now left|ats].
  - (* ThematicBreak *) texec.
  - (* FrontMatter *) eapply tri_bind; [apply tri_upd|intros _ _; apply tri_ret, W_nil].
    intros a Ha. apply ctx_aaddall; [ats| |exact Ha]. intros k x X C ->. exact (ok_local _ Hv C x X).
  - (* Preamble *) apply t_preamble; [lst|apply tri_ret, W_nil].
  - (* AttributeDeclaration *) eapply tri_bind; [apply tri_upd|intros _ _; apply tri_ret, W_nil].
    intros a Ha. apply ctx_mset; [exact Ha|apply (ok_child _ _ Hv); now left|exact (ok_local _ Hv)].
  - (* AttributeReset *) eapply tri_bind; [apply tri_upd|intros _ _; apply tri_ret, W_nil]. intros a Ha. apply ctx_mdel; [exact Ha|exact (ok_local _ Hv)].
  - (* ListBlock *) now apply t_list.
  - (* Table *) now apply t_table.
Qed.
End Rec.

Hypothesis HN : forall k v, mget (e_numbers E) k = Some v -> W v.
Theorem t_element k : forall v, ok v -> tri (renderElement E k v) W.
Proof.
  induction k as [|k IH]; intros v Hv; cbn [renderElement]; [apply tri_panic|]. apply t_with; [exact IH|exact HN|exact Hv].
Qed.

(** ** the table of contents *)
Section Doc.
Variable depth : nat.
Notation rec := (renderElement E depth).
Let Hrec := t_element depth.

Fixpoint tocr_ok (t : tocr) : Prop :=
  match t with TocR id _ number title sub => W id /\ W number /\ W title /\
    (fix all (l : list tocr) : Prop := match l with [] => True | x :: r => tocr_ok x /\ all r end) sub end.
Lemma tocr_ok_eq id lvl number title sub : tocr_ok (TocR id lvl number title sub) <-> W id /\ W number /\ W title /\ Forall tocr_ok sub.
Proof.
  cbn [tocr_ok]. assert (G : forall l, (fix all (l : list tocr) : Prop := match l with [] => True | x :: r => tocr_ok x /\ all r end) l <-> Forall tocr_ok l).
  { induction l as [|x l IH]; [split; auto|]. rewrite IH. split; [intros [A B]; now constructor|intros F; inversion F; auto]. }
  rewrite G. tauto.
Qed.
Lemma safe_number id : W (optS (mget (e_numbers E) id)).
Proof. destruct (mget (e_numbers E) id) eqn:G; [eapply HN; eauto|wc]. Qed.
Lemma t_prerender t : Forall W (toc_ids t) -> tri (prerenderEntry E rec t) tocr_ok.
Proof.
  induction t as [id lvl sub IH] using tocsec_ind'. intros H. cbn [toc_ids] in H. inversion H as [|? ? Hid Hsub]; subst. cbn [prerenderEntry].
  eapply (tri_bind _ _ (Forall tocr_ok)).
  - clear H. revert Hsub. induction IH as [|x l Hx Hl IHl]; intros Hsub; [apply tri_ret; constructor|]. cbn [flat_map] in Hsub.
    apply Forall_app in Hsub as [H1 H2]. eapply tri_bind; [now apply Hx|intros y Hy]. eapply tri_bind; [now apply IHl|intros ys Hys]. apply tri_ret. now constructor.
  - intros sub' Hs'. destruct (mget (e_refs E) id) as [v|] eqn:G; [|apply tri_fail]. pose proof (kp_refs _ _ _ S _ _ G) as V.
    eapply (tri_bind _ _ W).
    { destruct v; try (now apply Hrec). apply (t_elements _ Hrec). apply (ok_list _ _ V), incl_refl. }
    intros ti Hti. apply tri_ret. apply tocr_ok_eq. split; [exact Hid|]. split; [apply safe_number|]. auto.
Qed.
Lemma t_prerenders l : Forall (fun t => Forall W (toc_ids t)) l -> tri (prerenderEntries E rec l) (Forall tocr_ok).
Proof.
  induction 1 as [|x l Hx Hl IH]; cbn [prerenderEntries]; [apply tri_ret; constructor|]. eapply tri_bind; [now apply t_prerender|intros y Hy].
  eapply tri_bind; [exact IH|intros ys Hys]. apply tri_ret. now constructor.
Qed.
Fixpoint tocr_ind' (P : tocr -> Prop) (H : forall id lvl n t sub, Forall P sub -> P (TocR id lvl n t sub)) (t : tocr) : P t :=
  match t with TocR id lvl n ti sub => H id lvl n ti sub ((fix all (l : list tocr) : Forall P l :=
    match l with [] => Forall_nil P | x :: r => Forall_cons x (tocr_ind' P H x) (all r) end) sub) end.
Lemma t_tocEntry t : tocr_ok t -> tri (renderTocEntry E t) W.
Proof.
  induction t as [id lvl n ti sub IH] using tocr_ind'. intros H. apply tocr_ok_eq in H as (H1 & H2 & H3 & H4). cbn [renderTocEntry].
  assert (G : forall l, Forall (fun t => tocr_ok t -> tri (renderTocEntry E t) W) l -> Forall tocr_ok l ->
    tri ((fix go (l : list tocr) : M string :=
                                 match l with [] => ret "" | x :: r => let* a := renderTocEntry E x in let* b := go r in ret (a ++ b)%string end) l) W).
  { induction 1 as [|x l Hx Hl IHl]; intros K; [apply tri_ret, W_nil|]. inversion K; subst.
    eapply tri_bind; [now apply Hx|intros y Hy]. eapply tri_bind; [now apply IHl|intros z Hz]. apply tri_ret. now apply W_app. }
  eapply (tri_bind _ _ W).
  - destruct sub as [|[id0 lvl0 n0 t0 sub0] sub']; [apply tri_ret, W_nil|].
    eapply (tri_bind _ _ W); [exact (G _ IH H4)|intros x Hx; texec].
  - intros c Hc. texec.
Qed.
Lemma t_tocEntries l : Forall tocr_ok l -> tri (renderTocEntries E l) W.
Proof.
  induction 1 as [|x l Hx Hl IH]; cbn [renderTocEntries]; [apply tri_ret, W_nil|]. eapply tri_bind; [now apply t_tocEntry|intros y Hy].
  eapply tri_bind; [exact IH|intros z Hz]. apply tri_ret. now apply W_app.
Qed.
Lemma t_toc t : (forall l, t = Some l -> Forall tocr_ok l) -> tri (renderToc E rec t) W.
Proof.
  intros H. unfold renderToc. destruct t as [l|]; [|apply tri_ret, W_nil]. specialize (H l eq_refl).
  eapply (tri_bind _ _ W).
  { unfold renderTocTitle. eapply tri_bind; [apply tri_ctx|intros ctx Hx]. apply ctx_oka in Hx.
    destruct (mget ctx "toc-title") as [v|] eqn:G; [|apply tri_ret; wc]. pose proof (oka_get _ _ _ Hx G) as V.
    destruct v; try (now apply Hrec); [apply tri_ret; exact (ok_local _ V)|apply (t_elements _ Hrec); apply (ok_list _ _ V), incl_refl]. }
  intros ti Hti. eapply (tri_bind _ _ W).
  { unfold renderTocSections. destruct l as [|[id lvl n t0 sub] l]; [apply tri_ret, W_nil|]. eapply tri_bind; [now apply t_tocEntries|intros x Hx]. texec. }
  intros x Hx. destruct (String.eqb x ""); [apply tri_ret, W_nil|]. texec.
Qed.

(** ** the document *)
Lemma t_notes l : oks l -> tri (renderFootnotes E rec l) W.
Proof.
  intros H. unfold renderFootnotes. destruct l as [|x0 l0]; [apply tri_ret, W_nil|]. revert H. generalize (x0 :: l0) as l. clear x0 l0. intros l H.
  eapply (tri_bind _ _ W); [|intros c Hc; texec].
  induction l as [|x l IH]; cbn [renderFootnoteElements]; [apply tri_ret, W_nil|]. apply oks_cons in H as [H1 H2].
  eapply (tri_bind _ _ W); [|intros a Ha; eapply tri_bind; [now apply IH|intros b Hb]; apply tri_ret; now apply W_app].
  unfold renderFootnoteElement. destruct x; try apply tri_fail.
  eapply tri_bind; [apply (t_inline _ Hrec); apply (ok_list _ _ H1); cbn [children]; now apply incl_tl, incl_refl|intros c Hc].
  match type of H1 with benign _ (Footnote _ ?v _) => assert (R : W (ref_str v)) by (apply safe_ref; apply (ok_child _ _ H1); now left) end.
  assert (B : W (replace_all (trimSpace c) LF " ")) by (apply W_replace; [wc|]; now apply (AlphaOps.W_trimSpace P)).
  texec.
Qed.
Lemma t_elementsToc t l : (forall x, t = Some x -> Forall tocr_ok x) -> oks l -> tri (renderElementsToc E rec t l) W.
Proof.
  intros Ht. induction l as [|x l IH]; intros H; cbn [renderElementsToc]; [apply tri_ret, W_nil|]. apply oks_cons in H as [H1 H2].
  assert (D : tri (let* s := rec x in let* q := renderElementsToc E rec t l in ret (s ++ q)%string) W).
  { eapply tri_bind; [now apply Hrec|intros s Hs]. eapply tri_bind; [now apply IH|intros u Hu]. apply tri_ret. now apply W_app. }
  destruct x; try exact D. eapply tri_bind; [apply (t_preamble _ Hrec); [|now apply t_toc]|intros s Hs].
  { apply (ok_list _ _ H1), incl_refl. }
  eapply tri_bind; [apply (t_elements _ Hrec), H2|intros u Hu]. apply tri_ret. now apply W_app.
Qed.
Lemma t_body src t notes : oks src -> (forall x, t = Some x -> Forall tocr_ok x) -> oks notes -> tri (renderDocumentBody E rec src t notes) W.
Proof.
  intros Hs Ht Hn. unfold renderDocumentBody. eapply tri_bind; [apply tri_ctx|intros ctx _].
  eapply (tri_bind _ _ W).
  - assert (D : tri (renderElements rec src) W) by now apply (t_elements _ Hrec).
    destruct (mget ctx "toc") as [pl|]; [|exact D]. destruct t as [l|]; [|exact D].
    destruct (eq_str pl "preamble"); [now apply t_elementsToc|].
    destruct (eq_str pl "" || match pl with VNil => true | _ => false end); [|apply tri_fail].
    eapply tri_bind; [now apply t_toc|intros x Hx]. eapply tri_bind; [exact D|intros u Hu]. apply tri_ret. now apply W_app.
  - intros x Hx. eapply tri_bind; [now apply t_notes|intros f Hf]. apply tri_ret. now apply W_app.
Qed.
Lemma t_authors l : Forall (fun p => W (fst (fst p)) /\ W (snd (fst p)) /\ W (snd p)) l -> forall first, tri (renderAuthorsList E first l) W.
Proof.
  induction 1 as [|[[i n] m] l Hx Hl IH]; intros first; cbn [renderAuthorsList]; [apply tri_ret, W_nil|]. cbn [fst snd] in Hx. destruct Hx as (H1 & H2 & H3).
  eapply (tri_bind _ _ W); [texec|intros x Hx]. eapply tri_bind; [apply IH|intros u Hu]. apply tri_ret. apply W_app; [destruct first; wc|]. now apply W_app.
Qed.
Lemma safe_details k : forall a i, oka a -> Forall (fun p => W (fst (fst p)) /\ W (snd (fst p)) /\ W (snd p)) (details_loop k a i).
Proof.
  induction k as [|k IH]; intros a i H; cbn [details_loop]; [constructor|].
  match goal with |- Forall _ (match getAsString a ?key with _ => _ end) => destruct (getAsString a key) as [y|] eqn:G; [|constructor] end.
  constructor; [|now apply IH]. cbn [fst snd]. split; [destruct i as [|[|?]]; auto with ok|]. split; [eapply safe_getSome; eauto|].
  match goal with |- W (match getAsString a ?key with _ => _ end) => destruct (getAsString a key) as [z|] eqn:G'; [|wc] end. eapply safe_getSome; eauto.
Qed.
Lemma t_details : tri (renderDocumentDetails E) W.
Proof.
  unfold renderDocumentDetails. eapply tri_bind; [apply tri_ctx|intros ctx Hx]. apply ctx_oka in Hx. destruct (ahas ctx "authors"); [|apply tri_ret, W_nil].
  eapply tri_bind; [apply t_authors; now apply safe_details|intros x Hx']. texec.
Qed.
Lemma t_header t : (forall l, t = Some l -> oks l) -> tri (renderDocumentHeader E rec t) W.
Proof.
  intros H. unfold renderDocumentHeader. eapply (tri_bind _ _ W).
  { destruct t as [l|]; [apply (t_elements _ Hrec); now apply H|apply tri_ret, W_nil]. }
  intros h Hh. eapply tri_bind; [apply t_details|intros d Hd]. texec.
Qed.
Lemma oka_aset_style a s : oka a -> W s -> oka (aset a "style" (VStr s)).
Proof. intros H Hs. change (aset a "style" (VStr s)) with (mset a "style" (VStr s)). apply oka_mset; [exact H|now apply ok_str]. Qed.
Lemma t_manpage t name : (forall l, t = Some l -> oks l) -> ok name -> tri (renderManpageHeader E rec t name) W.
Proof.
  intros H Hv. unfold renderManpageHeader. destruct name; try apply tri_panic. destruct elements as [|first r]; [apply tri_panic|].
  eapply (tri_bind _ _ W).
  { destruct t as [l|]; [apply (t_elements _ Hrec); now apply H|apply tri_ret, W_nil]. }
  intros h Hh. eapply (tri_bind _ _ W).
  { apply (t_elements _ Hrec). destruct title as [l|]; [|intros x []]. apply (ok_list _ _ Hv). cbn [children]. now apply incl_appl, incl_refl. }
  intros n Hn. assert (F : ok first).
  { apply (ok_child _ _ Hv). cbn [children]. apply in_or_app. right. now left. }
  destruct first; try apply tri_panic.
  eapply (tri_bind _ _ W); [|intros c Hc; texec].
  change (aset attrs0 "style" (VStr "manpage")) with (mset attrs0 "style" (VStr "manpage")).
  apply (t_paragraph _ Hrec).
  - apply oka_mset; [|apply ok_str; wc]. apply (ok_attrs _ _ F). cbn [children]. now apply incl_appr, incl_refl.
  - apply (ok_list _ _ F). cbn [children]. now apply incl_appl, incl_refl.
  - unfold styled. rewrite mget_mset_eq. intros [X|X]; discriminate X.
  - unfold styled. rewrite mget_mset_eq. intros X. discriminate X.
Qed.

Variable c : rconf.
Variable d : rdoc.
Hypothesis HD : doc_in conv P E c d.
Lemma els_ok : oks (rd_elements d).
Proof. pose proof (di_elements _ _ _ _ _ HD) as H. rewrite Forall_forall in H. exact H. Qed.
Lemma docHeader_in els : forall i h j, docHeader_from els i = Some (h, j) -> In h els /\ exists t a es, h = DocumentHeader t a es.
Proof.
  induction els as [|e els IH]; intros i h j X; cbn [docHeader_from] in X; [discriminate X|].
  destruct e; try discriminate X; try (apply IH in X as [X1 X2]; split; [now right|exact X2]). injection X as <- _. split; [now left|eauto].
Qed.
Lemma header_ok t a es i : docHeader (rd_elements d) = Some (DocumentHeader t a es, i) -> (forall l, t = Some l -> oks l) /\ oka a /\ oks es.
Proof.
  intros X. apply docHeader_in in X as [X _]. apply els_ok in X. split; [|split].
  - intros l ->. apply (ok_list _ _ X). cbn [children]. now apply incl_appl, incl_refl.
  - apply (ok_attrs _ _ X). cbn [children]. now apply incl_appr, incl_appr, incl_refl.
  - apply (ok_list _ _ X). cbn [children]. now apply incl_appr, incl_appl, incl_refl.
Qed.
Lemma headerTitle_ok l : headerTitle (rd_elements d) = Some l -> oks l.
Proof.
  unfold headerTitle. destruct (docHeader (rd_elements d)) as [[h i]|] eqn:G; [|discriminate]. destruct h; try discriminate. intros ->.
  now apply header_ok in G as (G & _ & _); apply G.
Qed.
Lemma headerAttrs_ok : oka (headerAttrs (rd_elements d)).
Proof.
  unfold headerAttrs. destruct (docHeader (rd_elements d)) as [[h i]|] eqn:G; [|intros x []]. destruct h; try (intros x []). now apply header_ok in G as (_ & G & _).
Qed.
Lemma headerElements_ok : oks (headerElements (rd_elements d)).
Proof.
  unfold headerElements. destruct (docHeader (rd_elements d)) as [[h i]|] eqn:G; [|intros x []]. destruct h; try (intros x []). now apply header_ok in G as (_ & _ & G).
Qed.
Lemma body_ok : oks (bodyElements (rd_elements d)).
Proof.
  pose proof els_ok as H. intros x X. apply H. revert X. generalize (rd_elements d) as l. induction l as [|e l IH]; [intros []|].
  cbn [bodyElements]. destruct e; cbn [In]; intuition.
Qed.
Lemma notes_ok : oks (rd_notes d).
Proof. pose proof (di_notes _ _ _ _ _ HD) as H. rewrite Forall_forall in H. exact H. Qed.
Lemma t_split toc : (forall x, toc = Some x -> Forall tocr_ok x) -> tri (splitAndRender E rec c d toc) (fun p => W (fst p) /\ W (snd p)).
Proof.
  intros Ht. unfold splitAndRender. eapply tri_bind; [apply tri_ctx|intros ctx _]. pose proof body_ok as B. destruct (String.eqb _ "manpage").
  - destruct (bodyElements (rd_elements d)) as [|name rest]; [apply tri_panic|]. apply oks_cons in B as [B1 B2]. destruct (rc_wrap c).
    + eapply tri_bind; [apply t_manpage; [apply headerTitle_ok|exact B1]|intros h Hh].
      eapply tri_bind; [apply t_body; [exact B2|exact Ht|apply notes_ok]|intros b Hb]. apply tri_ret. auto.
    + eapply tri_bind; [apply t_manpage; [discriminate|exact B1]|intros h Hh].
      eapply tri_bind; [apply t_body; [exact B2|exact Ht|apply notes_ok]|intros b Hb]. apply tri_ret. split; [apply W_nil|]. now apply W_app.
  - eapply (tri_bind _ _ W); [destruct (hasHeader (rd_elements d)); [apply t_header, headerTitle_ok|apply tri_ret, W_nil]|intros h Hh].
    eapply tri_bind; [apply t_body; [exact B|exact Ht|apply notes_ok]|intros b Hb]. apply tri_ret. auto.
Qed.

Definition author_ok (a : author) : Prop := W (au_email a) /\ match au_name a with
                                                      | Some n => W (fn_first n) /\ W (fn_middle n) /\ W (fn_last n)
                                                      | None => True end.
Lemma authors_ok es : oks es -> forall acc r, (forall l, acc = Some l -> Forall author_ok l) -> authors_loop es acc = Ok r -> forall l, r = Some l -> Forall author_ok l.
Proof.
  induction es as [|e es IH]; intros O acc r A X; cbn [authors_loop] in X; [injection X as <-; exact A|]. apply oks_cons in O as [O1 O2].
  assert (D : authors_loop es acc = Ok r -> forall l, r = Some l -> Forall author_ok l) by now apply IH.
  destruct e; try (now apply D). clear D. assert (V : ok e) by (apply (ok_child _ _ O1); now left).
  destruct (String.eqb name AttrAuthors).
  { destruct e; try (now apply (IH O2 acc r A X)). injection X as <-. intros l0 [= <-]. exact (ok_local _ V). }
  destruct (String.eqb name AttrEmail).
  { destruct e; try (now apply (IH O2 acc r A X)). pose proof (ok_local _ V) as Vs. cbn [local] in Vs. destruct acc as [[|a l]|].
    - discriminate X.
    - specialize (A _ eq_refl). inversion A as [|? ? A1 A2]; subst. destruct A1 as [A1 A3]. eapply (IH O2); [|exact X]. intros l0 [= <-]. constructor; [split; assumption|exact A2].
    - eapply (IH O2); [|exact X]. intros l0 [= <-]. constructor; [split; [exact Vs|exact Logic.I]|constructor]. }
  destruct (String.eqb name AttrAuthor).
  { destruct e; try (now apply (IH O2 acc r A X)). pose proof (ok_local _ V) as Vs. cbn [local] in Vs. destruct acc as [[|a l]|].
    - discriminate X.
    - specialize (A _ eq_refl). inversion A as [|? ? A1 A2]; subst. destruct A1 as [A1 A3]. destruct (au_name a) as [f|]; [|discriminate X].
      eapply (IH O2); [|exact X]. intros l0 [= <-]. constructor; [split; [exact A1|cbn; tauto]|exact A2].
    - eapply (IH O2); [|exact X]. intros l0 [= <-]. constructor; [split; [wc|cbn; repeat split; auto; wc]|constructor]. }
  now apply (IH O2 acc r A X).
Qed.
Lemma safe_fullName n : W (fn_first n) /\ W (fn_middle n) /\ W (fn_last n) -> W (fullName n).
Proof.
  intros (H1 & H2 & H3). unfold fullName. apply W_app; [exact H1|]. apply W_app; [destruct (String.eqb (fn_middle n) "")|destruct (String.eqb (fn_last n) "")];
    try wc; apply W_app; (wc || assumption).
Qed.
Lemma safe_fullNames l : Forall author_ok l -> forall r, fullNames l = Ok r -> Forall W r.
Proof.
  induction 1 as [|a l [Ha1 Ha2] Hl IH]; intros r X; cbn [fullNames] in X; [injection X as <-; constructor|].
  destruct (au_name a) as [n|]; [|discriminate X]. destruct (fullNames l) as [q| |]; [|discriminate X..]. cbn [bind] in X. injection X as <-.
  constructor; [now apply safe_fullName|now apply IH].
Qed.
Lemma safe_authors r : renderAuthors (headerElements (rd_elements d)) = Ok r -> W r.
Proof.
  unfold renderAuthors. intros X. destruct (headerAuthors (headerElements (rd_elements d))) as [o| |] eqn:G; [|discriminate X..]. cbn [bind] in X.
  destruct o as [l|]; [|injection X as <-; wc].
  assert (A : Forall author_ok l) by (eapply (authors_ok _ headerElements_ok None); [discriminate|exact G|wc]).
  destruct (fullNames l) as [q| |] eqn:Q; [|discriminate X..]. cbn [bind] in X. injection X as <-. apply safe_fullNames in Q; [|exact A].
  apply AlphaOps.W_join; [wc|exact Q].
Qed.

(** the page *)
Lemma has_prefix_split s p : has_prefix s p = true -> s = p ++ sdrop (String.length p) s.
Proof.
  intros H. apply has_prefix_iff in H as [r ->]. f_equal. induction p as [|a p IH]; [wc|]. exact IH.
Qed.
Lemma t_article e : foks P e -> tri (exec E TArticle e) W.
Proof. apply tri_exec. Qed.
Lemma t_document : tri (renderDocument E rec c d) (fun p => W (fst p)).
Proof.
  unfold renderDocument. eapply (tri_bind _ _ (fun x => rc_wrap c = true -> W x)).
  { destruct (headerTitle (rd_elements d)) as [l|] eqn:G; [|apply tri_ret; intros _; apply W_nil]. apply tri_lift. intros x X C. eapply bal_plainText; [| |exact X].
    - pose proof (headerTitle_ok _ G) as G'. intros y Y. inversion Y as [|? z ? Z]; subst; [exact Logic.I|]. exact (G' z Z y ltac:(assumption)).
    - intros y Y. inversion Y as [|? z ? Z]; subst. exact (di_title _ _ _ _ _ HD C l G z y Z ltac:(assumption)). }
  intros title Htitle. eapply (tri_bind _ _ (fun t => forall x, t = Some x -> Forall tocr_ok x)).
  { destruct (rd_toc d) as [l|] eqn:G; [|apply tri_ret; discriminate]. eapply tri_bind; [apply t_prerenders; exact (di_toc _ _ _ _ _ HD l G)|intros x Hx].
    apply tri_ret. now intros y [= <-]. }
  intros toc Htoc. eapply tri_bind; [apply t_split; exact Htoc|intros p [P1 P2]].
  eapply (tri_bind _ _ W).
  { destruct (hasHeader (rd_elements d)); [apply (t_roles _ Hrec), headerAttrs_ok|apply tri_ret; wc]. }
  intros roles Hroles. eapply tri_bind; [apply tri_ctx|intros ctx Hx]. apply ctx_oka in Hx.
  destruct (rc_wrap c); [specialize (Htitle eq_refl)|apply tri_ret; exact P2].
  eapply (tri_bind _ _ W).
  { destruct (hasHeader (rd_elements d)); [apply tri_lift; apply safe_authors|apply tri_ret; wc]. }
  intros authors Hauthors. eapply tri_bind; [apply t_article|intros out Hout; apply tri_ret; exact Hout].
  assert (HI : W (if hasHeader (rd_elements d) then renderElementID (headerAttrs (rd_elements d)) else "")).
  { destruct (hasHeader (rd_elements d)); [apply safe_id, headerAttrs_ok|wc]. }
  pose proof (di_updated _ _ _ _ _ HD) as HU.
  fields.
  - destruct (headerTitle (rd_elements d)); [exact Htitle|wc].
  - exact HI.
  - apply Forall_map. generalize (di_css _ _ _ _ _ HD). apply Forall_impl. intros x X. constructor; [exact X|constructor].
Qed.
End Doc.

(** ** the attributes when the rendering starts *)
Lemma ctx_labels a : ctx_ok a -> ctx_ok (labels a).
Proof. intros H. unfold labels. repeat (apply ctx_mset; [|apply ok_str; wc|intros _; discriminate]). exact H. Qed.
Definition entry_ok (kv : string * val) : Prop := ok (snd kv) /\ keep (fst kv).
Lemma mset_entry m k v : Forall entry_ok m -> entry_ok (k, v) -> Forall entry_ok (mset m k v).
Proof.
  induction 1 as [|[k' w] m Hw Hm IH]; intros H; cbn [mset]; [constructor; [exact H|constructor]|].
  destruct (String.eqb k k'); constructor; auto.
Qed.
Lemma key_entry a k i v : ok v -> a <> "u"%char -> entry_ok (key (String a k) i, v).
Proof.
  intros V N. split; [exact V|]. intros _. cbn [fst]. destruct i; cbn [key append]; congruence.
Qed.
Lemma nonempty_entry m a k i s : Forall entry_ok m -> W s -> a <> "u"%char -> Forall entry_ok (set_nonempty m (key (String a k) i) s).
Proof.
  intros H V N. unfold set_nonempty. destruct (String.eqb s ""); [exact H|]. apply mset_entry; [exact H|]. apply key_entry; auto. now apply ok_str.
Qed.
Lemma expand_ok l : Forall author_ok l -> forall i m r, Forall entry_ok m -> expand_loop l i m = Ok r -> Forall entry_ok r.
Proof.
  induction 1 as [|a l [Ha1 Ha2] Hl IH]; intros i m r Hm X; cbn [expand_loop] in X; [injection X as <-; exact Hm|].
  destruct (au_name a) as [n|]; [|discriminate X]. pose proof (safe_fullName _ Ha2) as HF. destruct Ha2 as (A1 & A2 & A3).
  apply IH in X; [exact X|]. repeat apply nonempty_entry; try assumption; try discriminate.
  repeat apply mset_entry; try exact Hm; apply key_entry; try discriminate; apply ok_str; try assumption.
  unfold initials, initial. repeat apply W_app; now apply AlphaOps.W_stake.
Qed.
Lemma entries_add b a : Forall entry_ok b -> ctx_ok a -> ctx_ok (aaddall a b).
Proof.
  intros H C. rewrite Forall_forall in H. apply ctx_aaddall; [| |exact C].
  - intros v V. apply in_map_iff in V as (kv & <- & I1). now apply H in I1 as [I1 _].
  - intros k v V. now apply H in V as [_ V].
Qed.
Lemma ok_leaf v : children v = [] -> local fmtv v -> ok v.
Proof. intros N H x X. inversion X as [|? c ? C]; subst; [exact H|]. rewrite N in C. destruct C. Qed.
Lemma lit_nonempty m k s : Forall entry_ok m -> W s -> k <> "unicode" -> Forall entry_ok (set_nonempty m k s).
Proof.
  intros H V N. unfold set_nonempty. destruct (String.eqb s ""); [exact H|]. apply mset_entry; [exact H|]. split; [now apply ok_str|now intros _].
Qed.
Section Start.
Variable els : list val.
Hypothesis HE : oks els.
Lemma start_header t a es i : docHeader els = Some (DocumentHeader t a es, i) -> oks es.
Proof.
  intros X. apply docHeader_in in X as [X _]. apply HE in X. apply (ok_list _ _ X). cbn [children]. now apply incl_appr, incl_appl, incl_refl.
Qed.
Lemma declare_ok e a : ok e -> ctx_ok a -> ctx_ok (declare a e).
Proof.
  intros V C. destruct e; try exact C; cbn [declare].
  - apply ctx_mset; [exact C|apply (ok_child _ _ V); now left|exact (ok_local _ V)].
  - apply ctx_mdel; [exact C|exact (ok_local _ V)].
Qed.
Lemma renderAttrs_ok a r : ctx_ok a -> renderAttrs els (Some a) = Ok r -> ctx_ok r.
Proof.
  intros C X. unfold renderAttrs in X. cbn [newContextAttrs] in X. destruct (expandHeader els (labels a)) as [b| |] eqn:B; [|discriminate X..].
  cbn [bind] in X. injection X as <-.
  assert (Cb : ctx_ok b).
  { apply ctx_labels in C. unfold expandHeader in B. destruct (docHeader els) as [[h i]|] eqn:G; [|injection B as <-; exact C].
    destruct h; try (injection B as <-; exact C). apply start_header in G.
    destruct (headerAuthors elements) as [o| |] eqn:A; [|discriminate B..]. cbn [bind] in B.
    pose proof (fun l => authors_ok elements G None o ltac:(discriminate) A l) as AO.
    assert (R : forall x, ctx_ok x -> Ok (match headerRevision elements with Some r => aaddall x (expandRevision r) | None => x end) = Ok b -> ctx_ok b).
    { intros x Cx Y. injection Y as <-. clear - G Cx. destruct (headerRevision elements) as [r|] eqn:V; [|exact Cx]. apply entries_add; [|exact Cx].
      assert (L : W (rev_number r) /\ W (rev_date r) /\ W (rev_remark r)).
      { revert G V. induction elements as [|e es IH]; intros G V; cbn [headerRevision] in V; [discriminate V|]. apply oks_cons in G as [G1 G2].
        destruct e; try (now apply IH). assert (We : ok e) by (apply (ok_child _ _ G1); now left).
        destruct e; try (now apply IH). destruct (String.eqb name AttrRevision); [|now apply IH]. injection V as ->. exact (ok_local _ We). }
      unfold expandRevision. destruct L as (L1 & L2 & L3). repeat apply lit_nonempty; try assumption; try discriminate.
      constructor; [|constructor]. split; [|intros _; discriminate]. apply ok_leaf; [reflexivity|]. cbn. auto. }
    destruct o as [l|].
    - destruct (expandAuthors l) as [x| |] eqn:Ex; [|discriminate B..]. cbn [bind] in B. eapply R; [|exact B]. apply entries_add; [|exact C].
      unfold expandAuthors in Ex. apply expand_ok in Ex; [exact Ex|now apply AO|]. constructor; [|constructor]. split; [|intros _; discriminate].
      apply ok_leaf; [reflexivity|]. exact (AO l eq_refl).
    - cbn [bind] in B. eapply R; [|exact B]. exact C. }
  assert (Ch : ctx_ok (headerDecls els b)).
  { unfold headerDecls. destruct (docHeader els) as [[h i]|] eqn:G; [|exact Cb]. destruct h; try exact Cb. apply start_header in G.
    clear B. revert b G Cb. clear. induction elements as [|e es IH]; intros b G C; cbn [fold_left]; [exact C|]. apply oks_cons in G as [G1 G2].
    apply IH; [exact G2|]. now apply declare_ok. }
  revert Ch. generalize (headerDecls els b) as x. clear - HE. induction els as [|e es IH]; intros x C; cbn [leadingDecls]; [exact C|].
  apply oks_cons in HE as [H1 H2]. destruct e; try exact C; apply (IH H2); apply (declare_ok _ _ H1 C).
Qed.
End Start.

(** ** section numbers *)
Lemma safe_fold ws : forall acc k v, (forall k v, In (k, v) ws -> W v) -> (forall k v, mget acc k = Some v -> W v) ->
  mget (fold_left (fun acc kv => mset acc (fst kv) (snd kv)) ws acc) k = Some v -> W v.
Proof.
  induction ws as [|[k' w] ws IH]; intros acc k v H A X; cbn [fold_left fst snd] in X; [eapply A; eauto|].
  eapply IH; [| |exact X]; [intros k0 v0 Y; apply (H k0); now right|]. intros k0 v0 Y. rewrite mget_mset in Y. destruct (String.eqb k' k0); [|eapply A; eauto].
  injection Y as <-. apply (H k'). now left.
Qed.
Definition writes_safe (ws : gomap string) : Prop := forall k v, In (k, v) ws -> W v.
Lemma traverse_safe : forall v en prefix c, W prefix -> writes_safe (fst (fst (traverse v en prefix c))).
Proof.
  intros v. remember (vsize v) as n eqn:Hn. revert v Hn. induction n as [n IH] using lt_wf_ind. intros v Hn en prefix c Hp.
  assert (L : forall els, (forall x, In x els -> vsize x < n) -> forall en prefix c, W prefix -> writes_safe (fst (traverse_list els en prefix c))).
  { induction els as [|x els IHl]; intros HB en0 p0 c0 Hp0; cbn [traverse_list]; [intros k w []|].
    pose proof (IH (vsize x) (HB x (or_introl eq_refl)) x eq_refl en0 p0 c0 Hp0) as H1.
    destruct (traverse x en0 p0 c0) as [[m1 en1] c1]. cbn [fst] in H1. pose proof (IHl (fun y Y => HB y (or_intror Y)) en1 p0 c1 Hp0) as H2.
    destruct (traverse_list els en1 p0 c1) as [m2 en2]. cbn [fst] in *. intros k w I. apply in_app_or in I as [I|I]; eauto. }
  destruct v; try (intros k w I; destruct I). rewrite traverse_section. cbv zeta.
  set (c' := if en then (c + 1)%N else c). set (nn := if en then (prefix ++ itoaN c')%string else "").
  assert (Hnn : W nn) by (unfold nn; destruct en; [apply W_app; [exact Hp|apply W_itoaN]|wc]).
  pose proof (L elements) as L1. specialize (L1 ltac:(intros x X; subst n; apply children_size; cbn [children]; apply in_or_app; right; apply in_or_app; now left)
    en (nn ++ ".") 0%N (W_app nn "." Hnn ltac:(wc))).
  destruct (traverse_list elements en (nn ++ ".") 0%N) as [m en']. cbn [fst] in *. intros k w I. apply in_app_or in I as [I|I]; [|eauto].
  destruct en; [|destruct I]. destruct I as [I|[]]. injection I as _ <-. exact Hnn.
Qed.
Lemma numbers_safe els k v : mget (sectionNumbers els) k = Some v -> W v.
Proof.
  unfold sectionNumbers. match goal with |- context [traverseElements els ?b ""] => generalize b as en end. intros en. unfold traverseElements.
  assert (L : forall els en prefix c, W prefix -> writes_safe (fst (traverse_list els en prefix c))).
  { clear - HP. induction els as [|x els IHl]; intros en0 p0 c0 Hp0; cbn [traverse_list]; [intros k w []|].
    pose proof (traverse_safe x en0 p0 c0 Hp0) as H1. destruct (traverse x en0 p0 c0) as [[m1 en1] c1]. cbn [fst] in H1. pose proof (IHl en1 p0 c1 Hp0) as H2.
    destruct (traverse_list els en1 p0 c1) as [m2 en2]. cbn [fst] in *. intros k w I. apply in_app_or in I as [I|I]; eauto. }
  specialize (L els en "" 0%N (eq_refl : W "")). destruct (traverse_list els en "" 0%N) as [ws e']. cbn [fst] in *. apply safe_fold; [exact L|]. intros k0 v0 X. discriminate X.
Qed.

End Alpha.

(** ** the whole *)
Theorem render_over conv P E depth c d a out title a' :
  alphabet P -> (conv = true -> forall n, (9 <= n <= 13)%N -> P (chr n) = true) ->
  keeps conv P E -> doc_in conv P E c d -> attrs_in conv P (e_fmtv E) a -> render E depth c d (Some a) = Ok (out, title, a') -> over P out.
Proof.
  intros HP HC K D A X. unfold render in X. destruct (renderAttrs (rd_elements d) (Some a)) as [r| |] eqn:R; [|discriminate X..]. cbn [bind] in X.
  match type of X with context [renderDocument ?e _ _ _] => set (E' := e) in X end.
  assert (K' : keeps conv P E') by (destruct K; constructor; assumption).
  assert (D' : doc_in conv P E' c d) by (destruct D; constructor; assumption).
  apply (renderAttrs_ok conv P HP E _ (els_ok conv P E c d D)) in R; [|exact A].
  destruct (renderDocument E' (renderElement E' depth) c d (mkRst r [] false 0 [])) as [[[o t] st]| |] eqn:Y; [|discriminate X..]. injection X as <- <- <-.
  assert (HN : forall k v, mget (e_numbers E') k = Some v -> over P v) by (intros k v; apply (numbers_safe P HP)).
  apply (t_document conv P HP HC E' K' HN depth c d D') in Y; [|exact R]. exact (proj2 Y).
Qed.
