(** The rendering of a benign element is balanced markup. *)
From Verif Require Import GoBase GoLemmas Types Attrs Aggregate Toc TocRender Escape Merge Elements Ids Locations Indent Footnotes
  Templates Tmpl SectNum RenderAttrs Authors TocLemmas SectNumLemmas Render RenderKit HtmlSpec HtmlMachine HtmlOps TmplCheck HtmlTmpl HtmlDocSpec.
Local Open Scope string_scope.

Section Html.
Variable E : renv.
Hypothesis S : sane E.
Notation fmtv := (e_fmtv E).
Notation ok := (benign (e_fmtv E)).
Notation ctx_ok := (attrs_ok (e_fmtv E)).

Definition J (st : rst) : Prop := ctx_ok (r_attrs st) /\ (0 <= r_list st)%Z.
Definition tri {A} (m : M A) (Q : A -> Prop) : Prop :=
  forall st a st', J st -> m st = Ok (a, st') -> J st' /\ r_list st' = r_list st /\ Q a.

Lemma tri_ret {A} (a : A) (Q : A -> Prop) : Q a -> tri (ret a) Q.
Proof. intros H st b st' HJ [= <- <-]. auto. Qed.
Lemma tri_fail {A} e (Q : A -> Prop) : tri (fail e) Q.
Proof. intros st b st' HJ X. discriminate X. Qed.
Lemma tri_panic {A} e (Q : A -> Prop) : tri (fun _ => Panic e) Q.
Proof. intros st b st' HJ X. discriminate X. Qed.
Lemma tri_lift {A} (r : result A) (Q : A -> Prop) : (forall a, r = Ok a -> Q a) -> tri (lift r) Q.
Proof. intros H st b st' HJ X. unfold lift in X. destruct r; [|discriminate X..]. injection X as -> ->. auto. Qed.
Lemma tri_bind {A B} (m : M A) (f : A -> M B) (P : A -> Prop) (Q : B -> Prop) : tri m P -> (forall a, P a -> tri (f a) Q) -> tri (bindM m f) Q.
Proof.
  intros Hm Hf st b st' HJ X. unfold bindM in X. destruct (m st) as [[a st1]| |] eqn:M1; [|discriminate X..].
  destruct (Hm _ _ _ HJ M1) as (J1 & L1 & Pa). destruct (Hf a Pa _ _ _ J1 X) as (J2 & L2 & Qb). split; [exact J2|]. split; [congruence|exact Qb].
Qed.
Lemma tri_weaken {A} (m : M A) (P Q : A -> Prop) : tri m P -> (forall a, P a -> Q a) -> tri m Q.
Proof. intros H I st a st' HJ X. destruct (H _ _ _ HJ X) as (? & ? & ?). auto. Qed.
Lemma tri_ctx : tri getAttrs ctx_ok.
Proof. intros st a st' HJ [= <- <-]. split; [exact HJ|]. split; [reflexivity|apply HJ]. Qed.
Lemma tri_counter n : tri (nextCounter n) (fun _ => True).
Proof. intros st a st' HJ [= <- <-]. split; [exact HJ|]. auto. Qed.
Lemma tri_block {A} (m : M A) Q : tri m Q -> tri (inBlock m) Q.
Proof.
  intros H st a st' HJ X. unfold inBlock in X. match type of X with match m ?s with _ => _ end = _ => destruct (m s) as [[b st1]| |] eqn:M1; [|discriminate X..] end.
  injection X as <- <-. apply H in M1; [|exact HJ]. destruct M1 as (J1 & L1 & Q1). split; [exact J1|]. auto.
Qed.
Lemma tri_list {A} (m : M A) Q : tri m Q -> tri (inList m) Q.
Proof.
  intros H st a st' HJ X. unfold inList in X. match type of X with match m ?s with _ => _ end = _ => destruct (m s) as [[b st1]| |] eqn:M1; [|discriminate X..] end.
  injection X as <- <-. apply H in M1; [|split; [apply HJ|cbn; destruct HJ; lia]]. destruct M1 as (J1 & L1 & Q1). cbn [r_list] in *.
  destruct HJ as [HA HL]. split; [split; [apply J1|cbn; lia]|]. split; [lia|exact Q1].
Qed.
Lemma tri_upd f : (forall a, ctx_ok a -> ctx_ok (f a)) -> tri (upd_attrs f) (fun _ => True).
Proof. intros H st a st' [HA HL] [= <- <-]. split; [split; [now apply H|exact HL]|]. auto. Qed.
Lemma tri_mapS f m : (forall x, bal x -> bal (f x)) -> tri m bal -> tri (mapS f m) bal.
Proof. intros H Hm. eapply tri_bind; [exact Hm|]. intros x X. apply tri_ret. auto. Qed.

(** ** benign values *)
Lemma ok_local v : ok v -> local fmtv v.
Proof. intros H. apply H. constructor. Qed.
Lemma ok_child v c : ok v -> In c (children v) -> ok c.
Proof. intros H I x X. apply H. econstructor; eauto. Qed.
Definition oks (l : list val) : Prop := forall x, In x l -> ok x.
Definition oka (a : attributes) : Prop := forall v, In v (map snd a) -> ok v.
Lemma ok_list v l : ok v -> incl l (children v) -> oks l.
Proof. intros H I x X. apply (ok_child v); auto. Qed.
Lemma ok_attrs v a : ok v -> incl (map snd a) (children v) -> oka a.
Proof. intros H I x X. apply (ok_child v); auto. Qed.
Lemma oka_get a k v : oka a -> mget a k = Some v -> ok v.
Proof. intros H G. apply H. eapply mget_snd; eauto. Qed.
Lemma oka_slice a k l : oka a -> mget a k = Some (VSlice l) -> oks l.
Proof. intros H G. apply oka_get in G; [|exact H]. apply (ok_list _ _ G). apply incl_refl. Qed.
Lemma oka_str a k s : oka a -> mget a k = Some (VStr s) -> safe s.
Proof. intros H G. apply oka_get in G; [|exact H]. exact (ok_local _ G). Qed.
Lemma ok_str s : safe s -> ok (VStr s).
Proof. intros H x X. inversion X as [|? c ? C]; subst; [exact H|destruct C]. Qed.
Lemma ok_string s : text s -> ok (StringElement s).
Proof. intros H x X. inversion X as [|? c ? C]; subst; [exact H|destruct C]. Qed.
Lemma safe_nil : safe "".
Proof. reflexivity. Qed.
Lemma safe_get a k : oka a -> safe (optS (getAsString a k)).
Proof.
  intros H. unfold getAsString. destruct (mget a k) as [v|] eqn:G; [|reflexivity]. destruct v; try reflexivity. eapply oka_str; eauto.
Qed.
Lemma safe_getSome a k s : oka a -> getAsString a k = Some s -> safe s.
Proof. intros H G. pose proof (safe_get a k H) as X. now rewrite G in X. Qed.
Lemma safe_getD a k d : oka a -> safe d -> safe (getD E a k d).
Proof.
  intros H D. unfold getD, getAsStringD. destruct (mget a k) as [v|] eqn:G; [|exact D]. pose proof (oka_get a k v H G) as V.
  destruct v; try (apply (sn_fmtv E S); exact V); [reflexivity|]. exact (ok_local _ V).
Qed.
Lemma safe_id a : oka a -> safe (renderElementID a).
Proof.
  intros H. unfold renderElementID. destruct (mget a "id") as [v|] eqn:G; [|reflexivity]. destruct v; try reflexivity.
  apply safe_html_escape, safe_no_lf. eapply oka_str; eauto.
Qed.
Lemma safe_style a : oka a -> safe (renderElementStyle a).
Proof.
  intros H. unfold renderElementStyle. destruct (mget a "style") as [v|] eqn:G; [|reflexivity]. destruct v; try reflexivity.
  apply safe_html_escape, safe_no_lf. eapply oka_str; eauto.
Qed.
Lemma safe_attr1 a : oka a -> safe (fst (newAttribution a)).
Proof.
  intros H. unfold newAttribution. destruct (getAsString a "quoteAuthor") eqn:G; cbn [fst]; [eapply safe_getSome; [|eassumption]; eassumption|now apply safe_get].
Qed.
Lemma safe_attr2 a : oka a -> safe (snd (newAttribution a)).
Proof.
  intros H. unfold newAttribution. destruct (getAsString a "quoteAuthor") eqn:G; cbn [snd]; [now apply safe_get|reflexivity].
Qed.
Lemma ctx_oka a : ctx_ok a -> oka a.
Proof. intros [H _]. exact H. Qed.
Lemma bal_safe x : safe x -> bal x.
Proof. intros H. now apply bal_text, safe_text. Qed.
Lemma bal_check v : bal (renderCheckStyle v).
Proof.
  unfold renderCheckStyle. destruct v as [v|]; [|reflexivity]. destruct v; try reflexivity.
  repeat match goal with |- bal (if ?b then _ else _) => destruct b; [vm_compute; reflexivity|] end. reflexivity.
Qed.
Hint Resolve safe_nil safe_get safe_getD safe_id safe_style safe_attr1 safe_attr2 ctx_oka bal_safe bal_check bal_nil bal_trimLF bal_trimSpaces
  bal_adjust safe_itoa safe_itoaN : ok.
Hint Resolve ok_local : ok.

(** ** templates *)
Lemma exec_nodes_of t e st x st' : exec E t e st = Ok (x, st') -> st' = st /\ exec_nodes (e_toLower E) (nodes (e_xhtml E) t) e = Ok x.
Proof.
  unfold exec, lift, execute. destruct (String.eqb (template E t) ""); [discriminate|]. unfold nodes. unfold template.
  destruct (parse (if e_xhtml E then xhtml5 t else html5 t)) as [ns|]; [|discriminate].
  destruct (exec_nodes (e_toLower E) ns e); [|discriminate..]. intros [= -> ->]. auto.
Qed.
Lemma tri_exec_asm t e : normal t = true -> eoks (ktab t) e -> holds (tasm t) e -> tri (exec E t e) bal.
Proof.
  intros N He Ha st x st' HJ X. apply exec_nodes_of in X as [-> X]. split; [exact HJ|]. split; [reflexivity|].
  exact (ck_sound (ktab t) (e_toLower E) (sn_lower E S) _ e (tasm t) start start x (normal_ok (e_xhtml E) t N) (eoks_eok _ _ He) Ha X).
Qed.
Lemma tri_exec t e : plainT t = true -> eoks (ktab t) e -> tri (exec E t e) bal.
Proof.
  intros N He. apply plain_asm in N as [N1 N2]. apply tri_exec_asm; [exact N1|exact He|]. rewrite N2. constructor.
Qed.

Ltac fieldk := match goal with |- vok (kd ?t ?f) _ => let k := eval vm_compute in (kd t f) in change (kd t f) with k; cbn [vok] end.
Ltac fieldt := match goal with |- True => exact I | |- _ => eauto 3 with ok | |- _ => idtac end.
Ltac fields_go := lazymatch goal with
  | |- Forall _ [] => apply Forall_nil
  | |- Forall _ (_ :: _) => apply Forall_cons; [cbn [fst snd]; fieldk; fieldt|fields_go]
  end.
Ltac fields := unfold eoks, attribution_fields; cbn [app]; fields_go.
Ltac texec := apply tri_exec; [reflexivity|fields].

Section Rec.
Variable rec : val -> M string.
Hypothesis Hrec : forall v, ok v -> tri (rec v) bal.

Lemma oks_cons x l : oks (x :: l) -> ok x /\ oks l.
Proof. intros H. split; [apply H; now left|intros y Y; apply H; now right]. Qed.

Ltac bnd := eapply tri_bind; [|intros].

Lemma t_elements l : oks l -> tri (renderElements rec l) bal.
Proof.
  induction l as [|x l IH]; intros H; cbn [renderElements]; [apply tri_ret; reflexivity|]. apply oks_cons in H as [H1 H2].
  eapply tri_bind; [now apply Hrec|intros s Hs]. eapply tri_bind; [now apply IH|intros u Hu]. apply tri_ret. now apply bal_app.
Qed.
Lemma t_listElements l : oks l -> tri (renderListElements rec l) bal.
Proof.
  destruct l as [|x l]; intros H; cbn [renderListElements]; [apply tri_ret; reflexivity|]. apply oks_cons in H as [H1 H2].
  eapply tri_bind; [apply tri_list; now apply Hrec|intros s Hs]. eapply tri_bind; [now apply t_elements|intros u Hu]. apply tri_ret. now apply bal_app.
Qed.
Lemma t_inline l : oks l -> tri (renderInlineElements rec l) bal.
Proof.
  induction l as [|x l IH]; intros H; cbn [renderInlineElements]; [apply tri_ret; reflexivity|]. apply oks_cons in H as [H1 H2].
  eapply tri_bind; [now apply Hrec|intros s Hs]. eapply tri_bind; [now apply IH|intros u Hu]. apply tri_ret. apply bal_app; [|exact Hu].
  destruct l; [|exact Hs]. destruct x; try exact Hs. apply tt_trim_right; [discriminate|discriminate|exact Hs].
Qed.
Lemma t_raw l : oks l -> tri (renderRawElements rec l) bal.
Proof.
  induction l as [|x l IH]; intros H; cbn [renderRawElements]; [apply tri_ret; reflexivity|]. apply oks_cons in H as [H1 H2].
  eapply tri_bind; [|intros s Hs; eapply tri_bind; [now apply IH|intros u Hu]; apply tri_ret; exact (bal_app s u Hs Hu)].
  destruct x; try (now apply Hrec). apply tri_ret. apply bal_text. exact (ok_local _ H1).
Qed.

Lemma t_roleList l : (forall r, In r l -> exists s, r = VStr s) -> oks l -> tri (renderRoles rec l) (Forall safe).
Proof.
  induction l as [|r l IH]; intros H O; cbn [renderRoles]; [apply tri_ret; constructor|]. apply oks_cons in O as [O1 O2].
  destruct (H r (or_introl eq_refl)) as [s ->]. cbn [renderElementRole].
  eapply (tri_bind _ _ safe); [apply tri_ret; exact (ok_local _ O1)|intros u Hu]. eapply tri_bind; [apply IH; [intros; apply H; now right|exact O2]|intros w Hw].
  apply tri_ret. now constructor.
Qed.
Lemma t_roles a : oka a -> tri (renderElementRoles rec a) safe.
Proof.
  intros H. unfold renderElementRoles. destruct (mget a "roles") as [v|] eqn:G; [|apply tri_ret; reflexivity].
  destruct v; try (apply tri_ret; reflexivity). pose proof (oka_get _ _ _ H G) as V.
  eapply tri_bind; [apply t_roleList; [exact (ok_local _ V)|apply (ok_list _ _ V), incl_refl]|intros r Hr]. apply tri_ret. now apply safe_join.
Qed.
Lemma t_imageRoles a : oka a -> tri (renderImageRoles rec a) safe.
Proof.
  intros H. unfold renderImageRoles. eapply (tri_bind _ _ (Forall safe)).
  - destruct (mget a "roles") as [v|] eqn:G; [|apply tri_ret; constructor]. destruct v; try (apply tri_ret; constructor).
    pose proof (oka_get _ _ _ H G) as V. apply t_roleList; [exact (ok_local _ V)|apply (ok_list _ _ V), incl_refl].
  - intros r Hr. apply tri_ret. apply safe_join. apply Forall_app. split; [|apply Forall_app; split; [|exact Hr]].
    + destruct (getAsString a "float") eqn:G; constructor; [|constructor]. eapply safe_getSome; [|eassumption]; eassumption.
    + destruct (getAsString a "align") eqn:G; constructor; [|constructor]. apply safe_app; [reflexivity|]. eapply safe_getSome; [|eassumption]; eassumption.
Qed.
Lemma t_title a : oka a -> tri (renderElementTitle rec a) bal.
Proof.
  intros H. unfold renderElementTitle. destruct (mget a "title") as [v|] eqn:G; [|apply tri_ret; reflexivity].
  destruct v; try apply tri_fail.
  - apply tri_ret, bal_safe. eapply oka_str; eauto.
  - apply t_elements. eapply oka_slice; eauto.
Qed.
Lemma t_title_safe a : oka a -> (forall l, mget a "title" <> Some (VSlice l)) -> tri (renderElementTitle rec a) safe.
Proof.
  intros H N. unfold renderElementTitle. destruct (mget a "title") as [v|] eqn:G; [|apply tri_ret; reflexivity].
  destruct v; try apply tri_fail.
  - apply tri_ret. eapply oka_str; eauto.
  - exfalso. now apply (N l).
Qed.
Hint Resolve t_elements t_listElements t_inline t_raw t_roles t_imageRoles t_title : ok.

Lemma t_usual a c k : oka a -> tri c bal ->
  (forall i ti r co, safe i -> bal ti -> safe r -> bal co -> r = "" \/ mget a "roles" <> None ->
     tri (k [(".ID", FS i); (".Title", FS ti); (".Roles", FS r); (".Content", FS co)]) bal) -> tri (usual rec a c k) bal.
Proof.
  intros Ha Hc Hk. unfold usual. eapply tri_bind; [exact Hc|intros co Hco].
  eapply (tri_bind _ _ (fun r => safe r /\ (r = "" \/ mget a "roles" <> None))).
  { intros st r st' HJ X. destruct (t_roles a Ha st r st' HJ X) as (J1 & L1 & R1). split; [exact J1|]. split; [exact L1|]. split; [exact R1|].
    unfold renderElementRoles in X. destruct (mget a "roles"); [right; discriminate|]. left. now injection X. }
  intros r (Hr & Hr'). eapply tri_bind; [now apply t_title|intros ti Hti]. apply Hk; auto with ok.
Qed.
Ltac tusual := apply t_usual; [assumption| |intros ? ? ? ? ? ? ? ? ?; cbn [app attribution_fields]].

Lemma t_paraElements a es : oks es -> tri (renderParagraphElements E rec a es) bal.
Proof.
  intros H. unfold renderParagraphElements. eapply tri_bind; [apply tri_ctx|intros ctx _]. eapply tri_bind; [now apply t_elements|intros s Hs].
  destruct (hasOption a "hardbreaks" || hasOption ctx "hardbreaks"); [|now apply tri_ret].
  eapply tri_bind; [texec|intros br Hbr]. apply tri_ret. apply bal_replace_lf; [now apply bal_app|exact Hs].
Qed.
Hint Resolve t_paraElements : ok.
Lemma t_icon class a adm : safe class -> oka a -> tri (renderIcon E class a adm) bal.
Proof.
  intros Hc Ha. unfold renderIcon. eapply tri_bind; [apply tri_ctx|intros ctx Hx]. pose proof (ctx_oka _ Hx) as Hx'.
  eapply (tri_bind _ _ (fun t => t = TIconFont \/ t = TIconText)).
  { destruct Hx as [_ HI]. unfold getD, getAsStringD. destruct (mget ctx "icons") as [v|]; [|apply tri_ret; now right].
    destruct (HI v eq_refl) as [-> | ->]; apply tri_ret; auto. }
  intros t Ht.
  assert (D : safe (defaultIconClass (class ++ "-caption"))).
  { unfold defaultIconClass. cbn [mget]. repeat match goal with |- context [if ?b then _ else _] => destruct b; [reflexivity|] end. reflexivity. }
  assert (C : safe (getD E a "caption" (getD E ctx (class ++ "-caption") (defaultIconClass (class ++ "-caption"))))) by auto with ok.
  pose proof (sn_iconpath E S ctx class Hx Hc) as HS.
  destruct Ht as [-> | ->]; apply tri_exec; try reflexivity.
  - unfold eoks. repeat (apply Forall_cons; [cbn [fst snd]; fieldk; fieldt|]); [| |apply Forall_nil].
    + destruct adm; [destruct (String.eqb (getD E ctx "icons" "text") "font"); auto with ok|auto with ok].
    + destruct adm; [destruct (String.eqb (getD E ctx "icons" "text") "font"); auto with ok|auto with ok].
  - unfold eoks. repeat (apply Forall_cons; [cbn [fst snd]; fieldk; fieldt|]); [| |apply Forall_nil].
    + destruct adm; [destruct (String.eqb (getD E ctx "icons" "text") "font"); auto with ok|auto with ok].
    + destruct adm; [destruct (String.eqb (getD E ctx "icons" "text") "font"); auto with ok|auto with ok].
Qed.
Lemma t_inlineIcon class a : safe class -> oka a -> tri (renderInlineIcon E class a) bal.
Proof. intros Hc Ha. unfold renderInlineIcon. eapply tri_bind; [now apply t_icon|intros i Hi]. texec. Qed.
Lemma t_caption a k c p : oka a -> safe p -> tri (renderCaption a k c p) (fun cn => bal (fst cn)).
Proof.
  intros Ha Hp. unfold renderCaption. eapply tri_bind; [apply tri_ctx|intros ctx Hx]. apply ctx_oka in Hx.
  set (x := match getAsString a "caption" with Some c0 => c0 | None => _ end).
  assert (X : safe x).
  { unfold x. destruct (getAsString a "caption") eqn:G; [eapply safe_getSome; [|eassumption]; eassumption|].
    destruct (getAsString ctx k) as [y|] eqn:G'; [|reflexivity]. pose proof (safe_getSome _ _ _ Hx G') as Y.
    destruct (String.eqb y ""); [exact Y|]. apply safe_app; [exact Y|]. apply safe_app; [reflexivity|]. apply safe_app; [exact Hp|reflexivity]. }
  destruct (contains x p); [|apply tri_ret; auto with ok]. eapply tri_bind; [apply tri_counter|intros n _]. apply tri_ret. cbn [fst].
  apply bal_safe. unfold replace_all. now apply all_replace; [apply safe_itoa|].
Qed.
Hint Resolve t_icon t_caption : ok.

(** ** blocks *)
Lemma safe_lower x : safe x -> safe (e_toLower E x).
Proof. apply (sn_lower E S). Qed.
Hint Resolve safe_lower : ok.
Lemma t_admBlock a es : oka a -> oks es -> tri (renderAdmonitionBlock E rec a es) bal.
Proof.
  intros Ha He. unfold renderAdmonitionBlock. eapply tri_bind; [apply t_icon; auto with ok|intros i Hi]. tusual; [auto with ok|]. texec.
Qed.
Lemma t_admPara a es : oka a -> oks es -> tri (renderAdmonitionParagraph E rec a es) bal.
Proof.
  intros Ha He. unfold renderAdmonitionParagraph. destruct (getAsString a "style") as [s|] eqn:G; [|apply tri_fail].
  apply safe_getSome in G; [|exact Ha]. eapply tri_bind; [apply t_icon; auto with ok|intros i Hi]. tusual; [auto with ok|]. texec.
Qed.
Lemma t_example a es : oka a -> oks es -> tri (renderExampleBlock E rec a es) bal.
Proof.
  intros Ha He. unfold renderExampleBlock. eapply tri_bind; [now apply t_elements|intros c Hc]. eapply tri_bind; [now apply t_roles|intros r Hr].
  eapply tri_bind; [apply t_caption; [exact Ha|reflexivity]|intros cn Hcn]. eapply tri_bind; [now apply t_title|intros ti Hti]. texec.
Qed.
Lemma t_examplePara a es : oka a -> oks es -> tri (renderExampleParagraph E rec a es) bal.
Proof.
  intros Ha He. unfold renderExampleParagraph. tusual; [apply tri_mapS; [intros x X; apply bal_app; [exact X|reflexivity]|auto with ok]|]. texec.
Qed.
Lemma t_literalTmpl (a : attributes) k : mget a "roles" = None -> forall i ti r co, safe i -> bal ti -> safe r -> bal co -> r = "" \/ mget a "roles" <> None ->
  k = exec E TLiteralBlock -> tri (k [(".ID", FS i); (".Title", FS ti); (".Roles", FS r); (".Content", FS co)]) bal.
Proof.
  intros N i ti r co Hi Ht Hr Hc [-> |X] ->; [|congruence]. apply tri_exec_asm; [reflexivity|fields|]. repeat constructor.
Qed.
Lemma t_literalPara a es : oka a -> oks es -> mget a "roles" = None -> tri (renderLiteralParagraph E rec a es) bal.
Proof.
  intros Ha He N. unfold renderLiteralParagraph. tusual; [|eapply t_literalTmpl; eauto]. apply tri_mapS; [|auto with ok]. intros x X.
  destruct (mget a "style") as [v|]; [|exact X]. destruct v; try exact X. destruct (String.eqb s "literal_paragraph"); auto with ok.
Qed.
Lemma t_literal a es : oka a -> oks es -> mget a "roles" = None -> tri (renderLiteralBlock E rec a es) bal.
Proof. intros Ha He N. unfold renderLiteralBlock. tusual; [|eapply t_literalTmpl; eauto]. apply tri_mapS; auto with ok. Qed.
Lemma t_fenced a es : oka a -> oks es -> tri (renderFencedBlock E rec a es) bal.
Proof. intros Ha He. unfold renderFencedBlock. apply tri_block. tusual; [apply tri_mapS; auto with ok|]. texec. Qed.
Lemma t_listingPara a es : oka a -> oks es -> tri (renderListingParagraph E rec a es) bal.
Proof. intros Ha He. unfold renderListingParagraph. tusual; [auto with ok|]. texec. Qed.

Lemma t_calloutRef n : tri (renderCalloutRef E n) bal.
Proof. unfold renderCalloutRef. texec. Qed.
Lemma t_callouts l : tri (renderCallouts E l) bal.
Proof.
  induction l as [|n l IH]; cbn [renderCallouts]; [apply tri_ret; reflexivity|]. eapply tri_bind; [apply t_calloutRef|intros s Hs].
  eapply tri_bind; [exact IH|intros u Hu]. apply tri_ret. now apply bal_app.
Qed.
Lemma t_highlighted a l : forall i, tri (renderHighlighted E a i l) bal.
Proof.
  induction l as [|x l IH]; intros i; cbn [renderHighlighted]; [apply tri_ret; reflexivity|].
  eapply tri_bind; [apply tri_ctx|intros ctx _]. eapply (tri_bind _ _ (fun _ => True)); [apply tri_lift; auto|intros tc _].
  eapply (tri_bind _ _ bal); [apply tri_lift; intros h Hh; apply wf_bal; eapply (sn_highlight E S); eauto|intros h Hh].
  eapply tri_bind; [apply t_callouts|intros cs Hcs]. eapply tri_bind; [apply IH|intros u Hu]. apply tri_ret.
  apply bal_app; [exact Hh|]. apply bal_app; [exact Hcs|]. apply bal_app; [destruct l; reflexivity|exact Hu].
Qed.
Lemma t_sourceElements a es : oka a -> oks es -> tri (renderSourceBlockElements E rec a es) (fun p => bal (fst p) /\ safe (fst (snd p)) /\ safe (snd (snd p))).
Proof.
  intros Ha He. unfold renderSourceBlockElements. apply tri_block. eapply tri_bind; [apply tri_ctx|intros ctx Hx]. apply ctx_oka in Hx.
  eapply (tri_bind _ _ bal); [|intros s Hs; apply tri_ret; cbn [fst snd]; auto with ok].
  match goal with |- tri (if ?b then _ else _) _ => destruct b end; [now apply t_elements|apply t_highlighted].
Qed.
Lemma t_source a es : oka a -> oks es -> tri (renderSourceBlock E rec a es) bal.
Proof.
  intros Ha He. unfold renderSourceBlock. eapply tri_bind; [now apply t_sourceElements|intros p (P1 & P2 & P3)].
  eapply tri_bind; [now apply t_roles|intros r Hr]. eapply tri_bind; [now apply t_title|intros ti Hti]. texec.
Qed.
Lemma oka_mset a k v : oka a -> ok v -> oka (mset a k v).
Proof.
  intros H V w W. induction a as [|[k' x] a IH]; cbn [mset map snd In] in W.
  - destruct W as [<-|[]]. exact V.
  - destruct (String.eqb k k'); cbn [map snd In] in W; (destruct W as [<-|W]; [try exact V; apply H; now left|]).
    + apply H. now right.
    + apply IH; [intros y Y; apply H; now right|exact W].
Qed.
Lemma t_sourcePara a es : oka a -> oks es -> tri (renderSourceParagraph E rec a es) bal.
Proof. intros Ha He. unfold renderSourceParagraph. apply t_source; [|exact He]. apply oka_mset; [exact Ha|]. apply ok_str. reflexivity. Qed.
Lemma t_listing a es : oka a -> oks es -> tri (renderListingBlock E rec a es) bal.
Proof.
  intros Ha He. unfold renderListingBlock. match goal with |- tri (if ?b then _ else _) _ => destruct b end; [now apply t_source|].
  apply tri_block. tusual; [apply tri_mapS; auto with ok|]. texec.
Qed.
Lemma t_mdquote a es : oka a -> oks es -> tri (renderMarkdownQuoteBlock E rec a es) bal.
Proof. intros Ha He. unfold renderMarkdownQuoteBlock. tusual; [apply tri_mapS; auto with ok|]. texec. Qed.
Lemma t_quote a es : oka a -> oks es -> tri (renderQuoteBlock E rec a es) bal.
Proof. intros Ha He. unfold renderQuoteBlock. tusual; [auto with ok|]. texec. Qed.
Lemma t_quotePara a es : oka a -> oks es -> tri (renderQuoteParagraph E rec a es) bal.
Proof.
  intros Ha He. unfold renderQuoteParagraph. eapply tri_bind; [now apply t_paraElements|intros c Hc]. eapply tri_bind; [now apply t_title|intros ti Hti].
  cbn [app attribution_fields]. texec.
Qed.
Lemma t_verse a es : oka a -> oks es -> tri (renderVerseBlock E rec a es) bal.
Proof.
  intros Ha He. unfold renderVerseBlock. eapply tri_bind; [now apply t_roles|intros r Hr]. apply tri_block.
  eapply tri_bind; [now apply t_elements|intros c Hc]. eapply tri_bind; [now apply t_title|intros ti Hti]. cbn [app attribution_fields]. texec.
Qed.

(** ** plain text *)
Lemma ok_inj {A} (x y : A) : Ok x = Ok y -> y = x.
Proof. congruence. Qed.
Definition symbol_text (name : string) : string := match mget symbols name with Some s => s | None => name end.
Lemma bal_symbol name : mget symbols name <> None -> text (symbol_text name).
Proof.
  unfold symbol_text. intros Hn. destruct (mget symbols name) as [s|] eqn:M; [|congruence].
  apply mget_In in M. assert (F : forallb (fun p => all_chars (fun c => negb (Ascii.eqb c lt)) (snd p)) symbols = true) by (vm_compute; reflexivity).
  rewrite forallb_forall in F. exact (F _ M).
Qed.
Lemma bal_plain esc k : (forall f, esc = Some f -> forall n, text (f n)) -> forall v x, ok v -> plain E k esc v = Ok x -> bal x.
Proof.
  intros HE. induction k as [|k IH]; intros v x Hv X; [discriminate X|].
  assert (G : forall l x, oks l -> (fix go (l : list val) : result string :=
         match l with
         | [] => Ok EmptyString
         | e :: r => do s <- plain E k esc e;
                     do t <- go r;
                     Ok ((match r, e with [], StringElement _ => trim_right_char " "%char s | _, _ => s end) ++ t)%string
         end) l = Ok x -> bal x).
  { induction l as [|e l IHl]; intros y O Y; [injection Y as <-; reflexivity|]. apply oks_cons in O as [O1 O2].
    destruct (plain E k esc e) as [s| |] eqn:P; [|discriminate Y..]. cbn [bind] in Y.
    match type of Y with context [bind (?g l) _] => destruct (g l) as [u| |] eqn:U; [|discriminate Y..] end. cbn [bind] in Y. injection Y as <-.
    apply bal_app; [|now apply IHl]. apply IH in P; [|exact O1]. destruct l; [|exact P]. destruct e; try exact P.
    apply tt_trim_right; [discriminate|discriminate|exact P]. }
  cbn [plain] in X. destruct v; try discriminate X.
  - eapply G; [|exact X]. apply (ok_list _ _ Hv), incl_refl.
  - injection X as <-. apply bal_text. exact (ok_local _ Hv).
  - destruct esc as [f|]; [|discriminate X]. injection X as <-. apply bal_text. now apply HE.
  - apply ok_inj in X. subst x. apply bal_text. exact (bal_symbol _ (ok_local _ Hv)).
  - eapply G; [|exact X]. apply (ok_list _ _ Hv). cbn [children]. now apply incl_appl, incl_refl.
  - eapply G; [|exact X]. apply (ok_list _ _ Hv), incl_refl.
  - assert (A : oka attrs) by (apply (ok_attrs _ _ Hv); cbn [children]; now apply incl_tl, incl_refl).
    assert (D : bal (toDisplayString fmtv v)).
    { assert (L : ok v) by (apply (ok_child _ _ Hv); cbn [children]; now left). destruct v; try reflexivity. destruct (ok_local _ L) as [L1 L2].
      cbn [toDisplayString]. apply bal_safe, safe_app; [destruct (String.eqb scheme "mailto:"); auto with ok|exact L2]. }
    destruct (mget attrs "text") as [w|] eqn:M; [|injection X as <-; exact D].
    destruct w; try (injection X as <-; exact D).
    + injection X as <-. apply bal_safe. eapply oka_str; eauto.
    + eapply G; [|exact X]. eapply oka_slice; eauto.
  - injection X as <-. apply bal_safe, safe_getD; [|reflexivity]. apply (ok_attrs _ _ Hv). cbn [children]. now apply incl_tl, incl_refl.
  - injection X as <-. apply bal_safe, safe_getD; [|reflexivity]. apply (ok_attrs _ _ Hv). cbn [children]. apply incl_refl.
  - destruct (Z.eqb id InvalidFootnoteReference); [discriminate X|]. injection X as <-.
    match goal with |- bal ?y => change y with ("<sup class=""footnote"">[" ++ itoa id ++ "]</sup>") end.
    apply (run_app_ok start (MT, ["sup"]) start); [vm_compute; reflexivity|]. apply (run_app_ok (MT, ["sup"]) (MT, ["sup"]) start); [|vm_compute; reflexivity].
    apply tt_text, safe_text, safe_itoa.
  - injection X as <-. reflexivity.
Qed.
Lemma bal_plainText v x : ok v -> renderPlainText E v = Ok x -> bal x.
Proof. apply bal_plain. intros f [= <-] n. apply text_escape. Qed.
Lemma bal_plainElements l : oks l -> forall x, renderPlainElements E l = Ok x -> bal x.
Proof.
  induction l as [|e l IH]; intros H x X; cbn [renderPlainElements] in X; [injection X as <-; reflexivity|]. apply oks_cons in H as [H1 H2].
  destruct (plain E _ None e) as [s| |] eqn:P; [|discriminate X..]. cbn [bind] in X.
  destruct (renderPlainElements E l) as [u| |]; [|discriminate X..]. cbn [bind] in X. injection X as <-. apply bal_app; [|now apply IH].
  eapply bal_plain; [|exact H1|exact P]. discriminate.
Qed.
Lemma t_versePara a es : oka a -> oks es -> tri (renderVerseParagraph E rec a es) bal.
Proof.
  intros Ha He. unfold renderVerseParagraph. eapply (tri_bind _ _ bal); [apply tri_lift; now apply bal_plainElements|intros c Hc].
  eapply tri_bind; [now apply t_title|intros ti Hti]. cbn [app attribution_fields]. texec.
Qed.
Lemma t_sidebar a es : oka a -> oks es -> tri (renderSidebarBlock E rec a es) bal.
Proof. intros Ha He. unfold renderSidebarBlock. tusual; [auto with ok|]. texec. Qed.
Lemma t_open a es : oka a -> oks es -> tri (renderOpenBlock E rec a es) bal.
Proof. intros Ha He. unfold renderOpenBlock. tusual; [auto with ok|]. texec. Qed.
Lemma t_passContent l : oks l -> tri (renderPassthroughContent rec l) bal.
Proof. intros H. unfold renderPassthroughContent. apply tri_mapS; auto with ok. Qed.
Lemma t_passPara l : oks l -> tri (renderPassthroughParagraph rec l) bal.
Proof. intros H. unfold renderPassthroughParagraph. apply tri_mapS; [intros x X; apply bal_app; [exact X|reflexivity]|now apply t_passContent]. Qed.
Lemma t_pass k l : oks l -> tri (renderInlinePassthrough rec k l) bal.
Proof.
  intros H. unfold renderInlinePassthrough. eapply tri_bind; [now apply t_passContent|intros s Hs]. apply tri_ret.
  destruct (String.eqb k "+"); [apply bal_text, text_html_escape|exact Hs].
Qed.
Lemma t_passBlock a es : oka a -> oks es -> tri (renderPassthroughBlock E rec a es) bal.
Proof.
  intros Ha He. unfold renderPassthroughBlock. apply tri_block. eapply tri_bind; [now apply t_elements|intros c Hc].
  eapply tri_bind; [now apply t_roles|intros r Hr]. texec.
Qed.
Lemma t_delimited k a es : oka a -> oks es -> (k = "literal" -> mget a "roles" = None) -> tri (renderDelimitedBlock E rec k a es) bal.
Proof.
  intros Ha He N. unfold renderDelimitedBlock.
  destruct (String.eqb k "example"). { destruct (ahas a "style"); [now apply t_admBlock|now apply t_example]. }
  destruct (String.eqb k "fenced"); [now apply t_fenced|]. destruct (String.eqb_spec k "literal"); [apply t_literal; auto|].
  destruct (String.eqb k "listing"); [now apply t_listing|]. destruct (String.eqb k "markdown-quote"); [now apply t_mdquote|].
  destruct (String.eqb k "pass"); [now apply t_passBlock|]. destruct (String.eqb k "quote"); [now apply t_quote|].
  destruct (String.eqb k "verse"); [now apply t_verse|]. destruct (String.eqb k "sidebar"); [now apply t_sidebar|].
  destruct (String.eqb k "open"); [now apply t_open|]. apply tri_fail.
Qed.
Lemma t_regular a es : oka a -> oks es -> tri (renderRegularParagraph E rec a es) bal.
Proof. intros Ha He. unfold renderRegularParagraph. tusual; [apply tri_mapS; auto with ok|]. texec. Qed.
Lemma t_manpagePara es : oks es -> tri (renderManpageNameParagraph E rec es) bal.
Proof. intros He. unfold renderManpageNameParagraph. eapply tri_bind; [now apply t_elements|intros c Hc]. texec. Qed.
Lemma t_embedded a es : oks es -> tri (renderEmbeddedParagraph E rec a es "") bal.
Proof. intros He. unfold renderEmbeddedParagraph. eapply tri_bind; [now apply t_elements|intros c Hc]. texec. Qed.
Lemma t_paragraph a es : oka a -> oks es -> (mget a "style" = Some (VStr "literal") \/ mget a "style" = Some (VStr "literal_paragraph") -> mget a "roles" = None) ->
  tri (renderParagraph E rec a es) bal.
Proof.
  intros Ha He N st x st' HJ X. unfold renderParagraph in X.
  destruct (r_within st || (0 <? r_list st)%Z); [now apply (t_embedded a es He st x st')|].
  destruct (mget a "style") as [v|] eqn:G; [|now apply (t_regular a es Ha He st x st')].
  destruct v; try (now apply (t_regular a es Ha He st x st')).
  destruct (String.eqb s "example"); [now apply (t_examplePara a es Ha He st x st')|]. destruct (String.eqb s "listing"); [now apply (t_listingPara a es Ha He st x st')|].
  destruct (String.eqb s "source"); [now apply (t_sourcePara a es Ha He st x st')|]. destruct (String.eqb s "verse"); [now apply (t_versePara a es Ha He st x st')|].
  destruct (String.eqb s "quote"); [now apply (t_quotePara a es Ha He st x st')|]. destruct (String.eqb s "pass"); [now apply (t_passPara es He st x st')|].
  destruct (String.eqb s "manpage"); [now apply (t_manpagePara es He st x st')|].
  destruct (existsb (String.eqb s) ["TIP"; "NOTE"; "IMPORTANT"; "WARNING"; "CAUTION"]); [now apply (t_admPara a es Ha He st x st')|].
  destruct (String.eqb_spec s "literal_paragraph") as [->|].
  { cbn [orb] in X. apply (t_literalPara a es Ha He (N (or_intror eq_refl)) st x st' HJ X). }
  destruct (String.eqb_spec s "literal") as [->|]; cbn [orb] in X; [|now apply (t_regular a es Ha He st x st')].
  apply (t_literalPara a es Ha He (N (or_introl eq_refl)) st x st' HJ X).
Qed.

(** ** lists *)
Definition ne {A} (P : rst -> Prop) (m : M A) (Q : A -> Prop) : Prop := forall st a st', P st -> m st = Ok (a, st') -> Q a.
Hypothesis Hne : forall v, solid v -> ne (fun st => (0 < r_list st)%Z) (rec v) (fun s => s <> "").

Ltac use H := eapply tri_bind; [exact H|].
Lemma t_item t es : t = TOrderedListElement \/ t = TUnorderedListElement -> oks es -> tri (renderItem E rec t es) bal.
Proof.
  intros T H. unfold renderItem. eapply tri_bind; [now apply t_listElements|intros c Hc]. destruct T as [-> | ->]; texec.
Qed.
Lemma t_orderedItems l : oks l -> tri (renderOrderedItems E rec l) bal.
Proof.
  induction l as [|x l IH]; intros H; cbn [renderOrderedItems]; [apply tri_ret, bal_nil|]. apply oks_cons in H as [H1 H2].
  destruct x; try apply tri_fail. eapply tri_bind; [apply t_item; [auto|]|intros s0 Hs].
  { apply (ok_list _ _ H1). cbn [children]. now apply incl_appl, incl_refl. }
  eapply tri_bind; [now apply IH|intros u Hu]. apply tri_ret. now apply bal_app.
Qed.
Lemma safe_numbering x : safe (numberingType x).
Proof.
  unfold numberingType. cbn [mget]. repeat match goal with |- context [if ?b then _ else _] => destruct b; [reflexivity|] end. reflexivity.
Qed.
Hint Resolve safe_numbering t_orderedItems : ok.
Lemma t_ordered a es : oka a -> oks es -> tri (renderOrderedList E rec a es) bal.
Proof.
  intros Ha He. unfold renderOrderedList. eapply tri_bind; [now apply t_orderedItems|intros c Hc]. eapply tri_bind; [now apply t_roles|intros r Hr].
  eapply (tri_bind _ _ safe).
  { apply tri_lift. intros s G. unfold getNumberingStyle in G. destruct (getAsString a "style") as [y|] eqn:Y.
    { injection G as <-. eapply safe_getSome; eauto. }
    destruct es as [|x es]; [discriminate G|]. destruct x; try discriminate G. injection G as <-. apply oks_cons in He as [H1 _]. exact (ok_local _ H1). }
  intros sty Hsty. eapply tri_bind; [now apply t_title|intros ti Hti]. texec.
Qed.
Lemma t_unorderedItems l : oks l -> tri (renderUnorderedItems E rec l) bal.
Proof.
  induction l as [|x l IH]; intros H; cbn [renderUnorderedItems]; [apply tri_ret, bal_nil|]. apply oks_cons in H as [H1 H2].
  destruct x; try apply tri_fail; (eapply tri_bind; [apply t_item; [auto|]; apply (ok_list _ _ H1); cbn [children]|intros s0 Hs;
    eapply tri_bind; [now apply IH|intros u Hu]; apply tri_ret; now apply bal_app]);
    try (now apply incl_appl, incl_refl). now apply incl_appr, incl_appl, incl_refl.
Qed.
Lemma t_unordered a es : oka a -> oks es -> tri (renderUnorderedList E rec a es) bal.
Proof.
  intros Ha He. unfold renderUnorderedList. eapply (tri_bind _ _ (fun _ => True)).
  { destruct es as [|x es]; [now apply tri_ret|]. destruct x; try apply tri_fail. now apply tri_ret. }
  intros ck _. eapply tri_bind; [now apply t_unorderedItems|intros c Hc]. eapply tri_bind; [now apply t_roles|intros r Hr].
  eapply tri_bind; [now apply t_title|intros ti Hti]. texec.
Qed.
Lemma t_calloutItems l : oks l -> tri (renderCalloutItems E rec l) bal.
Proof.
  induction l as [|x l IH]; intros H; cbn [renderCalloutItems]; [apply tri_ret, bal_nil|]. apply oks_cons in H as [H1 H2].
  destruct x; try apply tri_fail. eapply tri_bind; [apply t_listElements|intros c Hc].
  { apply (ok_list _ _ H1). cbn [children]. now apply incl_appl, incl_refl. }
  eapply (tri_bind _ _ bal); [texec|intros s0 Hs]. eapply tri_bind; [now apply IH|intros u Hu]. apply tri_ret. now apply bal_app.
Qed.
Lemma t_callout a es : oka a -> oks es -> tri (renderCalloutList E rec a es) bal.
Proof. intros Ha He. unfold renderCalloutList. tusual; [now apply t_calloutItems|]. texec. Qed.
Lemma t_labeledItems t l : t = TLabeledListElement \/ t = TQAndAListElement -> forall cont, oks l -> tri (renderLabeledItems E rec t cont l) bal.
Proof.
  intros T. induction l as [|x l IH]; intros cont H; cbn [renderLabeledItems]; [apply tri_ret, bal_nil|]. apply oks_cons in H as [H1 H2].
  destruct x; try apply tri_fail. eapply (tri_bind _ _ (fun p => bal (fst p))).
  { unfold renderLabeledListItem. eapply tri_bind; [apply t_inline; apply (ok_list _ _ H1); cbn [children]; now apply incl_appl, incl_refl|intros tm Htm].
    eapply tri_bind; [apply t_listElements; apply (ok_list _ _ H1); cbn [children]; now apply incl_appr, incl_appl, incl_refl|intros c Hc].
    eapply (tri_bind _ _ bal); [destruct T as [-> | ->]; texec|intros u Hu]. now apply tri_ret. }
  intros p Hp. eapply tri_bind; [apply IH, H2|intros u Hu]. apply tri_ret. now apply bal_app.
Qed.

(** the horizontal layout *)
Fixpoint last_ok (l : list val) : Prop :=
  match l with
  | [] => True
  | [LabeledListElement _ _ _ body] => exists x r, body = x :: r /\ solid x
  | _ :: r => last_ok r
  end.
Lemma last_ok_of l : (forall items s t la body, l = (items ++ [LabeledListElement s t la body])%list -> exists x r, body = x :: r /\ solid x) -> last_ok l.
Proof.
  induction l as [|x l IH]; intros H; [exact I|]. destruct l as [|y l].
  - cbn [last_ok]. destruct x; try exact I. apply (H [] _ _ _ _ eq_refl).
  - assert (L : last_ok (y :: l)) by (apply IH; intros items s t la body Eq; apply (H (x :: items) s t la body); cbn [app]; congruence).
    destruct x; exact L.
Qed.
Lemma t_listElements_ne l x r : l = x :: r -> solid x -> oks l -> tri (renderListElements rec l) (fun s => bal s /\ s <> "").
Proof.
  intros -> Hx H st s st' HJ X. destruct (t_listElements _ H _ _ _ HJ X) as (J1 & L1 & B1). split; [exact J1|]. split; [exact L1|]. split; [exact B1|].
  cbn [renderListElements] in X. unfold bindM, inList in X.
  match type of X with context [rec x ?s] => destruct (rec x s) as [[u st1]| |] eqn:U; [|discriminate X..] end.
  match type of X with context [renderElements rec r ?s] => destruct (renderElements rec r s) as [[w st2]| |]; [|discriminate X..] end.
  injection X as <- _. apply (Hne x Hx) in U; [|cbn [r_list]; destruct HJ; lia]. destruct u; [congruence|discriminate].
Qed.
Lemma t_hitem cont tm c : bal tm -> bal c ->
  tri (exec E TLabeledListHorizontalElement [(".Term", FS tm); (".Content", FS c); (".Continuation", FB cont)])
      (fun s => run (rows cont) s = Some (rows (String.eqb c ""))).
Proof.
  intros Ht Hc st x st' HJ X. apply exec_nodes_of in X as [-> X]. split; [exact HJ|]. split; [reflexivity|].
  pose proof (horizontal_ok (e_xhtml E) cont (negb (String.eqb c ""))) as C. rewrite negb_involutive in C.
  refine (ck_sound _ (e_toLower E) (sn_lower E S) _ _ _ _ _ x C _ _ X).
  - apply eoks_eok. fields.
  - unfold hasm. repeat constructor.
Qed.
Lemma t_hItems l : forall cont, oks l -> last_ok l -> l <> [] ->
  tri (renderLabeledItems E rec TLabeledListHorizontalElement cont l) (fun q => run (rows cont) q = Some start).
Proof.
  induction l as [|x l IH]; intros cont H L N; [congruence|]. cbn [renderLabeledItems]. apply oks_cons in H as [H1 H2].
  destruct x; try apply tri_fail.
  assert (O1 : oks term) by (apply (ok_list _ _ H1); cbn [children]; now apply incl_appl, incl_refl).
  assert (O2 : oks elements) by (apply (ok_list _ _ H1); cbn [children]; now apply incl_appr, incl_appl, incl_refl).
  destruct l as [|y l].
  - cbn [last_ok] in L. destruct L as (z & r & Eq & Sz). eapply (tri_bind _ _ (fun p => run (rows cont) (fst p) = Some start)).
    { unfold renderLabeledListItem. eapply tri_bind; [apply t_inline, O1|intros tm Htm].
      eapply tri_bind; [apply (t_listElements_ne elements z r Eq Sz O2)|intros c [Hc Nc]].
      eapply tri_bind; [now apply t_hitem|intros u Hu]. apply tri_ret. cbn [fst]. apply String.eqb_neq in Nc. now rewrite Nc in Hu. }
    intros p Hp. cbn [renderLabeledItems]. eapply (tri_bind _ _ (fun q => q = "")); [now apply tri_ret|intros q ->]. apply tri_ret. now rewrite app_nil_s.
  - eapply (tri_bind _ _ (fun p => run (rows cont) (fst p) = Some (rows (snd p)))).
    { unfold renderLabeledListItem. eapply tri_bind; [apply t_inline, O1|intros tm Htm].
      eapply tri_bind; [apply t_listElements, O2|intros c Hc].
      eapply tri_bind; [now apply t_hitem|intros u Hu]. apply tri_ret. exact Hu. }
    intros p Hp. eapply tri_bind; [apply (IH (snd p) H2 L); discriminate|intros q Hq]. apply tri_ret. eapply run_app_ok; eauto.
Qed.
Lemma t_labeled a es : oka a -> oks es ->
  (mget a "style" = Some (VStr "horizontal") -> forall items s t la body, es = (items ++ [LabeledListElement s t la body])%list -> exists x r, body = x :: r /\ solid x) ->
  tri (renderLabeledList E rec a es) bal.
Proof.
  intros Ha He L. unfold renderLabeledList, getLabeledListTmpl.
  destruct (mget a "style") as [v|] eqn:G.
  2:{ eapply (tri_bind _ _ (fun p => p = (TLabeledList, TLabeledListElement))); [now apply tri_ret|intros p ->]. cbn [fst snd].
      tusual; [apply t_labeledItems; auto|]. texec. }
  destruct (eq_str v "qanda").
  { eapply (tri_bind _ _ (fun p => p = (TQAndAList, TQAndAListElement))); [now apply tri_ret|intros p ->]. cbn [fst snd].
    tusual; [apply t_labeledItems; auto|]. texec. }
  destruct (eq_str v "horizontal") eqn:Q; [|intros st x st' _ X; discriminate X].
  eapply (tri_bind _ _ (fun p => p = (TLabeledListHorizontal, TLabeledListHorizontalElement))); [now apply tri_ret|intros p ->]. cbn [fst snd].
  assert (V : v = VStr "horizontal").
  { destruct v; try discriminate Q. cbn [eq_str] in Q. apply String.eqb_eq in Q. congruence. }
  subst v. specialize (L eq_refl). apply last_ok_of in L.
  tusual; [|texec]. destruct es as [|x es]; [apply tri_ret, bal_nil|]. apply t_hItems; [exact He|exact L|discriminate].
Qed.
Lemma t_list k a es : ok (ListBlock k a es) -> tri (renderList E rec k a es) bal.
Proof.
  intros Hv. assert (Ha : oka a) by (apply (ok_attrs _ _ Hv); cbn [children]; now apply incl_appr, incl_refl).
  assert (He : oks es) by (apply (ok_list _ _ Hv); cbn [children]; now apply incl_appl, incl_refl).
  unfold renderList. destruct (String.eqb k "ordered_list"); [now apply t_ordered|]. destruct (String.eqb k "unordered_list"); [now apply t_unordered|].
  destruct (String.eqb_spec k "labeled_list") as [->|]; [apply t_labeled; [exact Ha|exact He|exact (ok_local _ Hv eq_refl)]|].
  destruct (String.eqb k "callout_list"); [now apply t_callout|apply tri_fail].
Qed.

(** ** tables *)
Definition col_ok (c : rcol) : Prop := (rc_halign c = "<" \/ safe (rc_halign c)) /\ (rc_valign c = "<" \/ safe (rc_valign c)) /\ safe (rc_width c).
Lemma cell_exec t col s : t = TTableHeaderCell \/ t = TTableFooterCell \/ t = TTableCell -> col_ok col -> bal s -> tri (exec E t (cell_fields col s)) bal.
Proof. intros T (C1 & C2 & _) Hs. unfold cell_fields. destruct T as [-> |[-> | ->]]; texec; assumption. Qed.
Lemma t_edgeCell t c col : t = TTableHeaderCell \/ t = TTableFooterCell -> ok c -> col_ok col -> tri (renderEdgeCell E rec t c col) bal.
Proof.
  intros T H C. unfold renderEdgeCell. destruct c; try apply tri_fail. destruct elements as [|p l]; [apply tri_fail|]. destruct p; try apply tri_fail.
  destruct l; [|apply tri_fail]. eapply tri_bind; [apply t_inline|intros s0 Hs; apply cell_exec; tauto].
  eapply ok_list; [eapply (ok_child _ _ H); now left|]. cbn [children]. now apply incl_appl, incl_refl.
Qed.
Lemma t_edgeCells t cols l : t = TTableHeaderCell \/ t = TTableFooterCell -> Forall col_ok cols -> forall i, oks l -> tri (renderEdgeCells E rec t cols i l) bal.
Proof.
  intros T C. induction l as [|c l IH]; intros i H; cbn [renderEdgeCells]; [apply tri_ret, bal_nil|]. apply oks_cons in H as [H1 H2].
  destruct cols as [|d cols']; [apply tri_panic|]. eapply tri_bind; [apply t_edgeCell; [exact T|exact H1|]|intros s0 Hs].
  { apply Forall_nth; [exact C|]. apply Nat.mod_upper_bound. discriminate. }
  eapply tri_bind; [now apply IH|intros u Hu]. apply tri_ret. now apply bal_app.
Qed.
Lemma t_edgeRow t tc row cols : t = TTableHeader /\ tc = TTableHeaderCell \/ t = TTableFooter /\ tc = TTableFooterCell -> ok row -> Forall col_ok cols ->
  tri (renderEdgeRow E rec t tc row cols) bal.
Proof.
  intros T H C. unfold renderEdgeRow. destruct row; try (apply tri_ret, bal_nil).
  eapply tri_bind; [apply t_edgeCells; [tauto|exact C|]; apply (ok_list _ _ H), incl_refl|intros c Hc].
  destruct T as [[-> ->]|[-> ->]]; texec.
Qed.
Lemma t_cellBlock v : ok v -> tri (renderTableCellBlock E rec v) bal.
Proof.
  intros H. unfold renderTableCellBlock. destruct v; try (eapply tri_bind; [now apply Hrec|intros s0 Hs; texec]).
  eapply tri_bind; [apply t_elements; apply (ok_list _ _ H); cbn [children]; now apply incl_appl, incl_refl|intros c Hc].
  eapply tri_bind; [apply t_title; apply (ok_attrs _ _ H); cbn [children]; now apply incl_appr, incl_refl|intros ti Hti].
  assert (Ha : oka attrs) by (apply (ok_attrs _ _ H); cbn [children]; now apply incl_appr, incl_refl).
  eapply (tri_bind _ _ bal); [texec|intros s0 Hs]. apply tri_ret. apply (tt_trim_suffix LF [] []); [reflexivity|exact Hs].
Qed.
Lemma t_cellBlocks l : oks l -> tri (renderCellBlocks E rec l) bal.
Proof.
  induction l as [|x l IH]; intros H; cbn [renderCellBlocks]; [apply tri_ret, bal_nil|]. apply oks_cons in H as [H1 H2].
  eapply tri_bind; [now apply t_cellBlock|intros s0 Hs]. eapply tri_bind; [now apply IH|intros u Hu]. apply tri_ret. now apply bal_app.
Qed.
Lemma t_tableCell c col : ok c -> col_ok col -> tri (renderTableCell E rec c col) bal.
Proof.
  intros H C. unfold renderTableCell. destruct c; try apply tri_fail. eapply tri_bind; [apply t_cellBlocks; apply (ok_list _ _ H), incl_refl|intros s0 Hs].
  destruct (String.eqb (rc_style col) "h"); apply cell_exec; tauto.
Qed.
Lemma t_cells cols l : Forall col_ok cols -> forall i, oks l -> tri (renderCells E rec cols i l) bal.
Proof.
  intros C. induction l as [|c l IH]; intros i H; cbn [renderCells]; [apply tri_ret, bal_nil|]. apply oks_cons in H as [H1 H2].
  destruct (nth_error cols i) as [col|] eqn:N; [|apply tri_panic]. eapply tri_bind; [apply t_tableCell; [exact H1|]|intros s0 Hs].
  { rewrite Forall_forall in C. apply C. eapply nth_error_In; eauto. }
  eapply tri_bind; [now apply IH|intros u Hu]. apply tri_ret. now apply bal_app.
Qed.
Lemma t_rows cols l : Forall col_ok cols -> oks l -> tri (renderRows E rec cols l) bal.
Proof.
  intros C. induction l as [|c l IH]; intros H; cbn [renderRows]; [apply tri_ret, bal_nil|]. apply oks_cons in H as [H1 H2].
  destruct c; try apply tri_fail. eapply tri_bind; [apply (t_cells cols _ C 0); apply (ok_list _ _ H1), incl_refl|intros c Hc].
  eapply (tri_bind _ _ bal); [texec|intros s0 Hs]. eapply tri_bind; [now apply IH|intros u Hu]. apply tri_ret. now apply bal_app.
Qed.
Lemma t_table v : ok v -> tri (renderTable E rec v) bal.
Proof.
  intros H. unfold renderTable. destruct v; try apply tri_fail.
  assert (Ha : oka attrs) by (apply (ok_attrs _ _ H); cbn [children]; now apply incl_tl, incl_tl, incl_appr, incl_refl).
  eapply (tri_bind _ _ (fun cn => bal (fst cn))).
  { destruct (ahas attrs "title"); [apply t_caption; [exact Ha|reflexivity]|apply tri_ret, bal_nil]. }
  intros cn Hcn. eapply (tri_bind _ _ (Forall col_ok)); [apply tri_lift; intros cols X; exact (sn_columns E S _ _ H X)|intros cols C].
  eapply tri_bind; [apply t_edgeRow; [tauto| |exact C]; eapply (ok_child _ _ H); now left|intros h Hh].
  eapply tri_bind; [apply t_edgeRow; [tauto| |exact C]; eapply (ok_child _ _ H); right; now left|intros f Hf].
  eapply (tri_bind _ _ bal).
  { eapply tri_bind; [apply (t_rows cols _ C); apply (ok_list _ _ H); cbn [children]; now apply incl_tl, incl_tl, incl_appl, incl_refl|intros c Hc]. texec. }
  intros b Hb. eapply tri_bind; [now apply t_roles|intros r Hr]. eapply tri_bind; [now apply t_title|intros ti Hti].
  texec; [apply Forall_map; revert C; apply Forall_impl; intros c (_ & _ & W); constructor; [exact W|constructor]|
          repeat match goal with |- context [if ?b then _ else _] => destruct b end; reflexivity].
Qed.

(** ** images *)
Lemma safe_alt a src : oka a -> safe src -> forall r, renderImageAlt E a src = Ok r -> safe r.
Proof.
  intros Ha Hs r X. unfold renderImageAlt in X. destruct (getAsString a "alt") as [y|] eqn:G; [injection X as <-; eapply safe_getSome; eauto|].
  eapply (sn_alt E S); eauto.
Qed.
Lemma t_imageBlock loc a : ok loc -> oka a -> tri (renderImageBlock E rec loc a) bal.
Proof.
  intros Hl Ha. unfold renderImageBlock. eapply tri_bind; [now apply t_title|intros ti Hti].
  eapply (tri_bind _ _ (fun cn => bal (fst cn))).
  { destruct (String.eqb ti ""); [apply tri_ret, bal_nil|apply t_caption; [exact Ha|reflexivity]]. }
  intros cn Hcn. eapply tri_bind; [now apply t_imageRoles|intros r Hr]. eapply tri_bind; [apply tri_ctx|intros ctx Hx].
  pose proof (sn_src E S ctx loc Hx Hl) as Hsrc.
  eapply (tri_bind _ _ safe); [apply tri_lift; now apply safe_alt|intros alt Halt]. texec.
Qed.
Lemma t_inlineImage loc a : ok loc -> oka a -> (forall l, mget a "title" <> Some (VSlice l)) -> tri (renderInlineImage E rec loc a) bal.
Proof.
  intros Hl Ha N. unfold renderInlineImage. eapply tri_bind; [now apply t_imageRoles|intros r Hr]. eapply tri_bind; [apply tri_ctx|intros ctx Hx].
  pose proof (sn_src E S ctx loc Hx Hl) as Hsrc.
  eapply (tri_bind _ _ safe); [apply tri_lift; now apply safe_alt|intros alt Halt]. eapply tri_bind; [now apply t_title_safe|intros ti Hti]. texec.
Qed.

(** ** inline elements *)
Lemma t_label l : oks l -> tri (renderLabel E rec l) bal.
Proof.
  induction l as [|x l IH]; intros H; cbn [renderLabel]; [apply tri_ret, bal_nil|]. apply oks_cons in H as [H1 H2].
  eapply (tri_bind _ _ bal); [|intros s0 Hs; eapply tri_bind; [now apply IH|intros u Hu]; apply tri_ret; now apply bal_app].
  destruct x; try (now apply Hrec). apply tri_lift. intros y. now apply bal_plainText.
Qed.
Lemma t_xref id label : ok id -> ok label -> tri (renderInternalCrossReference E rec id label) bal.
Proof.
  intros Hi Hl. unfold renderInternalCrossReference. destruct id; try apply tri_fail. pose proof (ok_local _ Hi) as Hs. cbn [local] in Hs.
  eapply (tri_bind _ _ bal); [|intros l0 Hl0; texec].
  assert (R : tri (renderRefLabel E rec s) bal).
  { unfold renderRefLabel. destruct (mget (e_refs E) s) as [v|] eqn:G.
    - pose proof (sn_refs E S _ _ G) as V. destruct v; try apply tri_fail; [apply tri_ret, bal_safe; exact (ok_local _ V)|].
      apply t_label. apply (ok_list _ _ V), incl_refl.
    - apply tri_ret, bal_safe, safe_app; [reflexivity|]. apply safe_app; [exact Hs|reflexivity]. }
  destruct label; try exact R. apply tri_ret, bal_safe. exact (ok_local _ Hl).
Qed.
Lemma safe_display loc : ok loc -> safe (toDisplayString fmtv loc).
Proof.
  intros H. destruct loc; try reflexivity. destruct (ok_local _ H) as [L1 L2]. cbn [toDisplayString].
  apply safe_app; [destruct (String.eqb scheme "mailto:"); auto with ok|exact L2].
Qed.
Lemma safe_toString loc : ok loc -> safe (toString fmtv loc).
Proof. intros H. destruct loc; try reflexivity. destruct (ok_local _ H) as [L1 L2]. cbn [toString]. now apply safe_app. Qed.
Lemma safe_xref loc p q : ok loc -> safe p -> safe q -> safe (xrefTarget E loc p q).
Proof.
  intros H P Q. unfold xrefTarget. pose proof (safe_display loc H) as D. destruct (String.eqb _ "").
  - apply safe_app; [exact P|]. now apply safe_app.
  - apply safe_app; [|reflexivity]. now apply all_stake.
Qed.
Lemma t_extXref loc a : ok loc -> oka a -> tri (renderExternalCrossReference E rec loc a) bal.
Proof.
  intros Hl Ha. unfold renderExternalCrossReference.
  assert (D1 : safe (xrefTarget E loc "[" "]")) by (apply safe_xref; [exact Hl|reflexivity|reflexivity]).
  assert (D2 : safe (xrefTarget E loc "#" "")) by (apply safe_xref; [exact Hl|reflexivity|reflexivity]).
  eapply (tri_bind _ _ bal); [|intros l Hl0; texec].
  destruct (mget a "xrefLabel") as [v|] eqn:G; [|apply tri_ret; auto with ok]. destruct v; try (apply tri_ret; auto with ok).
  - apply bal_safe. eapply oka_str; eauto.
  - apply t_inline. eapply oka_slice; eauto.
Qed.
Lemma t_quoted k es a : oks es -> oka a -> tri (renderQuotedText E rec k es a) bal.
Proof.
  intros He Ha. unfold renderQuotedText. eapply tri_bind; [now apply t_elements|intros c Hc]. eapply tri_bind; [now apply t_roles|intros r Hr].
  destruct (quotedTemplate k) as [t|] eqn:Q; [|apply tri_fail]. unfold quotedTemplate in Q.
  repeat match type of Q with (if ?b then _ else _) = _ => destruct b; [injection Q as <-; texec|] end. discriminate Q.
Qed.
Lemma t_link a loc : ok loc -> oka a -> tri (renderLink E rec a loc) bal.
Proof.
  intros Hl Ha. unfold renderLink. eapply tri_bind; [now apply t_roles|intros r Hr].
  pose proof (safe_escape _ (safe_toString loc Hl)) as U.
  eapply (tri_bind _ _ (fun tc => bal (fst tc) /\ safe (snd tc))); [|intros tc [T1 T2]; texec].
  destruct (mget a "text") as [v|] eqn:G.
  - eapply (tri_bind _ _ bal); [|intros x X; apply tri_ret; split; assumption].
    destruct v; try (apply tri_ret, bal_nil).
    + apply tri_ret, bal_text, text_escape.
    + apply t_inline. eapply oka_slice; eauto.
  - apply tri_ret. cbn [fst snd]. split; [apply bal_text, text_escape|].
    assert (B : safe (match scheme_of loc with Some s => if String.eqb s "mailto:" then "" else "bare" | None => "" end)).
    { destruct (scheme_of loc) as [y|]; [|reflexivity]. destruct (String.eqb y "mailto:"); reflexivity. }
    destruct (String.eqb r ""); [exact B|]. apply safe_app; [exact B|]. apply safe_app; [reflexivity|exact Hr].
Qed.
Lemma safe_ref r : ok r -> safe (ref_str r).
Proof. intros H. destruct r; try reflexivity. exact (ok_local _ H). Qed.
Lemma t_noteRef id r dup : ok r -> tri (renderFootnoteReference E id r dup) bal.
Proof.
  intros H. apply safe_ref in H. unfold renderFootnoteReference. destruct (negb (Z.eqb id InvalidFootnoteReference) && negb dup); [texec|]. destruct dup; texec.
Qed.
Lemma t_macro v k : ok v -> tri (renderUserMacro E rec v k) bal.
Proof.
  intros H. unfold renderUserMacro. destruct (e_macro E v) as [r|] eqn:G.
  - apply tri_lift. intros x ->. apply wf_bal. eapply (sn_macro E S); eauto.
  - pose proof (sn_raw E S v H) as R. destruct (String.eqb k "block"); [|apply tri_ret; now apply bal_text].
    apply t_paragraph; [intros x []| |discriminate 1 || (intros [X|X]; discriminate X)]. intros x [<-|[]]. now apply ok_string.
Qed.
Lemma t_button a : oka a -> (exists l, mget a "label" = Some l /\ l <> VNil) -> tri (renderInlineButton E a) bal.
Proof.
  intros Ha (l & G & N). unfold renderInlineButton. rewrite G. pose proof (oka_get _ _ _ Ha G) as V.
  assert (X : safe match l with VNil => "<no value>" | VStr s => s | v => fmtv v end).
  { destruct l; try (apply (sn_fmtv E S); exact V); [congruence|exact (ok_local _ V)]. }
  apply tri_exec; [reflexivity|]. unfold eoks. apply Forall_cons; [|apply Forall_nil]. cbn [fst snd]. fieldk.
  destruct l; exact X.
Qed.
Lemma t_menu path : path <> [] -> Forall safe path -> tri (exec E TInlineMenu [(".Path", FL (map (fun s => [("", s)]) path))]) bal.
Proof.
  intros N H. apply tri_exec_asm; [reflexivity| |].
  - fields. apply Forall_map. revert H. apply Forall_impl. intros x X. constructor; [exact X|constructor].
  - constructor; [|constructor]. destruct path; [congruence|reflexivity].
Qed.

(** ** sections *)
Hypothesis HN : forall k v, mget (e_numbers E) k = Some v -> safe v.
Lemma itoa_not_r z : all_chars (fun c => negb (Ascii.eqb c "r")) (itoa z) = true.
Proof.
  assert (D : forall n, negb (Ascii.eqb (digit_ascii (N.modulo n 10)) "r") = true).
  { intros d. assert (H : (N.modulo d 10 < 10)%N) by (apply N.mod_lt; lia). revert H. generalize (N.modulo d 10) as n. intros n H.
    assert (G : forallb (fun k => negb (Ascii.eqb (digit_ascii (N.of_nat k)) "r")) (seq 0 10) = true) by (vm_compute; reflexivity).
    rewrite forallb_forall in G. rewrite <- (N2Nat.id n). apply G. apply in_seq. lia. }
  assert (I : forall n, all_chars (fun c => negb (Ascii.eqb c "r")) (itoaN n) = true).
  { intros n. unfold itoaN. assert (G : forall k n acc, all_chars (fun c => negb (Ascii.eqb c "r")) acc = true ->
      all_chars (fun c => negb (Ascii.eqb c "r")) (digits_fuel k n acc) = true).
    { induction k as [|k IH]; intros m acc H; cbn [digits_fuel]; [exact H|].
      assert (A : all_chars (fun c => negb (Ascii.eqb c "r")) (String (digit_ascii (m mod 10)) acc) = true) by (cbn [all_chars]; now rewrite D, H).
      destruct (m <? 10)%N; [exact A|now apply IH]. }
    now apply G. }
  destruct z; cbn [itoa]; apply I || (cbn [all_chars]; now rewrite I).
Qed.
Lemma heading_void z : is_void ("h" ++ itoa z) = false.
Proof.
  destruct (is_void ("h" ++ itoa z)) eqn:V; [|reflexivity]. apply is_void_In in V. pose proof (itoa_not_r z) as R. cbn [append void_elements In] in V.
  repeat (destruct V as [V|V]; [injection V as V; try discriminate V; rewrite <- V in R; discriminate R|]). destruct V.
Qed.
Lemma bal_heading z i num c : safe i -> safe num -> bal c ->
  bal ("<h" ++ itoa z ++ " id=""" ++ i ++ """>" ++ num ++ c ++ "</h" ++ itoa z ++ ">" ++ LF).
Proof.
  intros Hi Hn Hc. unfold bal. eapply run_app_ok; [reflexivity|]. eapply run_app_ok; [apply run_name_o, itoa_name|].
  set (n := snoc "" "h" ++ itoa z). assert (V : is_void n = false) by (unfold n; apply (heading_void z)).
  eapply (run_app_ok _ (MQ n, [])); [reflexivity|]. eapply run_app_ok; [now apply run_safe_q|].
  eapply (run_app_ok _ (MT, [n])); [change (Some (finish n []) = Some (MT, [n])); unfold finish; now rewrite V|].
  eapply run_app_ok; [apply tt_text; now apply safe_text|]. eapply run_app_ok; [apply bal_tt; exact Hc|].
  eapply (run_app_ok _ (MC (snoc "" "h"), [n])); [reflexivity|]. eapply run_app_ok; [apply run_name_c, itoa_name|].
  fold n. cbn. now rewrite String.eqb_refl.
Qed.
Lemma t_sectionTitle lvl a t : oka a -> oks t -> tri (renderSectionTitle E rec lvl a t) bal.
Proof.
  intros Ha Ht. unfold renderSectionTitle. eapply tri_bind; [now apply t_inline|intros x Hx].
  assert (Hn : safe (optS (mget (e_numbers E) (optS (getAsString a "id"))))).
  { destruct (mget (e_numbers E) (optS (getAsString a "id"))) eqn:G; [eapply HN; eauto|reflexivity]. }
  intros st y st' HJ X. apply exec_nodes_of in X as [-> X]. split; [exact HJ|]. split; [reflexivity|]. rewrite title_ok in X.
  set (num := optS (mget (e_numbers E) (optS (getAsString a "id")))) in *. set (i := renderElementID a) in *.
  pose proof (safe_id a Ha) as Hi. fold i in Hi. apply (tt_trimSpace [] []) in Hx. set (c := trimSpace x) in *.
  assert (Y : y = "<h" ++ itoa (lvl + 1) ++ " id=""" ++ e_toLower E i ++ """>" ++ (if String.eqb num "" then "" else num ++ ". ") ++ c ++ "</h" ++ itoa (lvl + 1) ++ ">" ++ LF).
  { clearbody num i c. cbn in X. destruct (String.eqb num ""); cbn in X; injection X as <-; reflexivity. }
  rewrite Y. apply bal_heading; [now apply (sn_lower E S)| |exact Hx]. destruct (String.eqb num ""); [reflexivity|]. apply safe_app; [exact Hn|reflexivity].
Qed.
Lemma t_section lvl a t es : oka a -> oks es -> (forall l, t = Some l -> oks l) -> tri (renderSection E rec lvl a t es) bal.
Proof.
  intros Ha He Ht. unfold renderSection. eapply tri_bind; [apply t_sectionTitle; [exact Ha|destruct t as [l|]; [now apply Ht|intros x []]]|intros h Hh].
  eapply tri_bind; [now apply t_elements|intros c Hc]. eapply tri_bind; [now apply t_roles|intros r Hr]. texec.
Qed.
Lemma t_preamble es toc : oks es -> tri toc bal -> tri (renderPreamble E rec es toc) bal.
Proof.
  intros He Ht. unfold renderPreamble. eapply tri_bind; [now apply t_elements|intros c Hc]. eapply tri_bind; [exact Ht|intros t Ht0]. texec.
Qed.

(** ** changes of the attributes of the context *)
Lemma In_mset (a : attributes) k v x : In x (map snd (mset a k v)) -> x = v \/ In x (map snd a).
Proof.
  induction a as [|[k' y] a IH]; cbn [mset map snd In]; [intuition|]. destruct (String.eqb k k'); cbn [map snd In]; intuition.
Qed.
Lemma In_mdel (a : attributes) k x : In x (map snd (mdel a k)) -> In x (map snd a).
Proof.
  induction a as [|[k' y] a IH]; cbn [mdel map snd In]; [auto|]. destruct (String.eqb k k'); cbn [map snd In]; intuition.
Qed.
Lemma ctx_mset a k v : ctx_ok a -> ok v -> (k = "icons" -> icons_ok v) -> ctx_ok (mset a k v).
Proof.
  intros [A B] V K. split.
  - intros x X. apply In_mset in X as [->|X]; auto.
  - intros x X. destruct (String.eqb_spec k "icons") as [->|N].
    + rewrite mget_mset_eq in X. injection X as <-. auto.
    + rewrite mget_mset_neq in X by congruence. auto.
Qed.
Lemma ctx_mdel a k : ctx_ok a -> ctx_ok (mdel a k).
Proof.
  intros [A B]. split.
  - intros x X. apply In_mdel in X. auto.
  - intros x X. destruct (String.eqb_spec k "icons") as [->|N].
    + rewrite mget_mdel, String.eqb_refl in X. discriminate X.
    + rewrite mget_mdel in X. apply String.eqb_neq in N. rewrite N in X. auto.
Qed.
Lemma ok_roles l : (forall r, In r l -> exists s, r = VStr s) -> oks l -> ok (VRoles l).
Proof. intros H O x X. inversion X as [|? c ? C]; subst; [exact H|]. eapply (O c); eauto. Qed.
Lemma ok_options l : oks l -> ok (VOptions l).
Proof. intros O x X. inversion X as [|? c ? C]; subst; [exact I|]. eapply (O c); eauto. Qed.
Lemma oks_app l m : oks l -> oks m -> oks (l ++ m)%list.
Proof. intros H1 H2 x X. apply in_app_or in X as [X|X]; auto. Qed.
Lemma all_split f c : forall x, all_chars f x = true -> Forall (fun y => all_chars f y = true) (split_char c x).
Proof.
  induction x as [|d x IH]; intros H; cbn [split_char]; [constructor; [reflexivity|constructor]|]. cbn [all_chars] in H. apply andb_true_iff in H as [H1 H2].
  specialize (IH H2). destruct (Ascii.eqb d c); [constructor; [reflexivity|exact IH]|].
  destruct (split_char c x) as [|y ys]; [constructor; [cbn [all_chars]; now rewrite H1|constructor]|].
  inversion IH as [|? ? I1 I2]; subst. constructor; [|exact I2]. cbn [all_chars]. now rewrite H1, I1.
Qed.
Lemma ctx_aset a k v : ctx_ok a -> ok v -> (k = "icons" -> icons_ok v) -> (k = "role" -> exists s, v = VStr s) -> ctx_ok (aset a k v).
Proof.
  intros C V K R. unfold aset, AttrRole, AttrRoles, AttrOption, AttrOptions.
  assert (G : forall l, mget a "roles" = Some (VRoles l) -> (forall r, In r l -> exists s, r = VStr s) /\ oks l).
  { intros l X. apply (oka_get a) in X; [|now apply ctx_oka]. split; [exact (ok_local _ X)|apply (ok_list _ _ X), incl_refl]. }
  destruct (String.eqb_spec k "role") as [->|N1].
  { destruct (R eq_refl) as [s ->].
    assert (D : ok (VRoles [VStr s])).
    { apply ok_roles; [intros r [<-|[]]; eauto|intros x [<-|[]]; exact V]. }
    destruct (mget a "roles") as [w|] eqn:M; [|apply ctx_mset; [exact C|exact D|discriminate]].
    destruct w; try (apply ctx_mset; [exact C|exact D|discriminate]). destruct (G l eq_refl) as [G1 G2].
    apply ctx_mset; [exact C| |discriminate]. apply ok_roles.
    - intros r X. apply in_app_or in X as [X|[<-|[]]]; eauto.
    - apply oks_app; [exact G2|]. intros x [<-|[]]. exact V. }
  destruct (String.eqb_spec k "roles") as [->|N2].
  { destruct v; try exact C. assert (V1 := ok_local _ V). assert (V2 : oks l) by (apply (ok_list _ _ V), incl_refl). cbn [local] in V1.
    destruct (mget a "roles") as [w|] eqn:M; [|apply ctx_mset; [exact C|exact V|discriminate]].
    destruct w; try (apply ctx_mset; [exact C|exact V|discriminate]). destruct (G l0 eq_refl) as [G1 G2].
    apply ctx_mset; [exact C| |discriminate]. apply ok_roles; [|now apply oks_app]. intros r X. apply in_app_or in X as [X|X]; auto. }
  destruct (String.eqb_spec k "option") as [->|N3].
  { assert (D : ok (VOptions [v])) by (apply ok_options; intros x [<-|[]]; exact V).
    destruct (mget a "options") as [w|] eqn:M; [|apply ctx_mset; [exact C|exact D|discriminate]].
    destruct w; try (apply ctx_mset; [exact C|exact D|discriminate]). apply ctx_mset; [exact C| |discriminate].
    apply ok_options, oks_app; [|intros x [<-|[]]; exact V]. apply (oka_get a) in M; [|now apply ctx_oka]. apply (ok_list _ _ M), incl_refl. }
  destruct (String.eqb_spec k "options") as [->|N4].
  { assert (D : ok (VOptions [v])) by (apply ok_options; intros x [<-|[]]; exact V).
    destruct v; try (apply ctx_mset; [exact C|exact D|discriminate]).
    - apply ctx_mset; [exact C| |discriminate]. apply ok_options. intros x X. apply in_map_iff in X as (y & <- & Y). apply ok_str.
      pose proof (all_split safe_char "," s (ok_local _ V)) as F. rewrite Forall_forall in F. now apply F.
    - apply ctx_mset; [exact C|exact V|discriminate]. }
  now apply ctx_mset.
Qed.
Lemma ctx_aaddall b : oka b -> (forall v, In ("icons", v) b -> icons_ok v) -> (forall v, In ("role", v) b -> exists s, v = VStr s) ->
  forall a, ctx_ok a -> ctx_ok (aaddall a b).
Proof.
  unfold aaddall. induction b as [|[k v] b IH]; intros O I R a C; cbn [fold_left fst snd]; [exact C|].
  apply IH; [intros x X; apply O; now right|intros x X; apply I; now right|intros x X; apply R; now right|].
  apply ctx_aset; [exact C|apply O; now left|intros ->; apply I; now left|intros ->; apply R; now left].
Qed.

Ltac lst := match goal with H : benign _ _ |- _ => apply (ok_list _ _ H) end; cbn [children]; auto using incl_appl, incl_refl, incl_appr, incl_tl.
Ltac ats := match goal with H : benign _ _ |- _ => apply (ok_attrs _ _ H) end; cbn [children]; auto using incl_appl, incl_refl, incl_appr, incl_tl.
Theorem t_with v : ok v -> tri (renderElementWith E rec v) bal.
Proof.
  intros Hv. destruct v; cbn [renderElementWith]; try apply tri_fail.
  - (* StringElement *) unfold renderString. eapply tri_bind; [apply tri_ctx|intros ctx _]. apply tri_ret, bal_text, text_renderString. exact (ok_local _ Hv).
  - (* SpecialCharacter *) apply tri_lift. intros x X. unfold renderSpecialCharacter in X.
    repeat match type of X with (if ?b then _ else _) = _ => destruct b; [injection X as <-; reflexivity|] end. discriminate X.
  - (* Symbol *) apply tri_lift. intros x X. apply bal_text. pose proof (bal_symbol _ (ok_local _ Hv)) as T. unfold renderSymbol in X. unfold symbol_text in T.
    destruct (mget symbols name); [injection X as <-; exact T|discriminate X].
  - (* PredefinedAttribute *) apply tri_ret, bal_text. pose proof (ok_local _ Hv) as N. cbn [local] in N. unfold predefinedAttribute.
    destruct (mget predefined_table name) as [y|] eqn:M; [|reflexivity]. apply mget_In in M.
    assert (F : forallb (fun p => String.eqb (fst p) "lt" || all_chars (fun c => negb (Ascii.eqb c lt)) (snd p)) predefined_table = true) by (vm_compute; reflexivity).
    rewrite forallb_forall in F. apply F in M. cbn [fst snd] in M. apply orb_true_iff in M as [M|M]; [apply String.eqb_eq in M; congruence|exact M].
  - (* QuotedText *) apply t_quoted; [lst|ats].
  - (* InlinePassthrough *) apply t_pass. lst.
  - (* InlineLink *) apply t_link; [apply (ok_child _ _ Hv); now left|ats].
  - (* InternalCrossReference *) apply t_xref; [apply (ok_child _ _ Hv); now left|apply (ok_child _ _ Hv); right; now left].
  - (* ExternalCrossReference *) apply t_extXref; [apply (ok_child _ _ Hv); now left|ats].
  - (* InlineImage *) apply t_inlineImage; [apply (ok_child _ _ Hv); now left|ats|exact (ok_local _ Hv)].
  - (* Icon *) apply t_inlineIcon; [exact (ok_local _ Hv)|ats].
  - (* IndexTerm *) apply t_inline. lst.
  - (* ConcealedIndexTerm *) apply tri_ret, bal_nil.
  - (* FootnoteReference *) apply t_noteRef. apply (ok_child _ _ Hv). now left.
  - (* LineBreak *) texec.
  - (* InlineButton *) apply t_button; [ats|exact (ok_local _ Hv)].
  - (* InlineMenu *) destruct (ok_local _ Hv) as [N F]. now apply t_menu.
  - (* UserMacro *) now apply t_macro.
  - (* Callout *) apply t_calloutRef.
  - (* Paragraph *) apply t_paragraph; [ats|lst|exact (ok_local _ Hv)].
  - (* DelimitedBlock *) apply t_delimited; [ats|lst|exact (ok_local _ Hv)].
  - (* Section *) apply t_section; [ats|lst|]. intros l ->. lst.
  - (* ImageBlock *) apply t_imageBlock; [apply (ok_child _ _ Hv); now left|ats].
  - (* ThematicBreak *) texec.
  - (* FrontMatter *) destruct (ok_local _ Hv) as [F1 F2]. eapply tri_bind; [apply tri_upd|intros _ _; apply tri_ret, bal_nil].
    intros a Ha. apply ctx_aaddall; [ats|exact F1|exact F2|exact Ha].
  - (* Preamble *) apply t_preamble; [lst|apply tri_ret, bal_nil].
  - (* AttributeDeclaration *) eapply tri_bind; [apply tri_upd|intros _ _; apply tri_ret, bal_nil].
    intros a Ha. apply ctx_mset; [exact Ha|apply (ok_child _ _ Hv); now left|exact (ok_local _ Hv)].
  - (* AttributeReset *) eapply tri_bind; [apply tri_upd|intros _ _; apply tri_ret, bal_nil]. intros a Ha. now apply ctx_mdel.
  - (* ListBlock *) now apply t_list.
  - (* Table *) now apply t_table.
Qed.
End Rec.

(** ** the elements that produce some text *)
Definition nonempty (m : M string) : Prop := forall st a st', m st = Ok (a, st') -> a <> "".
Lemma ne_bind {A} (m : M A) (f : A -> M string) : (forall a, nonempty (f a)) -> nonempty (bindM m f).
Proof. intros H st a st' X. unfold bindM in X. destruct (m st) as [[b st1]| |]; [|discriminate X..]. exact (H b _ _ _ X). Qed.
Lemma ne_fail e : nonempty (fail e).
Proof. intros st a st' X. discriminate X. Qed.
Lemma ne_block m : nonempty m -> nonempty (inBlock m).
Proof.
  intros H st a st' X. unfold inBlock in X. match type of X with context [m ?s] => destruct (m s) as [[b st1]| |] eqn:M1; [|discriminate X..] end.
  injection X as <- _. eapply H; eauto.
Qed.
Lemma lit_exec tl ns e x : has_lit ns = true -> exec_nodes tl ns e = Ok x -> x <> "".
Proof.
  revert x. induction ns as [|n ns IH]; intros x L X; [discriminate L|]. unfold has_lit in L. cbn [existsb] in L. cbn [exec_nodes] in X.
  destruct (exec_node tl n e) as [u| |] eqn:U; [|discriminate X..]. cbn [bind] in X. destruct (exec_nodes tl ns e) as [w| |]; [|discriminate X..].
  cbn [bind] in X. injection X as <-. apply orb_true_iff in L as [L|L].
  - destruct n; try discriminate L. cbn [exec_node] in U. injection U as <-. destruct s; [discriminate L|discriminate].
  - specialize (IH w L eq_refl). destruct u; [exact IH|discriminate].
Qed.
Lemma ne_exec t e : In t solid_templates -> nonempty (exec E t e).
Proof. intros I st a st' X. apply exec_nodes_of in X as [_ X]. eapply lit_exec; [|exact X]. now apply solid_ok. Qed.
Ltac inT := match goal with |- In _ solid_templates => unfold solid_templates; repeat (first [left; reflexivity | right]) end.
Ltac nes := repeat match goal with
  | |- nonempty (bindM _ _) => apply ne_bind; intros ?
  | |- nonempty (inBlock _) => apply ne_block
  | |- nonempty (usual _ _ _ _) => unfold usual
  | |- nonempty (fail _) => apply ne_fail
  | |- nonempty (exec _ _ _) => apply ne_exec; inT
  | |- nonempty (if ?b then _ else _) => destruct b
  end.
Lemma ne_list rec k a es : nonempty (renderList E rec k a es).
Proof.
  unfold renderList, renderOrderedList, renderUnorderedList, renderCalloutList. nes.
  unfold renderLabeledList, getLabeledListTmpl. intros st x st' X. unfold bindM in X. destruct (mget a "style") as [v|].
  - destruct (eq_str v "qanda").
    { revert X. apply (fun H => H : nonempty (usual rec a (renderLabeledItems E rec TQAndAListElement false es) (exec E TQAndAList))). nes. }
    destruct (eq_str v "horizontal"); [|discriminate X].
    revert X. apply (fun H => H : nonempty (usual rec a (renderLabeledItems E rec TLabeledListHorizontalElement false es) (exec E TLabeledListHorizontal))). nes.
  - revert X. apply (fun H => H : nonempty (usual rec a (renderLabeledItems E rec TLabeledListElement false es) (exec E TLabeledList))). nes.
Qed.
Lemma ne_delimited rec k a es : nonempty (renderDelimitedBlock E rec k a es).
Proof.
  unfold renderDelimitedBlock, renderAdmonitionBlock, renderExampleBlock, renderFencedBlock, renderLiteralBlock, renderListingBlock, renderSourceBlock,
    renderMarkdownQuoteBlock, renderPassthroughBlock, renderQuoteBlock, renderVerseBlock, renderSidebarBlock, renderOpenBlock. nes.
Qed.
Lemma ne_with rec v : solid v -> ne (fun st => (0 < r_list st)%Z) (renderElementWith E rec v) (fun s => s <> "").
Proof.
  intros Hv st a st' L X. destruct v; try destruct Hv; cbn [renderElementWith] in X.
  - unfold renderParagraph in X. replace (r_within st || (0 <? r_list st)%Z) with true in X by (symmetry; apply orb_true_iff; right; now apply Z.ltb_lt).
    revert X. apply (fun H => H : nonempty (renderEmbeddedParagraph E rec attrs elements "")). unfold renderEmbeddedParagraph. nes.
  - eapply ne_delimited; eauto.
  - eapply ne_list; eauto.
Qed.

Hypothesis HN : forall k v, mget (e_numbers E) k = Some v -> safe v.
Lemma ne_element k v : solid v -> ne (fun st => (0 < r_list st)%Z) (renderElement E k v) (fun s => s <> "").
Proof.
  intros Hv. destruct k; cbn [renderElement]; [intros st a st' _ X; discriminate X|]. now apply ne_with.
Qed.
Theorem t_element k : forall v, ok v -> tri (renderElement E k v) bal.
Proof.
  induction k as [|k IH]; intros v Hv; cbn [renderElement]; [apply tri_panic|]. apply t_with; [exact IH|apply ne_element|exact HN|exact Hv].
Qed.

(** ** the table of contents *)
Section Doc.
Variable depth : nat.
Notation rec := (renderElement E depth).
Let Hrec := t_element depth.

Fixpoint tocr_ok (t : tocr) : Prop :=
  match t with TocR id _ number title sub => safe id /\ safe number /\ bal title /\
    (fix all (l : list tocr) : Prop := match l with [] => True | x :: r => tocr_ok x /\ all r end) sub end.
Lemma tocr_ok_eq id lvl number title sub : tocr_ok (TocR id lvl number title sub) <-> safe id /\ safe number /\ bal title /\ Forall tocr_ok sub.
Proof.
  cbn [tocr_ok]. assert (G : forall l, (fix all (l : list tocr) : Prop := match l with [] => True | x :: r => tocr_ok x /\ all r end) l <-> Forall tocr_ok l).
  { induction l as [|x l IH]; [split; auto|]. rewrite IH. split; [intros [A B]; now constructor|intros F; inversion F; auto]. }
  rewrite G. tauto.
Qed.
Lemma safe_number id : safe (optS (mget (e_numbers E) id)).
Proof. destruct (mget (e_numbers E) id) eqn:G; [eapply HN; eauto|reflexivity]. Qed.
Lemma t_prerender t : Forall safe (toc_idents t) -> tri (prerenderEntry E rec t) tocr_ok.
Proof.
  induction t as [id lvl sub IH] using tocsec_ind'. intros H. cbn [toc_idents] in H. inversion H as [|? ? Hid Hsub]; subst. cbn [prerenderEntry].
  eapply (tri_bind _ _ (Forall tocr_ok)).
  - clear H. revert Hsub. induction IH as [|x l Hx Hl IHl]; intros Hsub; [apply tri_ret; constructor|]. cbn [flat_map] in Hsub.
    apply Forall_app in Hsub as [H1 H2]. eapply tri_bind; [now apply Hx|intros y Hy]. eapply tri_bind; [now apply IHl|intros ys Hys]. apply tri_ret. now constructor.
  - intros sub' Hs'. destruct (mget (e_refs E) id) as [v|] eqn:G; [|apply tri_fail]. pose proof (sn_refs E S _ _ G) as V.
    eapply (tri_bind _ _ bal).
    { destruct v; try (now apply Hrec). apply (t_elements _ Hrec). apply (ok_list _ _ V), incl_refl. }
    intros ti Hti. apply tri_ret. apply tocr_ok_eq. split; [exact Hid|]. split; [apply safe_number|]. auto.
Qed.
Lemma t_prerenders l : Forall (fun t => Forall safe (toc_idents t)) l -> tri (prerenderEntries E rec l) (Forall tocr_ok).
Proof.
  induction 1 as [|x l Hx Hl IH]; cbn [prerenderEntries]; [apply tri_ret; constructor|]. eapply tri_bind; [now apply t_prerender|intros y Hy].
  eapply tri_bind; [exact IH|intros ys Hys]. apply tri_ret. now constructor.
Qed.
Fixpoint tocr_ind' (P : tocr -> Prop) (H : forall id lvl n t sub, Forall P sub -> P (TocR id lvl n t sub)) (t : tocr) : P t :=
  match t with TocR id lvl n ti sub => H id lvl n ti sub ((fix all (l : list tocr) : Forall P l :=
    match l with [] => Forall_nil P | x :: r => Forall_cons x (tocr_ind' P H x) (all r) end) sub) end.
Lemma t_tocEntry t : tocr_ok t -> tri (renderTocEntry E t) bal.
Proof.
  induction t as [id lvl n ti sub IH] using tocr_ind'. intros H. apply tocr_ok_eq in H as (H1 & H2 & H3 & H4). cbn [renderTocEntry].
  assert (G : forall l, Forall (fun t => tocr_ok t -> tri (renderTocEntry E t) bal) l -> Forall tocr_ok l ->
    tri ((fix go (l : list tocr) : M string :=
                                 match l with [] => ret "" | x :: r => let* a := renderTocEntry E x in let* b := go r in ret (a ++ b)%string end) l) bal).
  { induction 1 as [|x l Hx Hl IHl]; intros K; [apply tri_ret, bal_nil|]. inversion K; subst.
    eapply tri_bind; [now apply Hx|intros y Hy]. eapply tri_bind; [now apply IHl|intros z Hz]. apply tri_ret. now apply bal_app. }
  eapply (tri_bind _ _ bal).
  - destruct sub as [|[id0 lvl0 n0 t0 sub0] sub']; [apply tri_ret, bal_nil|].
    eapply (tri_bind _ _ bal); [exact (G _ IH H4)|intros x Hx; texec].
  - intros c Hc. texec.
Qed.
Lemma t_tocEntries l : Forall tocr_ok l -> tri (renderTocEntries E l) bal.
Proof.
  induction 1 as [|x l Hx Hl IH]; cbn [renderTocEntries]; [apply tri_ret, bal_nil|]. eapply tri_bind; [now apply t_tocEntry|intros y Hy].
  eapply tri_bind; [exact IH|intros z Hz]. apply tri_ret. now apply bal_app.
Qed.
Lemma t_toc t : (forall l, t = Some l -> Forall tocr_ok l) -> tri (renderToc E rec t) bal.
Proof.
  intros H. unfold renderToc. destruct t as [l|]; [|apply tri_ret, bal_nil]. specialize (H l eq_refl).
  eapply (tri_bind _ _ bal).
  { unfold renderTocTitle. eapply tri_bind; [apply tri_ctx|intros ctx Hx]. apply ctx_oka in Hx.
    destruct (mget ctx "toc-title") as [v|] eqn:G; [|apply tri_ret; reflexivity]. pose proof (oka_get _ _ _ Hx G) as V.
    destruct v; try (now apply Hrec); [apply tri_ret, bal_safe; exact (ok_local _ V)|apply (t_elements _ Hrec); apply (ok_list _ _ V), incl_refl]. }
  intros ti Hti. eapply (tri_bind _ _ bal).
  { unfold renderTocSections. destruct l as [|[id lvl n t0 sub] l]; [apply tri_ret, bal_nil|]. eapply tri_bind; [now apply t_tocEntries|intros x Hx]. texec. }
  intros x Hx. destruct (String.eqb x ""); [apply tri_ret, bal_nil|]. texec.
Qed.

(** ** the document *)
Lemma t_notes l : oks l -> tri (renderFootnotes E rec l) bal.
Proof.
  intros H. unfold renderFootnotes. destruct l as [|x0 l0]; [apply tri_ret, bal_nil|]. revert H. generalize (x0 :: l0) as l. clear x0 l0. intros l H.
  eapply (tri_bind _ _ bal); [|intros c Hc; texec].
  induction l as [|x l IH]; cbn [renderFootnoteElements]; [apply tri_ret, bal_nil|]. apply oks_cons in H as [H1 H2].
  eapply (tri_bind _ _ bal); [|intros a Ha; eapply tri_bind; [now apply IH|intros b Hb]; apply tri_ret; now apply bal_app].
  unfold renderFootnoteElement. destruct x; try apply tri_fail.
  eapply tri_bind; [apply (t_inline _ Hrec); apply (ok_list _ _ H1); cbn [children]; now apply incl_tl, incl_refl|intros c Hc].
  match type of H1 with benign _ (Footnote _ ?v _) => assert (R : safe (ref_str v)) by (apply safe_ref; apply (ok_child _ _ H1); now left) end.
  assert (B : bal (replace_all (trimSpace c) LF " ")) by (apply bal_replace_lf; [reflexivity|]; apply (tt_trimSpace [] []); exact Hc).
  texec.
Qed.
Lemma t_elementsToc t l : (forall x, t = Some x -> Forall tocr_ok x) -> oks l -> tri (renderElementsToc E rec t l) bal.
Proof.
  intros Ht. induction l as [|x l IH]; intros H; cbn [renderElementsToc]; [apply tri_ret, bal_nil|]. apply oks_cons in H as [H1 H2].
  assert (D : tri (let* s := rec x in let* q := renderElementsToc E rec t l in ret (s ++ q)%string) bal).
  { eapply tri_bind; [now apply Hrec|intros s Hs]. eapply tri_bind; [now apply IH|intros u Hu]. apply tri_ret. now apply bal_app. }
  destruct x; try exact D. eapply tri_bind; [apply (t_preamble _ Hrec); [|now apply t_toc]|intros s Hs].
  { apply (ok_list _ _ H1), incl_refl. }
  eapply tri_bind; [apply (t_elements _ Hrec), H2|intros u Hu]. apply tri_ret. now apply bal_app.
Qed.
Lemma t_body src t notes : oks src -> (forall x, t = Some x -> Forall tocr_ok x) -> oks notes -> tri (renderDocumentBody E rec src t notes) bal.
Proof.
  intros Hs Ht Hn. unfold renderDocumentBody. eapply tri_bind; [apply tri_ctx|intros ctx _].
  eapply (tri_bind _ _ bal).
  - assert (D : tri (renderElements rec src) bal) by now apply (t_elements _ Hrec).
    destruct (mget ctx "toc") as [pl|]; [|exact D]. destruct t as [l|]; [|exact D].
    destruct (eq_str pl "preamble"); [now apply t_elementsToc|].
    destruct (eq_str pl "" || match pl with VNil => true | _ => false end); [|apply tri_fail].
    eapply tri_bind; [now apply t_toc|intros x Hx]. eapply tri_bind; [exact D|intros u Hu]. apply tri_ret. now apply bal_app.
  - intros x Hx. eapply tri_bind; [now apply t_notes|intros f Hf]. apply tri_ret. now apply bal_app.
Qed.
Lemma t_authors l : Forall (fun p => safe (fst (fst p)) /\ safe (snd (fst p)) /\ safe (snd p)) l -> forall first, tri (renderAuthorsList E first l) bal.
Proof.
  induction 1 as [|[[i n] m] l Hx Hl IH]; intros first; cbn [renderAuthorsList]; [apply tri_ret, bal_nil|]. cbn [fst snd] in Hx. destruct Hx as (H1 & H2 & H3).
  eapply (tri_bind _ _ bal); [texec|intros x Hx]. eapply tri_bind; [apply IH|intros u Hu]. apply tri_ret. apply bal_app; [destruct first; reflexivity|]. now apply bal_app.
Qed.
Lemma safe_details k : forall a i, oka a -> Forall (fun p => safe (fst (fst p)) /\ safe (snd (fst p)) /\ safe (snd p)) (details_loop k a i).
Proof.
  induction k as [|k IH]; intros a i H; cbn [details_loop]; [constructor|].
  match goal with |- Forall _ (match getAsString a ?key with _ => _ end) => destruct (getAsString a key) as [y|] eqn:G; [|constructor] end.
  constructor; [|now apply IH]. cbn [fst snd]. split; [destruct i as [|[|?]]; auto with ok|]. split; [eapply safe_getSome; eauto|].
  match goal with |- safe (match getAsString a ?key with _ => _ end) => destruct (getAsString a key) as [z|] eqn:G'; [|reflexivity] end. eapply safe_getSome; eauto.
Qed.
Lemma t_details : tri (renderDocumentDetails E) bal.
Proof.
  unfold renderDocumentDetails. eapply tri_bind; [apply tri_ctx|intros ctx Hx]. apply ctx_oka in Hx. destruct (ahas ctx "authors"); [|apply tri_ret, bal_nil].
  eapply tri_bind; [apply t_authors; now apply safe_details|intros x Hx']. texec.
Qed.
Lemma t_header t : (forall l, t = Some l -> oks l) -> tri (renderDocumentHeader E rec t) bal.
Proof.
  intros H. unfold renderDocumentHeader. eapply (tri_bind _ _ bal).
  { destruct t as [l|]; [apply (t_elements _ Hrec); now apply H|apply tri_ret, bal_nil]. }
  intros h Hh. eapply tri_bind; [apply t_details|intros d Hd]. texec.
Qed.
Lemma oka_aset_style a s : oka a -> safe s -> oka (aset a "style" (VStr s)).
Proof. intros H Hs. change (aset a "style" (VStr s)) with (mset a "style" (VStr s)). apply oka_mset; [exact H|now apply ok_str]. Qed.
Lemma t_manpage t name : (forall l, t = Some l -> oks l) -> ok name -> tri (renderManpageHeader E rec t name) bal.
Proof.
  intros H Hv. unfold renderManpageHeader. destruct name; try apply tri_panic. destruct elements as [|first r]; [apply tri_panic|].
  eapply (tri_bind _ _ bal).
  { destruct t as [l|]; [apply (t_elements _ Hrec); now apply H|apply tri_ret, bal_nil]. }
  intros h Hh. eapply (tri_bind _ _ bal).
  { apply (t_elements _ Hrec). destruct title as [l|]; [|intros x []]. apply (ok_list _ _ Hv). cbn [children]. now apply incl_appl, incl_refl. }
  intros n Hn. assert (F : ok first).
  { apply (ok_child _ _ Hv). cbn [children]. apply in_or_app. right. now left. }
  destruct first; try apply tri_panic.
  eapply (tri_bind _ _ bal); [|intros c Hc; texec].
  change (aset attrs0 "style" (VStr "manpage")) with (mset attrs0 "style" (VStr "manpage")).
  apply (t_paragraph _ Hrec).
  - apply oka_mset; [|apply ok_str; reflexivity]. apply (ok_attrs _ _ F). cbn [children]. now apply incl_appr, incl_refl.
  - apply (ok_list _ _ F). cbn [children]. now apply incl_appl, incl_refl.
  - rewrite mget_mset_eq. intros [X|X]; discriminate X.
Qed.

Variable c : rconf.
Variable d : rdoc.
Hypothesis HD : doc_ok E c d.
Lemma els_ok : oks (rd_elements d).
Proof. pose proof (dk_elements _ _ _ HD) as H. rewrite Forall_forall in H. exact H. Qed.
Lemma docHeader_in els : forall i h j, docHeader_from els i = Some (h, j) -> In h els /\ exists t a es, h = DocumentHeader t a es.
Proof.
  induction els as [|e els IH]; intros i h j X; cbn [docHeader_from] in X; [discriminate X|].
  destruct e; try discriminate X; try (apply IH in X as [X1 X2]; split; [now right|exact X2]). injection X as <- _. split; [now left|eauto].
Qed.
Lemma header_ok t a es i : docHeader (rd_elements d) = Some (DocumentHeader t a es, i) -> (forall l, t = Some l -> oks l) /\ oka a /\ oks es.
Proof.
  intros X. apply docHeader_in in X as [X _]. apply els_ok in X. split; [|split].
  - intros l ->. apply (ok_list _ _ X). cbn [children]. now apply incl_appl, incl_refl.
  - apply (ok_attrs _ _ X). cbn [children]. now apply incl_appr, incl_appr, incl_refl.
  - apply (ok_list _ _ X). cbn [children]. now apply incl_appr, incl_appl, incl_refl.
Qed.
Lemma headerTitle_ok l : headerTitle (rd_elements d) = Some l -> oks l.
Proof.
  unfold headerTitle. destruct (docHeader (rd_elements d)) as [[h i]|] eqn:G; [|discriminate]. destruct h; try discriminate. intros ->.
  now apply header_ok in G as (G & _ & _); apply G.
Qed.
Lemma headerAttrs_ok : oka (headerAttrs (rd_elements d)).
Proof.
  unfold headerAttrs. destruct (docHeader (rd_elements d)) as [[h i]|] eqn:G; [|intros x []]. destruct h; try (intros x []). now apply header_ok in G as (_ & G & _).
Qed.
Lemma headerElements_ok : oks (headerElements (rd_elements d)).
Proof.
  unfold headerElements. destruct (docHeader (rd_elements d)) as [[h i]|] eqn:G; [|intros x []]. destruct h; try (intros x []). now apply header_ok in G as (_ & _ & G).
Qed.
Lemma body_ok : oks (bodyElements (rd_elements d)).
Proof.
  pose proof els_ok as H. intros x X. apply H. revert X. generalize (rd_elements d) as l. induction l as [|e l IH]; [intros []|].
  cbn [bodyElements]. destruct e; cbn [In]; intuition.
Qed.
Lemma notes_ok : oks (rd_notes d).
Proof. pose proof (dk_notes _ _ _ HD) as H. rewrite Forall_forall in H. exact H. Qed.
Lemma t_split toc : (forall x, toc = Some x -> Forall tocr_ok x) -> tri (splitAndRender E rec c d toc) (fun p => bal (fst p) /\ bal (snd p)).
Proof.
  intros Ht. unfold splitAndRender. eapply tri_bind; [apply tri_ctx|intros ctx _]. pose proof body_ok as B. destruct (String.eqb _ "manpage").
  - destruct (bodyElements (rd_elements d)) as [|name rest]; [apply tri_panic|]. apply oks_cons in B as [B1 B2]. destruct (rc_wrap c).
    + eapply tri_bind; [apply t_manpage; [apply headerTitle_ok|exact B1]|intros h Hh].
      eapply tri_bind; [apply t_body; [exact B2|exact Ht|apply notes_ok]|intros b Hb]. apply tri_ret. auto.
    + eapply tri_bind; [apply t_manpage; [discriminate|exact B1]|intros h Hh].
      eapply tri_bind; [apply t_body; [exact B2|exact Ht|apply notes_ok]|intros b Hb]. apply tri_ret. split; [apply bal_nil|]. now apply bal_app.
  - eapply (tri_bind _ _ bal); [destruct (hasHeader (rd_elements d)); [apply t_header, headerTitle_ok|apply tri_ret, bal_nil]|intros h Hh].
    eapply tri_bind; [apply t_body; [exact B|exact Ht|apply notes_ok]|intros b Hb]. apply tri_ret. auto.
Qed.

Definition author_ok (a : author) : Prop := safe (au_email a) /\ match au_name a with
                                                      | Some n => safe (fn_first n) /\ safe (fn_middle n) /\ safe (fn_last n)
                                                      | None => True end.
Lemma authors_ok es : oks es -> forall acc r, (forall l, acc = Some l -> Forall author_ok l) -> authors_loop es acc = Ok r -> forall l, r = Some l -> Forall author_ok l.
Proof.
  induction es as [|e es IH]; intros O acc r A X; cbn [authors_loop] in X; [injection X as <-; exact A|]. apply oks_cons in O as [O1 O2].
  assert (D : authors_loop es acc = Ok r -> forall l, r = Some l -> Forall author_ok l) by now apply IH.
  destruct e; try (now apply D). clear D. assert (V : ok e) by (apply (ok_child _ _ O1); now left).
  destruct (String.eqb name AttrAuthors).
  { destruct e; try (now apply (IH O2 acc r A X)). injection X as <-. intros l0 [= <-]. exact (ok_local _ V). }
  destruct (String.eqb name AttrEmail).
  { destruct e; try (now apply (IH O2 acc r A X)). pose proof (ok_local _ V) as Vs. cbn [local] in Vs. destruct acc as [[|a l]|].
    - discriminate X.
    - specialize (A _ eq_refl). inversion A as [|? ? A1 A2]; subst. destruct A1 as [A1 A3]. eapply (IH O2); [|exact X]. intros l0 [= <-]. constructor; [split; assumption|exact A2].
    - eapply (IH O2); [|exact X]. intros l0 [= <-]. constructor; [split; [exact Vs|exact I]|constructor]. }
  destruct (String.eqb name AttrAuthor).
  { destruct e; try (now apply (IH O2 acc r A X)). pose proof (ok_local _ V) as Vs. cbn [local] in Vs. destruct acc as [[|a l]|].
    - discriminate X.
    - specialize (A _ eq_refl). inversion A as [|? ? A1 A2]; subst. destruct A1 as [A1 A3]. destruct (au_name a) as [f|]; [|discriminate X].
      eapply (IH O2); [|exact X]. intros l0 [= <-]. constructor; [split; [exact A1|cbn; tauto]|exact A2].
    - eapply (IH O2); [|exact X]. intros l0 [= <-]. constructor; [split; [reflexivity|cbn; repeat split; auto; reflexivity]|constructor]. }
  now apply (IH O2 acc r A X).
Qed.
Lemma safe_fullName n : safe (fn_first n) /\ safe (fn_middle n) /\ safe (fn_last n) -> safe (fullName n).
Proof.
  intros (H1 & H2 & H3). unfold fullName. apply safe_app; [exact H1|]. apply safe_app; [destruct (String.eqb (fn_middle n) "")|destruct (String.eqb (fn_last n) "")];
    try reflexivity; apply safe_app; (reflexivity || assumption).
Qed.
Lemma safe_fullNames l : Forall author_ok l -> forall r, fullNames l = Ok r -> Forall safe r.
Proof.
  induction 1 as [|a l [Ha1 Ha2] Hl IH]; intros r X; cbn [fullNames] in X; [injection X as <-; constructor|].
  destruct (au_name a) as [n|]; [|discriminate X]. destruct (fullNames l) as [q| |]; [|discriminate X..]. cbn [bind] in X. injection X as <-.
  constructor; [now apply safe_fullName|now apply IH].
Qed.
Lemma safe_authors r : renderAuthors (headerElements (rd_elements d)) = Ok r -> safe r.
Proof.
  unfold renderAuthors. intros X. destruct (headerAuthors (headerElements (rd_elements d))) as [o| |] eqn:G; [|discriminate X..]. cbn [bind] in X.
  destruct o as [l|]; [|injection X as <-; reflexivity].
  assert (A : Forall author_ok l) by (eapply (authors_ok _ headerElements_ok None); [discriminate|exact G|reflexivity]).
  destruct (fullNames l) as [q| |] eqn:Q; [|discriminate X..]. cbn [bind] in X. injection X as <-. apply safe_fullNames in Q; [|exact A].
  apply all_join; [reflexivity|exact Q].
Qed.

(** the page *)
Lemma has_prefix_split s p : has_prefix s p = true -> s = p ++ sdrop (String.length p) s.
Proof.
  intros H. apply has_prefix_iff in H as [r ->]. f_equal. induction p as [|a p IH]; [reflexivity|]. exact IH.
Qed.
Lemma t_article e : eoks (ktab TArticle) e -> tri (exec E TArticle e) (fun x => exists b, x = doctype ++ b /\ bal b).
Proof.
  intros He st x st' HJ X. apply exec_nodes_of in X as [-> X]. split; [exact HJ|]. split; [reflexivity|].
  pose proof (article_strip (e_xhtml E)) as A. pose proof (article_ok (e_xhtml E)) as C.
  revert A C X. generalize (nodes (e_xhtml E) TArticle) as ns. generalize (article_nodes (e_xhtml E)) as bs. intros bs ns A C X.
  unfold strip_doctype in A. destruct ns as [|[s| | | | |] r]; try discriminate A. destruct (has_prefix s doctype) eqn:P; [|discriminate A]. injection A as <-.
  apply has_prefix_split in P. cbn [exec_nodes exec_node] in X. cbn [bind] in X. destruct (exec_nodes (e_toLower E) r e) as [u| |] eqn:U; [|discriminate X..].
  cbn [bind] in X. injection X as <-. exists (sdrop (String.length doctype) s ++ u). split.
  - rewrite P at 1. apply app_assoc_s.
  - refine (ck_sound _ (e_toLower E) (sn_lower E S) _ e [] start start _ C (eoks_eok _ _ He) (Forall_nil _) _).
    cbn [exec_nodes exec_node]. cbn [bind]. rewrite U. reflexivity.
Qed.
Lemma t_document : tri (renderDocument E rec c d) (fun p => if rc_wrap c then exists b, fst p = doctype ++ b /\ bal b else bal (fst p)).
Proof.
  unfold renderDocument. eapply (tri_bind _ _ bal).
  { destruct (headerTitle (rd_elements d)) as [l|] eqn:G; [|apply tri_ret, bal_nil]. apply tri_lift. intros x. apply bal_plainText.
    apply headerTitle_ok in G. intros y Y. inversion Y as [|? z ? Z]; subst; [exact I|]. exact (G z Z y ltac:(assumption)). }
  intros title Htitle. eapply (tri_bind _ _ (fun t => forall x, t = Some x -> Forall tocr_ok x)).
  { destruct (rd_toc d) as [l|] eqn:G; [|apply tri_ret; discriminate]. eapply tri_bind; [apply t_prerenders; exact (dk_toc _ _ _ HD l G)|intros x Hx].
    apply tri_ret. now intros y [= <-]. }
  intros toc Htoc. eapply tri_bind; [apply t_split; exact Htoc|intros p [P1 P2]].
  eapply (tri_bind _ _ safe).
  { destruct (hasHeader (rd_elements d)); [apply t_roles, headerAttrs_ok|apply tri_ret; reflexivity]. }
  intros roles Hroles. eapply tri_bind; [apply tri_ctx|intros ctx Hx]. apply ctx_oka in Hx.
  destruct (rc_wrap c); [|apply tri_ret; exact P2].
  eapply (tri_bind _ _ safe).
  { destruct (hasHeader (rd_elements d)); [apply tri_lift; apply safe_authors|apply tri_ret; reflexivity]. }
  intros authors Hauthors. eapply tri_bind; [apply t_article|intros out Hout; apply tri_ret; exact Hout].
  assert (HI : safe (if hasHeader (rd_elements d) then renderElementID (headerAttrs (rd_elements d)) else "")).
  { destruct (hasHeader (rd_elements d)); [apply safe_id, headerAttrs_ok|reflexivity]. }
  pose proof (dk_updated _ _ _ HD) as HU.
  fields.
  all: match goal with
       | |- safe (getD _ _ _ _) => apply safe_getD; [exact Hx|reflexivity]
       | |- bal (match _ with _ => _ end) => destruct (headerTitle (rd_elements d)); [exact Htitle|reflexivity]
       | |- Forall _ _ => apply Forall_map; generalize (dk_css _ _ _ HD); apply Forall_impl; intros x X; constructor; [exact X|constructor]
       | |- _ => reflexivity
       end.
Qed.
End Doc.

(** ** the attributes when the rendering starts *)
Lemma ctx_labels a : ctx_ok a -> ctx_ok (labels a).
Proof. intros H. unfold labels. repeat (apply ctx_mset; [|apply ok_str; reflexivity|discriminate]). exact H. Qed.
Definition entry_ok (kv : string * val) : Prop := ok (snd kv) /\ fst kv <> "icons" /\ fst kv <> "role".
Lemma mset_entry m k v : Forall entry_ok m -> entry_ok (k, v) -> Forall entry_ok (mset m k v).
Proof.
  induction 1 as [|[k' w] m Hw Hm IH]; intros H; cbn [mset]; [constructor; [exact H|constructor]|].
  destruct (String.eqb k k'); constructor; auto.
Qed.
Lemma key_entry a k i v : ok v -> a <> "i"%char -> a <> "r"%char -> entry_ok (key (String a k) i, v).
Proof.
  intros V N1 N2. split; [exact V|]. cbn [fst]. destruct i; cbn [key append]; split; congruence.
Qed.
Lemma nonempty_entry m a k i s : Forall entry_ok m -> safe s -> a <> "i"%char -> a <> "r"%char -> Forall entry_ok (set_nonempty m (key (String a k) i) s).
Proof.
  intros H V N1 N2. unfold set_nonempty. destruct (String.eqb s ""); [exact H|]. apply mset_entry; [exact H|]. apply key_entry; auto. now apply ok_str.
Qed.
Lemma expand_ok l : Forall author_ok l -> forall i m r, Forall entry_ok m -> expand_loop l i m = Ok r -> Forall entry_ok r.
Proof.
  induction 1 as [|a l [Ha1 Ha2] Hl IH]; intros i m r Hm X; cbn [expand_loop] in X; [injection X as <-; exact Hm|].
  destruct (au_name a) as [n|]; [|discriminate X]. pose proof (safe_fullName _ Ha2) as HF. destruct Ha2 as (A1 & A2 & A3).
  apply IH in X; [exact X|]. repeat apply nonempty_entry; try assumption; try discriminate.
  repeat apply mset_entry; try exact Hm; apply key_entry; try discriminate; apply ok_str; try assumption.
  unfold initials, initial. repeat apply safe_app; now apply all_stake.
Qed.
Lemma entries_add b a : Forall entry_ok b -> ctx_ok a -> ctx_ok (aaddall a b).
Proof.
  intros H C. rewrite Forall_forall in H. apply ctx_aaddall; [| | |exact C].
  - intros v V. apply in_map_iff in V as (kv & <- & I). now apply H in I as [I _].
  - intros v V. now apply H in V as (_ & V & _).
  - intros v V. now apply H in V as (_ & _ & V).
Qed.
Lemma ok_leaf v : children v = [] -> local fmtv v -> ok v.
Proof. intros N H x X. inversion X as [|? c ? C]; subst; [exact H|]. rewrite N in C. destruct C. Qed.
Lemma lit_nonempty m k s : Forall entry_ok m -> safe s -> k <> "icons" -> k <> "role" -> Forall entry_ok (set_nonempty m k s).
Proof.
  intros H V N1 N2. unfold set_nonempty. destruct (String.eqb s ""); [exact H|]. apply mset_entry; [exact H|]. split; [now apply ok_str|now split].
Qed.
Section Start.
Variable els : list val.
Hypothesis HE : oks els.
Lemma start_header t a es i : docHeader els = Some (DocumentHeader t a es, i) -> oks es.
Proof.
  intros X. apply docHeader_in in X as [X _]. apply HE in X. apply (ok_list _ _ X). cbn [children]. now apply incl_appr, incl_appl, incl_refl.
Qed.
Lemma declare_ok e a : ok e -> ctx_ok a -> ctx_ok (declare a e).
Proof.
  intros V C. destruct e; try exact C; cbn [declare].
  - apply ctx_mset; [exact C|apply (ok_child _ _ V); now left|exact (ok_local _ V)].
  - now apply ctx_mdel.
Qed.
Lemma renderAttrs_ok a r : ctx_ok a -> renderAttrs els (Some a) = Ok r -> ctx_ok r.
Proof.
  intros C X. unfold renderAttrs in X. cbn [newContextAttrs] in X. destruct (expandHeader els (labels a)) as [b| |] eqn:B; [|discriminate X..].
  cbn [bind] in X. injection X as <-.
  assert (Cb : ctx_ok b).
  { apply ctx_labels in C. unfold expandHeader in B. destruct (docHeader els) as [[h i]|] eqn:G; [|injection B as <-; exact C].
    destruct h; try (injection B as <-; exact C). apply start_header in G.
    destruct (headerAuthors elements) as [o| |] eqn:A; [|discriminate B..]. cbn [bind] in B.
    pose proof (fun l => authors_ok elements G None o ltac:(discriminate) A l) as AO.
    assert (R : forall x, ctx_ok x -> Ok (match headerRevision elements with Some r => aaddall x (expandRevision r) | None => x end) = Ok b -> ctx_ok b).
    { intros x Cx Y. injection Y as <-. clear - G Cx. destruct (headerRevision elements) as [r|] eqn:V; [|exact Cx]. apply entries_add; [|exact Cx].
      assert (L : safe (rev_number r) /\ safe (rev_date r) /\ safe (rev_remark r)).
      { revert G V. induction elements as [|e es IH]; intros G V; cbn [headerRevision] in V; [discriminate V|]. apply oks_cons in G as [G1 G2].
        destruct e; try (now apply IH). assert (W : ok e) by (apply (ok_child _ _ G1); now left).
        destruct e; try (now apply IH). destruct (String.eqb name AttrRevision); [|now apply IH]. injection V as ->. exact (ok_local _ W). }
      unfold expandRevision. destruct L as (L1 & L2 & L3). repeat apply lit_nonempty; try assumption; try discriminate.
      constructor; [|constructor]. split; [|now split]. apply ok_leaf; [reflexivity|]. cbn. auto. }
    destruct o as [l|].
    - destruct (expandAuthors l) as [x| |] eqn:Ex; [|discriminate B..]. cbn [bind] in B. eapply R; [|exact B]. apply entries_add; [|exact C].
      unfold expandAuthors in Ex. apply expand_ok in Ex; [exact Ex|now apply AO|]. constructor; [|constructor]. split; [|split; discriminate].
      apply ok_leaf; [reflexivity|]. exact (AO l eq_refl).
    - cbn [bind] in B. eapply R; [|exact B]. exact C. }
  assert (Ch : ctx_ok (headerDecls els b)).
  { unfold headerDecls. destruct (docHeader els) as [[h i]|] eqn:G; [|exact Cb]. destruct h; try exact Cb. apply start_header in G.
    clear B. revert b G Cb. clear. induction elements as [|e es IH]; intros b G C; cbn [fold_left]; [exact C|]. apply oks_cons in G as [G1 G2].
    apply IH; [exact G2|]. now apply declare_ok. }
  revert Ch. generalize (headerDecls els b) as x. clear - HE. induction els as [|e es IH]; intros x C; cbn [leadingDecls]; [exact C|].
  apply oks_cons in HE as [H1 H2]. destruct e; try exact C; apply (IH H2); apply (declare_ok _ _ H1 C).
Qed.
End Start.
End Html.

(** ** section numbers *)
Lemma safe_fold ws : forall acc k v, (forall k v, In (k, v) ws -> safe v) -> (forall k v, mget acc k = Some v -> safe v) ->
  mget (fold_left (fun acc kv => mset acc (fst kv) (snd kv)) ws acc) k = Some v -> safe v.
Proof.
  induction ws as [|[k' w] ws IH]; intros acc k v H A X; cbn [fold_left fst snd] in X; [eapply A; eauto|].
  eapply IH; [| |exact X]; [intros k0 v0 Y; apply (H k0); now right|]. intros k0 v0 Y. rewrite mget_mset in Y. destruct (String.eqb k' k0); [|eapply A; eauto].
  injection Y as <-. apply (H k'). now left.
Qed.
Definition writes_safe (ws : gomap string) : Prop := forall k v, In (k, v) ws -> safe v.
Lemma traverse_safe : forall v en prefix c, safe prefix -> writes_safe (fst (fst (traverse v en prefix c))).
Proof.
  intros v. remember (vsize v) as n eqn:Hn. revert v Hn. induction n as [n IH] using lt_wf_ind. intros v Hn en prefix c Hp.
  assert (L : forall els, (forall x, In x els -> vsize x < n) -> forall en prefix c, safe prefix -> writes_safe (fst (traverse_list els en prefix c))).
  { induction els as [|x els IHl]; intros HB en0 p0 c0 Hp0; cbn [traverse_list]; [intros k w []|].
    pose proof (IH (vsize x) (HB x (or_introl eq_refl)) x eq_refl en0 p0 c0 Hp0) as H1.
    destruct (traverse x en0 p0 c0) as [[m1 en1] c1]. cbn [fst] in H1. pose proof (IHl (fun y Y => HB y (or_intror Y)) en1 p0 c1 Hp0) as H2.
    destruct (traverse_list els en1 p0 c1) as [m2 en2]. cbn [fst] in *. intros k w I. apply in_app_or in I as [I|I]; eauto. }
  destruct v; try (intros k w I; destruct I). rewrite traverse_section. cbv zeta.
  set (c' := if en then (c + 1)%N else c). set (nn := if en then (prefix ++ itoaN c')%string else "").
  assert (Hnn : safe nn) by (unfold nn; destruct en; [apply safe_app; [exact Hp|apply safe_itoaN]|reflexivity]).
  pose proof (L elements) as L1. specialize (L1 ltac:(intros x X; subst n; apply children_size; cbn [children]; apply in_or_app; right; apply in_or_app; now left)
    en (nn ++ ".") 0%N (safe_app nn "." Hnn eq_refl)).
  destruct (traverse_list elements en (nn ++ ".") 0%N) as [m en']. cbn [fst] in *. intros k w I. apply in_app_or in I as [I|I]; [|eauto].
  destruct en; [|destruct I]. destruct I as [I|[]]. injection I as _ <-. exact Hnn.
Qed.
Lemma numbers_safe els k v : mget (sectionNumbers els) k = Some v -> safe v.
Proof.
  unfold sectionNumbers. match goal with |- context [traverseElements els ?b ""] => generalize b as en end. intros en. unfold traverseElements.
  assert (L : forall els en prefix c, safe prefix -> writes_safe (fst (traverse_list els en prefix c))).
  { clear. induction els as [|x els IHl]; intros en0 p0 c0 Hp0; cbn [traverse_list]; [intros k w []|].
    pose proof (traverse_safe x en0 p0 c0 Hp0) as H1. destruct (traverse x en0 p0 c0) as [[m1 en1] c1]. cbn [fst] in H1. pose proof (IHl en1 p0 c1 Hp0) as H2.
    destruct (traverse_list els en1 p0 c1) as [m2 en2]. cbn [fst] in *. intros k w I. apply in_app_or in I as [I|I]; eauto. }
  specialize (L els en "" 0%N (eq_refl : safe "")). destruct (traverse_list els en "" 0%N) as [ws e']. cbn [fst] in *. apply safe_fold; [exact L|]. intros k0 v0 X. discriminate X.
Qed.

(** ** the whole *)
Theorem render_wf E depth c d a out title a' :
  sane E -> doc_ok E c d -> attrs_ok (e_fmtv E) a -> render E depth c d (Some a) = Ok (out, title, a') ->
  if rc_wrap c then exists body, out = doctype ++ body /\ wf body else wf out.
Proof.
  intros S D A X. unfold render in X. destruct (renderAttrs (rd_elements d) (Some a)) as [r| |] eqn:R; [|discriminate X..]. cbn [bind] in X.
  match type of X with context [renderDocument ?e _ _ _] => set (E' := e) in X end.
  assert (S' : sane E') by (destruct S; constructor; assumption).
  assert (D' : doc_ok E' c d) by (destruct D; constructor; assumption).
  apply (renderAttrs_ok E _ (els_ok E c d D)) in R; [|exact A].
  destruct (renderDocument E' (renderElement E' depth) c d (mkRst r [] false 0 [])) as [[[o t] st]| |] eqn:Y; [|discriminate X..]. injection X as <- <- <-.
  assert (HN : forall k v, mget (e_numbers E') k = Some v -> safe v) by (intros k v; apply numbers_safe).
  apply (t_document E' S' HN depth c d D') in Y; [|split; [exact R|cbn; lia]]. destruct Y as (_ & _ & Y). cbn [fst] in Y.
  destruct (rc_wrap c); [|now apply wf_bal]. destruct Y as (b & -> & B). exists b. split; [reflexivity|now apply wf_bal].
Qed.
