(** Proofs for C57. *)
From Verif Require Import GoBase GoLemmas Types Attrs AttrLemmas Aggregate Toc TocRender Escape Merge Elements Ids Locations Indent Footnotes
  Templates Tmpl HtmlTmpl SectNum RenderAttrs Authors Render TextSpec TextTmpl TextWords TextDocSpec.

(** ** the words of the text are words *)
Lemma ws_label t emb v : (forall e x, ws (t e x)) -> ws (label_text t emb v).
Proof. intros H. destruct v as [[]|]; try apply ws_nil; cbn; [apply words_ws|apply ws_flat; auto]. Qed.
Lemma ws_texts t emb l : (forall e x, ws (t e x)) -> ws (texts t emb l).
Proof. intros H. apply ws_flat. auto. Qed.
Lemma ws_attribution a : ws (attribution_text a).
Proof.
  unfold attribution_text. destruct (mget a "quoteAuthor") as [[]|]; destruct (mget a "quoteTitle") as [[]|]; try apply ws_nil; try apply words_ws.
  destruct (String.eqb s ""); [apply ws_nil|apply ws_app; apply words_ws].
Qed.
Lemma ws_source t attrs es : (forall e x, ws (t e x)) -> ws (source_text t attrs es).
Proof.
  intros H. unfold source_text. assert (X : ws (texts t true es)) by now apply ws_texts. destruct (mget attrs "language") as [v|]; [|exact X].
  destruct v; try apply ws_nil. destruct s; [exact X|apply ws_nil].
Qed.
Lemma ws_title t emb a : (forall e x, ws (t e x)) -> ws (title_text t emb a).
Proof. apply ws_label. Qed.
Lemma ws_item t emb es : (forall e x, ws (t e x)) -> ws (item_text t emb es).
Proof. intros H. destruct es; [apply ws_nil|]. apply ws_app; [apply H|now apply ws_texts]. Qed.
Lemma ws_text n : forall emb v, ws (text n emb v).
Proof.
  induction n as [|n IH]; intros emb v; [apply ws_nil|]. cbn [text].
  pose proof (fun e l => ws_texts (text n) e l IH) as HT. pose proof (fun e l => ws_label (text n) e l IH) as HL.
  pose proof (fun e a => ws_title (text n) e a IH) as HTi. pose proof (fun e l => ws_item (text n) e l IH) as HI.
  destruct v; try apply ws_nil; try apply HT; try apply words_ws; try apply HTi; try apply HL.
  - destruct (mget attrs "text") eqn:M; [apply HL|]. destruct v; try apply HL. destruct v; try apply HL. apply words_ws.
  - destruct v2; try apply ws_nil. apply words_ws.
  - destruct (mget attrs "label") as [[]|]; try apply ws_nil. apply words_ws.
  - apply ws_flat. intros. apply words_ws.
  - unfold paragraph_text. destruct (emb || _); [apply HT|]. destruct (styled _ _); [apply ws_app; [apply HTi|now apply ws_source]|].
    destruct (styled _ _); [apply ws_app; [apply HTi|apply ws_app; [apply HT|apply ws_attribution]]|].
    destruct (styled _ _); [|apply ws_app; auto]. pose proof (HT emb elements) as Q. destruct (texts (text n) emb elements); [apply ws_nil|apply ws_app; auto].
  - unfold block_text. destruct (String.eqb kind "pass"); [apply HT|]. destruct (_ && _); [apply ws_app; [apply HTi|now apply ws_source]|].
    apply ws_app; [apply HTi|apply ws_app; [apply HT|]]. destruct (among _ _); [apply ws_attribution|apply ws_nil].
  - apply ws_app; [destruct title; [apply HT|apply ws_nil]|apply HT].
  - apply ws_app; [apply HTi|]. apply ws_flat. intros [] _; try apply ws_nil; try apply HI. apply ws_app; [destruct (String.eqb _ _); [apply HT|apply ws_nil]|apply HI].
  - unfold table_text. apply ws_app; [apply HTi|]. destruct rows as [|r rows]; [apply ws_nil|].
    assert (ED : forall x, ws (row_text (edge_cell_text (text n) emb) x)).
    { intros []; try apply ws_nil. apply ws_flat. intros [] _; try apply ws_nil. cbn. destruct elements as [|[] []]; try apply ws_nil. apply HT. }
    apply ws_app; [apply ED|apply ws_app; [|apply ED]]. apply ws_flat. intros [] _; try apply ws_nil. apply ws_flat. intros [] _; try apply ws_nil.
    cbn. apply ws_flat. intros [] _; try apply IH. apply HT.
Qed.

(** ** executions of the renderer *)
Definition emb_of (st : rst) : bool := r_within st || (0 <? r_list st)%Z.
(** when it succeeds, the result satisfies [Q], and the renderer is again at the same place *)
Definition tr (emb : bool) {A} (m : M A) (Q : A -> Prop) : Prop :=
  forall st a st', (0 <= r_list st)%Z -> emb_of st = emb -> m st = Ok (a, st') -> Q a /\ r_within st' = r_within st /\ r_list st' = r_list st.
Lemma tr_ret emb A (a : A) (Q : A -> Prop) : Q a -> tr emb (ret a) Q.
Proof. intros H st b st' _ _ [= <- <-]. auto. Qed.
Lemma tr_bind emb A B (m : M A) (f : A -> M B) P Q : tr emb m P -> (forall a, P a -> tr emb (f a) Q) -> tr emb (bindM m f) Q.
Proof.
  intros H G st b st' L X Y. unfold bindM in Y. destruct (m st) as [[a st1]| |] eqn:Z; try discriminate.
  destruct (H _ _ _ L X Z) as (PA & W1 & L1). assert (X1 : emb_of st1 = emb) by (unfold emb_of in *; now rewrite W1, L1).
  destruct (G a PA _ _ _ ltac:(rewrite L1; exact L) X1 Y) as (QB & W2 & L2). split; [exact QB|]. split; congruence.
Qed.
Lemma tr_weak emb A (m : M A) (P Q : A -> Prop) : tr emb m P -> (forall a, P a -> Q a) -> tr emb m Q.
Proof. intros H G st a st' L X Y. destruct (H _ _ _ L X Y) as (PA & R). split; [now apply G|exact R]. Qed.
Lemma tr_true emb A (m : M A) (P : A -> Prop) : tr emb m P -> tr emb m (fun _ => True).
Proof. intros H. eapply tr_weak; eauto. Qed.
Lemma tr_fail emb A e (Q : A -> Prop) : tr emb (fail e) Q.
Proof. intros st a st' _ _ X. discriminate. Qed.
Lemma tr_panic emb A e (Q : A -> Prop) : tr emb (fun _ => Panic e) Q.
Proof. intros st a st' _ _ X. discriminate. Qed.
Lemma tr_lift emb A (r : result A) (Q : A -> Prop) : (forall a, r = Ok a -> Q a) -> tr emb (lift r) Q.
Proof. intros H st a st' _ _ X. unfold lift in X. destruct r; inversion X; subst. auto. Qed.
Lemma tr_getAttrs emb : tr emb getAttrs (fun _ => True).
Proof. intros st a st' _ _ [= <- <-]. auto. Qed.
Lemma tr_upd emb f : tr emb (upd_attrs f) (fun _ => True).
Proof. intros st a st' _ _ [= <- <-]. auto. Qed.
Lemma tr_next emb k : tr emb (nextCounter k) (fun _ => True).
Proof. intros st a st' _ _ [= <- <-]. auto. Qed.
Lemma tr_inBlock emb A (m : M A) Q : tr true m Q -> tr emb (inBlock m) Q.
Proof.
  intros H st a st' L X Y. unfold inBlock in Y. destruct (m _) as [[b st1]| |] eqn:Z; try discriminate. injection Y as <- <-.
  pose proof (fun a b => H _ _ _ a b Z) as K. destruct (K L eq_refl) as (QA & _ & L1). cbn in *. auto.
Qed.
Lemma tr_inList emb A (m : M A) Q : tr true m Q -> tr emb (inList m) Q.
Proof.
  intros H st a st' L X Y. unfold inList in Y. destruct (m _) as [[b st1]| |] eqn:Z; try discriminate. injection Y as <- <-.
  assert (E1 : emb_of (mkRst (r_attrs st) (r_counters st) (r_within st) (r_list st + 1) (r_log st)) = true).
  { unfold emb_of. cbn. destruct (Z.ltb_spec 0 (r_list st + 1)); [now rewrite orb_true_r|lia]. }
  pose proof (fun a b => H _ _ _ a b Z) as K. cbn in K. destruct (K ltac:(lia) E1) as (QA & W1 & L1). cbn in *. split; [exact QA|]. split; [exact W1|lia].
Qed.
Lemma tr_map emb f (m : M string) l : ws l -> keeps f -> tr emb m (appear l) -> tr emb (mapS f m) (appear l).
Proof. intros W K H. eapply tr_bind; [exact H|]. intros a A. apply tr_ret. now apply K. Qed.
Lemma tr_nothing emb (m : M string) : tr emb m (fun _ => True) -> tr emb m (appear []).
Proof. auto. Qed.

Section R.
Variable E : renv.
Notation tm := (exec E).
Lemma tr_exec_if emb t fs ne names ls : shows_if ne names t = true ->
  (forall f, In f ne -> exists v, mget fs f = Some v /\ truth v = true) ->
  Forall2 appear ls (map (svalue fs) names) -> tr emb (tm t fs) (appear (List.concat ls)).
Proof.
  intros SH K F. apply tr_lift. intros out X. unfold template in X. eapply appear_in; [exact F|]. eapply template_shows_if; eauto.
Qed.
Lemma tr_exec emb t fs names ls : shows_all names t = true -> Forall2 appear ls (map (svalue fs) names) -> tr emb (tm t fs) (appear (List.concat ls)).
Proof. intros SH F. apply (tr_exec_if emb t fs [] names); [exact SH|intros f []|exact F]. Qed.
(** two fields, in order; one field *)
Lemma tr_exec2 emb t fs n1 n2 l1 l2 : shows_all [n1; n2] t = true -> appear l1 (svalue fs n1) -> appear l2 (svalue fs n2) -> tr emb (tm t fs) (appear (l1 ++ l2)).
Proof. intros SH A B. rewrite <- (app_nil_r l2). apply (tr_exec emb t fs [n1; n2] [l1; l2]); [exact SH|]. repeat constructor; assumption. Qed.
Lemma tr_exec1 emb t fs n1 l1 : shows_all [n1] t = true -> appear l1 (svalue fs n1) -> tr emb (tm t fs) (appear l1).
Proof. intros SH A. rewrite <- (app_nil_r l1). apply (tr_exec emb t fs [n1] [l1]); [exact SH|]. repeat constructor; assumption. Qed.
Lemma tr_exec0 emb t fs : tr emb (tm t fs) (fun _ => True).
Proof. apply tr_lift. auto. Qed.

Section Rec.
Variable rec : val -> M string.
Variable n : nat.
Notation t := (text n).
Hypothesis IH : forall emb v, tr emb (rec v) (appear (t emb v)).
Lemma wt emb l : ws (texts t emb l). Proof. apply ws_texts, ws_text. Qed.
Lemma wti emb a : ws (title_text t emb a). Proof. apply ws_title, ws_text. Qed.

Lemma tr_elements emb l : tr emb (renderElements rec l) (appear (texts t emb l)).
Proof.
  induction l as [|e l IHl]; [now apply tr_ret|]. cbn [renderElements]. eapply tr_bind; [apply IH|]. intros a A. eapply tr_bind; [exact IHl|]. intros b B.
  apply tr_ret. cbn [texts flat_map]. now apply appear_app.
Qed.
Lemma tr_listElements emb l : tr emb (renderListElements rec l) (appear (item_text t emb l)).
Proof.
  destruct l as [|e l]; [now apply tr_ret|]. cbn [renderListElements item_text]. eapply tr_bind; [apply tr_inList, IH|]. intros a A.
  eapply tr_bind; [apply tr_elements|]. intros b B. apply tr_ret. now apply appear_app.
Qed.
Lemma tr_inline emb l : tr emb (renderInlineElements rec l) (appear (texts t emb l)).
Proof.
  induction l as [|e l IHl]; [now apply tr_ret|]. cbn [renderInlineElements]. eapply tr_bind; [apply IH|]. intros a A. eapply tr_bind; [exact IHl|]. intros b B.
  apply tr_ret. cbn [texts flat_map]. apply appear_app; [|exact B].
  assert (K : appear (t emb e) (trim_right_char " "%char a)) by (apply keeps_trim_right_space; [apply ws_text|exact A]).
  destruct l; [|exact A]. destruct e; assumption.
Qed.
Lemma tr_roles emb l : tr emb (renderRoles rec l) (fun _ => True).
Proof.
  induction l as [|r l IHl]; [now apply tr_ret|]. cbn [renderRoles]. eapply (tr_bind _ _ _ _ _ (fun _ => True)).
  - destruct r; try apply tr_fail; [now apply tr_ret|eapply tr_true, tr_elements].
  - intros a _. eapply tr_bind; [exact IHl|]. intros. now apply tr_ret.
Qed.
Lemma tr_elementRoles emb a : tr emb (renderElementRoles rec a) (fun _ => True).
Proof. unfold renderElementRoles. destruct (mget a "roles") as [[]|]; try now apply tr_ret. eapply tr_bind; [apply tr_roles|]. intros. now apply tr_ret. Qed.
Lemma tr_imageRoles emb a : tr emb (renderImageRoles rec a) (fun _ => True).
Proof.
  unfold renderImageRoles. eapply (tr_bind _ _ _ _ _ (fun _ => True)); [|intros; now apply tr_ret].
  destruct (mget a "roles") as [[]|]; try now apply tr_ret. apply tr_roles.
Qed.
Lemma tr_title emb a : tr emb (renderElementTitle rec a) (appear (title_text t emb a)).
Proof.
  unfold renderElementTitle, title_text, label_text. destruct (mget a "title") as [[]|]; try apply tr_fail; [|apply tr_elements|now apply tr_ret].
  apply tr_ret, words_appear.
Qed.
Lemma tr_usual emb attrs content k c Q : tr emb content (appear c) ->
  (forall i ti r co, appear (title_text t emb attrs) ti -> appear c co ->
     tr emb (k [(".ID", FS i); (".Title", FS ti); (".Roles", FS r); (".Content", FS co)]) Q) ->
  tr emb (usual rec attrs content k) Q.
Proof.
  intros C K. unfold usual. eapply tr_bind; [exact C|]. intros co CO. eapply tr_bind; [apply tr_elementRoles|]. intros r _.
  eapply tr_bind; [apply tr_title|]. intros ti TI. now apply K.
Qed.
(** title, then content *)
Lemma tr_usual_block emb attrs content k tn extra c : shows_all [".Title"; ".Content"] tn = true ->
  (forall f, k f = tm tn (f ++ extra)) -> tr emb content (appear c) -> tr emb (usual rec attrs content k) (appear (title_text t emb attrs ++ c)).
Proof.
  intros SH K C. eapply tr_usual; [exact C|]. intros i ti r co TI CO. rewrite K. eapply tr_exec2; [exact SH| |]; assumption.
Qed.

(** ** paragraphs *)
Lemma tr_paragraphElements emb attrs es : tr emb (renderParagraphElements E rec attrs es) (appear (texts t emb es)).
Proof.
  unfold renderParagraphElements. eapply tr_bind; [apply tr_getAttrs|]. intros ctx _. eapply tr_bind; [apply tr_elements|]. intros s S0.
  destruct (_ || _); [|now apply tr_ret]. eapply tr_bind; [apply tr_exec0|]. intros br _. apply tr_ret.
  apply (keeps_replace_LF (br ++ LF)%string); [apply wt|exact S0].
Qed.
Lemma tr_embedded emb attrs es cl : tr emb (renderEmbeddedParagraph E rec attrs es cl) (appear (texts t emb es)).
Proof.
  unfold renderEmbeddedParagraph. eapply tr_bind; [apply tr_elements|]. intros c C. eapply (tr_exec1 _ _ _ ".Content"); [vm_compute; reflexivity|].
  cbn. apply keeps_trimSpaces; [apply wt|exact C].
Qed.
Lemma tr_icon emb cl attrs ad : tr emb (renderIcon E cl attrs ad) (fun _ => True).
Proof.
  unfold renderIcon. eapply tr_bind; [apply tr_getAttrs|]. intros ctx _. eapply (tr_bind _ _ _ _ _ (fun _ => True)); [|intros; apply tr_exec0].
  repeat match goal with |- tr _ (if ?b then _ else _) _ => destruct b end; first [now apply tr_ret|apply tr_fail].
Qed.
Lemma tr_caption emb a k1 k2 k3 : tr emb (renderCaption a k1 k2 k3) (fun _ => True).
Proof.
  unfold renderCaption. eapply tr_bind; [apply tr_getAttrs|]. intros ctx _. destruct (contains _ _); [|now apply tr_ret].
  eapply tr_bind; [apply tr_next|]. intros. now apply tr_ret.
Qed.
(** title, content, author and work *)
Lemma attribution_shows attrs l1 l2 fs tn : shows_all [".Title"; ".Content"; ".Attribution.First"] tn = true ->
  shows_if [".Attribution.First"] [".Title"; ".Content"; ".Attribution.First"; ".Attribution.Second"] tn = true ->
  appear l1 (svalue fs ".Title") -> appear l2 (svalue fs ".Content") -> (forall k, In k [".Attribution.First"; ".Attribution.Second"] -> mget fs k = mget (attribution_fields attrs) k) ->
  forall emb, tr emb (tm tn fs) (appear (l1 ++ l2 ++ attribution_text attrs)).
Proof.
  intros S1 S2 A B F emb.
  assert (F1 : svalue fs ".Attribution.First" = fst (newAttribution attrs)) by (unfold svalue; rewrite F by (now left); reflexivity).
  assert (F2 : svalue fs ".Attribution.Second" = snd (newAttribution attrs)) by (unfold svalue; rewrite F by (right; now left); reflexivity).
  assert (F3 : mget fs ".Attribution.First" = Some (FS (fst (newAttribution attrs)))) by (rewrite F by (now left); reflexivity).
  assert (G1 : forall l3, appear l3 (fst (newAttribution attrs)) -> tr emb (tm tn fs) (appear (l1 ++ l2 ++ l3))).
  { intros l3 L3. rewrite <- (app_nil_r l3). apply (tr_exec emb tn fs [".Title"; ".Content"; ".Attribution.First"] [l1; l2; l3]); [exact S1|].
    repeat constructor; try assumption. now rewrite F1. }
  unfold attribution_text, newAttribution, getAsString in *. destruct (mget attrs "quoteAuthor") as [v|]; [destruct v|]; cbn [fst snd optS] in *;
    destruct (mget attrs "quoteTitle") as [w|]; try (destruct w); cbn [fst snd optS] in *; try (apply G1; first [exact Logic.I|apply words_appear]).
  destruct (String.eqb_spec s "") as [->|NE]; [apply G1; exact Logic.I|].
  rewrite <- (app_nil_r (words s0)).
  apply (tr_exec_if emb tn fs [".Attribution.First"] [".Title"; ".Content"; ".Attribution.First"; ".Attribution.Second"] [l1; l2; words s; words s0]); [exact S2| |].
  - intros f [<-|[]]. eexists. split; [exact F3|]. cbn. destruct (String.eqb_spec s ""); [contradiction|reflexivity].
  - repeat constructor; try assumption; [rewrite F1|rewrite F2]; apply words_appear.
Qed.

Ltac sh := vm_compute; reflexivity.
Lemma tr_exampleBlock emb attrs es : tr emb (renderExampleBlock E rec attrs es) (appear (title_text t emb attrs ++ texts t emb es)).
Proof.
  unfold renderExampleBlock. eapply tr_bind; [apply tr_elements|]. intros c C. eapply tr_bind; [apply tr_elementRoles|]. intros r _.
  eapply tr_bind; [apply tr_caption|]. intros cn _. eapply tr_bind; [apply tr_title|]. intros ti TI.
  eapply (tr_exec2 _ _ _ ".Title" ".Content"); [sh| |]; assumption.
Qed.
Lemma tr_admonitionBlock emb attrs es : tr emb (renderAdmonitionBlock E rec attrs es) (appear (title_text t emb attrs ++ texts t emb es)).
Proof.
  unfold renderAdmonitionBlock. eapply tr_bind; [apply tr_icon|]. intros ic _. eapply tr_usual_block; [|intros; reflexivity|apply tr_elements]. sh.
Qed.
Lemma tr_admonitionParagraph emb attrs es : tr emb (renderAdmonitionParagraph E rec attrs es)
  (appear (match texts t emb es with [] => [] | l => title_text t emb attrs ++ l end)).
Proof.
  unfold renderAdmonitionParagraph. destruct (getAsString attrs "style"); [|apply tr_fail]. eapply tr_bind; [apply tr_icon|]. intros ic _.
  eapply tr_usual; [apply tr_paragraphElements|]. intros i ti r co TI CO. destruct (texts t emb es) as [|w l] eqn:TE; [eapply tr_true, tr_exec0|].
  rewrite <- (app_nil_r (w :: l)).
  apply (tr_exec_if emb TAdmonitionParagraph _ [".Content"] [".Title"; ".Content"] [title_text t emb attrs; w :: l]); [sh| |repeat constructor; assumption].
  intros f [<-|[]]. eexists. split; [reflexivity|]. cbn [truth]. destruct (String.eqb_spec co "") as [->|]; [|reflexivity].
  destruct CO as (a & b & EQ & _). pose proof (wt emb es) as W. rewrite TE in W. inversion W as [|? ? [_ NE] _]; subst.
  destruct a; [|discriminate]. destruct w; [now destruct NE|discriminate].
Qed.
Lemma tr_exampleParagraph emb attrs es : tr emb (renderExampleParagraph E rec attrs es) (appear (title_text t emb attrs ++ texts t emb es)).
Proof.
  unfold renderExampleParagraph. eapply tr_usual_block; [|intros; reflexivity|]; [sh|]. eapply tr_bind; [apply tr_elements|].
  intros s S0. apply tr_ret. now apply appear_after.
Qed.
Lemma tr_literalParagraph emb attrs es : tr emb (renderLiteralParagraph E rec attrs es) (appear (title_text t emb attrs ++ texts t emb es)).
Proof.
  unfold renderLiteralParagraph. eapply (tr_usual_block _ _ _ _ TLiteralBlock []); [sh|intros; now rewrite app_nil_r|]. eapply tr_bind; [apply tr_elements|].
  intros s S0. apply tr_ret. destruct (mget attrs "style") as [[]|]; try exact S0. destruct (String.eqb _ _); [|exact S0]. apply keeps_heading; [apply wt|exact S0].
Qed.
Ltac blk := match goal with |- tr _ (usual _ _ _ (tm ?tn)) _ => eapply (tr_usual_block _ _ _ _ tn []); [sh|intros; now rewrite app_nil_r|] end.
Lemma tr_trimmed emb es : tr emb (mapS trimLF (renderElements rec es)) (appear (texts t emb es)).
Proof. apply tr_map; [apply wt|apply keeps_trimLF|apply tr_elements]. Qed.
Lemma tr_literalBlock emb attrs es : tr emb (renderLiteralBlock E rec attrs es) (appear (title_text t emb attrs ++ texts t emb es)).
Proof. unfold renderLiteralBlock. blk. apply tr_trimmed. Qed.
Lemma tr_fencedBlock emb attrs es : tr emb (renderFencedBlock E rec attrs es) (appear (title_text t true attrs ++ texts t true es)).
Proof. unfold renderFencedBlock. apply tr_inBlock. blk. apply tr_trimmed. Qed.
Lemma tr_listingParagraph emb attrs es : tr emb (renderListingParagraph E rec attrs es) (appear (title_text t emb attrs ++ texts t emb es)).
Proof. unfold renderListingParagraph. blk. apply tr_elements. Qed.
Lemma tr_callouts emb l : tr emb (renderCallouts E l) (fun _ => True).
Proof.
  induction l as [|z l IHl]; [now apply tr_ret|]. cbn [renderCallouts]. eapply tr_bind; [apply tr_exec0|]. intros a _.
  eapply tr_bind; [exact IHl|]. intros. now apply tr_ret.
Qed.
Lemma tr_highlighted emb attrs l : forall i, tr emb (renderHighlighted E attrs i l) (fun _ => True).
Proof.
  induction l as [|z l IHl]; intros i; [now apply tr_ret|]. cbn [renderHighlighted]. eapply tr_bind; [apply tr_getAttrs|]. intros ctx _.
  eapply (tr_bind _ _ _ _ _ (fun _ => True)); [apply tr_lift; auto|]. intros tc _. eapply (tr_bind _ _ _ _ _ (fun _ => True)); [apply tr_lift; auto|]. intros h _.
  eapply tr_bind; [apply tr_callouts|]. intros cs _. eapply tr_bind; [apply IHl|]. intros. now apply tr_ret.
Qed.
Lemma tr_sourceElements emb attrs es : tr emb (renderSourceBlockElements E rec attrs es) (fun x => appear (source_text t attrs es) (fst x)).
Proof.
  unfold renderSourceBlockElements. apply tr_inBlock. eapply tr_bind; [apply tr_getAttrs|]. intros ctx _. eapply tr_bind; [|intros s S0; apply tr_ret; exact S0].
  unfold source_text. unfold getD, getAsStringD. destruct (mget attrs "language") as [v|]; [|cbn; apply tr_elements].
  assert (X : forall (b : bool), tr true (if b then renderElements rec es else renderHighlighted E attrs 0 (SplitElementsPerLine es)) (fun _ => True)).
  { intros []; [eapply tr_true, tr_elements|apply tr_highlighted]. }
  destruct v; try apply X. destruct s; [cbn; apply tr_elements|apply X].
Qed.
Lemma ws_src attrs es : ws (source_text t attrs es). Proof. apply ws_source, ws_text. Qed.
Lemma tr_sourceBlock emb attrs es : tr emb (renderSourceBlock E rec attrs es) (appear (title_text t emb attrs ++ source_text t attrs es)).
Proof.
  unfold renderSourceBlock. eapply tr_bind; [apply tr_sourceElements|]. intros c C. eapply tr_bind; [apply tr_elementRoles|]. intros r _.
  eapply tr_bind; [apply tr_title|]. intros ti TI. eapply (tr_exec2 _ _ _ ".Title" ".Content"); [sh|exact TI|]. apply keeps_trimLF; [apply ws_src|exact C].
Qed.
Lemma tr_listingBlock emb attrs es : tr emb (renderListingBlock E rec attrs es)
  (appear (if styled attrs ["source"] then title_text t emb attrs ++ source_text t attrs es else title_text t true attrs ++ texts t true es)).
Proof.
  unfold renderListingBlock. assert (X : (match mget attrs "style" with Some v => eq_str v "source" | None => false end) = styled attrs ["source"]).
  { unfold styled. destruct (mget attrs "style") as [[]|]; try reflexivity. cbn. now destruct (String.eqb _ _). }
  rewrite X. destruct (styled _ _); [apply tr_sourceBlock|]. apply tr_inBlock. blk. apply tr_trimmed.
Qed.
Lemma tr_markdownQuote emb attrs es : tr emb (renderMarkdownQuoteBlock E rec attrs es) (appear (title_text t emb attrs ++ texts t emb es ++ attribution_text attrs)).
Proof.
  unfold renderMarkdownQuoteBlock. eapply tr_usual; [apply tr_trimmed|]. intros i ti r co TI CO. eapply attribution_shows; [sh|sh|assumption|assumption|].
  intros k [<-|[<-|[]]]; reflexivity.
Qed.
Lemma tr_quoteBlock emb attrs es : tr emb (renderQuoteBlock E rec attrs es) (appear (title_text t emb attrs ++ texts t emb es ++ attribution_text attrs)).
Proof.
  unfold renderQuoteBlock. eapply tr_usual; [apply tr_elements|]. intros i ti r co TI CO. eapply attribution_shows; [sh|sh|assumption|assumption|].
  intros k [<-|[<-|[]]]; reflexivity.
Qed.
Lemma tr_quoteParagraph emb attrs es : tr emb (renderQuoteParagraph E rec attrs es) (appear (title_text t emb attrs ++ texts t emb es ++ attribution_text attrs)).
Proof.
  unfold renderQuoteParagraph. eapply tr_bind; [apply tr_paragraphElements|]. intros c C. eapply tr_bind; [apply tr_title|]. intros ti TI.
  eapply attribution_shows; [sh|sh|assumption|assumption|]. intros k [<-|[<-|[]]]; reflexivity.
Qed.
Lemma tr_verseBlock emb attrs es : tr emb (renderVerseBlock E rec attrs es) (appear (title_text t true attrs ++ texts t true es ++ attribution_text attrs)).
Proof.
  unfold renderVerseBlock. eapply tr_bind; [apply tr_elementRoles|]. intros r _. apply tr_inBlock. eapply tr_bind; [apply tr_elements|]. intros c C.
  eapply tr_bind; [apply tr_title|]. intros ti TI. eapply attribution_shows; [sh|sh|assumption| |].
  - apply keeps_trimLF; [apply wt|exact C].
  - intros k [<-|[<-|[]]]; reflexivity.
Qed.
End Rec.

(** plain text *)
Definition go_plain (k : nat) esc := fix go (l : list val) : result string :=
         match l with
         | [] => Ok EmptyString
         | e :: r => do s <- plain E k esc e;
                     do t <- go r;
                     Ok ((match r, e with [], StringElement _ => trim_right_char " "%char s | _, _ => s end) ++ t)%string
         end.
Lemma plain_text k : forall n emb esc v s, plain E k esc v = Ok s -> appear (text n emb v) s.
Proof.
  induction k as [|k IHk]; intros n emb esc v s H; [discriminate|]. destruct n as [|n]; [exact Logic.I|].
  assert (G : forall l s, go_plain k esc l = Ok s -> appear (texts (text n) emb l) s).
  { induction l as [|e l IHl]; intros s0 X; [exact Logic.I|]. cbn [go_plain] in X. fold (go_plain k esc) in X.
    destruct (plain E k esc e) as [a| |] eqn:PA; try discriminate. cbn [bind] in X. destruct (go_plain k esc l) as [b| |] eqn:PB; try discriminate.
    cbn [bind] in X. injection X as <-. cbn [texts flat_map]. apply appear_app; [|now apply IHl].
    assert (K : appear (text n emb e) a) by (eapply IHk; eauto).
    assert (K2 : appear (text n emb e) (trim_right_char " "%char a)) by (apply keeps_trim_right_space; [apply ws_text|exact K]).
    destruct l; [|exact K]. destruct e; assumption. }
  cbn [plain] in H. fold (go_plain k esc) in H. cbn [text]. destruct v; try discriminate H; try exact Logic.I; try (apply G; exact H).
  - injection H as <-. apply words_appear.
  - destruct (mget attrs "text") as [x|] eqn:MT.
    + destruct x; try exact Logic.I; cbn [label_text]; [injection H as <-; apply words_appear|apply G; exact H].
    + destruct v; try exact Logic.I. destruct v; try exact Logic.I. injection H as <-. cbn [toDisplayString stringify].
      destruct (String.eqb scheme "mailto:"); [apply words_appear|apply appear_ctx, words_appear].
Qed.
Lemma plain_texts n emb l : forall s, renderPlainElements E l = Ok s -> appear (texts (text n) emb l) s.
Proof.
  induction l as [|e l IHl]; intros s H; [exact Logic.I|]. cbn [renderPlainElements] in H. destruct (plain E _ None e) as [a| |] eqn:P; try discriminate.
  cbn [bind] in H. destruct (renderPlainElements E l) as [b| |] eqn:Q; try discriminate. cbn [bind] in H. injection H as <-.
  cbn [texts flat_map]. apply appear_app; [eapply plain_text; eauto|now apply IHl].
Qed.

Section Rec2.
Variable rec : val -> M string.
Variable n : nat.
Notation t := (text n).
Hypothesis IH : forall emb v, tr emb (rec v) (appear (t emb v)).
Ltac sh := vm_compute; reflexivity.
Let wt := wt n.
Lemma tr_verseParagraph emb attrs es : tr emb (renderVerseParagraph E rec attrs es) (appear (title_text t emb attrs ++ texts t emb es ++ attribution_text attrs)).
Proof.
  unfold renderVerseParagraph. eapply tr_bind; [apply tr_lift; intros a A; exact (plain_texts n emb es a A)|]. intros c C.
  eapply tr_bind; [apply (tr_title _ n IH)|]. intros ti TI. eapply attribution_shows; [sh|sh|assumption|assumption|]. intros k [<-|[<-|[]]]; reflexivity.
Qed.
Lemma tr_raw emb l : tr emb (renderRawElements rec l) (appear (texts t emb l)).
Proof.
  induction l as [|e l IHl]; [now apply tr_ret|]. cbn [renderRawElements]. eapply (tr_bind _ _ _ _ _ (appear (t emb e))).
  - destruct e; try apply IH. apply tr_ret. destruct n; [exact Logic.I|apply words_appear].
  - intros a A. eapply tr_bind; [exact IHl|]. intros b B. apply tr_ret. cbn [texts flat_map]. now apply appear_app.
Qed.
Lemma tr_passContent emb l : tr emb (renderPassthroughContent rec l) (appear (texts t emb l)).
Proof. apply tr_map; [apply wt|apply keeps_trimLF|apply tr_raw]. Qed.
Lemma tr_passParagraph emb l : tr emb (renderPassthroughParagraph rec l) (appear (texts t emb l)).
Proof. eapply tr_bind; [apply tr_passContent|]. intros s S0. apply tr_ret. now apply appear_after. Qed.
Lemma tr_inlinePass emb k l : tr emb (renderInlinePassthrough rec k l) (appear (texts t emb l)).
Proof.
  eapply tr_bind; [apply tr_passContent|]. intros s S0. apply tr_ret. destruct (String.eqb k "+"); [|exact S0]. apply keeps_html_escape; [apply wt|exact S0].
Qed.
Lemma tr_passBlock emb attrs es : tr emb (renderPassthroughBlock E rec attrs es) (appear (texts t true es)).
Proof.
  unfold renderPassthroughBlock. apply tr_inBlock. eapply tr_bind; [apply (tr_elements _ n IH)|]. intros c C. eapply tr_bind; [apply (tr_elementRoles _ n IH)|]. intros r _.
  eapply (tr_exec1 _ _ _ ".Content"); [sh|]. apply keeps_trimLF; [apply wt|exact C].
Qed.
Lemma tr_plainBlock emb attrs es tn : shows_all [".Title"; ".Content"] tn = true ->
  tr emb (usual rec attrs (renderElements rec es) (tm tn)) (appear (title_text t emb attrs ++ texts t emb es)).
Proof. intros SH. eapply (tr_usual_block rec n IH _ _ _ _ tn []); [exact SH|intros; now rewrite app_nil_r|apply (tr_elements _ n IH)]. Qed.
Lemma tr_delimited emb kind attrs es : tr emb (renderDelimitedBlock E rec kind attrs es) (appear (block_text t emb kind attrs es)).
Proof.
  unfold renderDelimitedBlock, block_text.
  destruct (String.eqb_spec kind "example") as [->|]; [cbn; rewrite app_nil_r, orb_false_r; destruct (ahas attrs "style"); [apply (tr_admonitionBlock _ n IH)|apply (tr_exampleBlock _ n IH)]|].
  destruct (String.eqb_spec kind "fenced") as [->|]; [cbn; rewrite app_nil_r, orb_true_r; apply (tr_fencedBlock _ n IH)|].
  destruct (String.eqb_spec kind "literal") as [->|]; [cbn; rewrite app_nil_r, orb_false_r; apply (tr_literalBlock _ n IH)|].
  destruct (String.eqb_spec kind "listing") as [->|]; [cbn [String.eqb Ascii.eqb Bool.eqb andb]; pose proof (tr_listingBlock rec n IH emb attrs es) as K; destruct (styled attrs ["source"]); [exact K|];
    cbn; rewrite app_nil_r, orb_true_r; exact K|].
  destruct (String.eqb_spec kind "markdown-quote") as [->|]; [cbn; rewrite orb_false_r; apply (tr_markdownQuote _ n IH)|].
  destruct (String.eqb_spec kind "pass") as [->|]; [cbn; apply tr_passBlock|].
  destruct (String.eqb_spec kind "quote") as [->|]; [cbn; rewrite orb_false_r; apply (tr_quoteBlock _ n IH)|].
  destruct (String.eqb_spec kind "verse") as [->|]; [cbn; rewrite orb_true_r; apply (tr_verseBlock _ n IH)|].
  destruct (String.eqb_spec kind "sidebar") as [->|]; [cbn; rewrite app_nil_r, orb_false_r; apply tr_plainBlock; sh|].
  destruct (String.eqb_spec kind "open") as [->|]; [cbn; rewrite app_nil_r, orb_false_r; apply tr_plainBlock; sh|]. apply tr_fail.
Qed.
Lemma tr_state emb A (f : rst -> M A) Q : (forall st, emb_of st = emb -> tr emb (f st) Q) -> tr emb (fun st => f st st) Q.
Proof. intros H st a st' L X Y. exact (H st X st a st' L X Y). Qed.
Lemma tr_regular emb attrs es : tr emb (renderRegularParagraph E rec attrs es) (appear (title_text t emb attrs ++ texts t emb es)).
Proof.
  unfold renderRegularParagraph. eapply (tr_usual_block rec n IH _ _ _ _ TParagraph []); [sh|intros; now rewrite app_nil_r|].
  apply tr_map; [apply wt|apply keeps_trimLF|apply (tr_paragraphElements _ n IH)].
Qed.
Lemma tr_manpageName emb es : tr emb (renderManpageNameParagraph E rec es) (appear (texts t emb es)).
Proof. unfold renderManpageNameParagraph. eapply tr_bind; [apply (tr_elements _ n IH)|]. intros c C. eapply (tr_exec1 _ _ _ ".Content"); [sh|exact C]. Qed.
Lemma source_text_style attrs es v : source_text t (mset attrs "style" v) es = source_text t attrs es.
Proof. unfold source_text. rewrite mget_mset_neq by discriminate. reflexivity. Qed.
Lemma title_text_style emb attrs v : title_text t emb (mset attrs "style" v) = title_text t emb attrs.
Proof. unfold title_text. rewrite mget_mset_neq by discriminate. reflexivity. Qed.
Lemma tr_paragraph emb attrs es : tr emb (renderParagraph E rec attrs es) (appear (paragraph_text t emb attrs es)).
Proof.
  unfold renderParagraph. apply (tr_state emb _ (fun st => if r_within st || (0 <? r_list st)%Z then _ else _)). intros st EM. fold (emb_of st). rewrite EM.
  unfold paragraph_text. destruct emb; [apply (tr_embedded _ n IH)|]. cbn [orb]. unfold styled, among, admonition_styles.
  assert (RG := tr_regular false attrs es).
  destruct (mget attrs "style") as [v|] eqn:MS; [|exact RG].
  destruct v; try exact RG. cbn [existsb].
  destruct (String.eqb_spec s "example") as [->|]; [apply (tr_exampleParagraph _ n IH)|].
  destruct (String.eqb_spec s "listing") as [->|]; [apply (tr_listingParagraph _ n IH)|].
  destruct (String.eqb_spec s "source") as [->|].
  { cbn. unfold renderSourceParagraph. pose proof (tr_sourceBlock rec n IH false (mset attrs "style" (VStr "source")) es) as K.
    rewrite title_text_style, source_text_style in K. exact K. }
  destruct (String.eqb_spec s "verse") as [->|]; [apply tr_verseParagraph|].
  destruct (String.eqb_spec s "quote") as [->|]; [apply (tr_quoteParagraph _ n IH)|].
  destruct (String.eqb_spec s "pass") as [->|]; [apply tr_passParagraph|].
  destruct (String.eqb_spec s "manpage") as [->|]; [apply tr_manpageName|]. cbn [orb].
  destruct (_ || (_ || (_ || (_ || (_ || false))))); [apply (tr_admonitionParagraph _ n IH)|].
  destruct (_ || _); [apply (tr_literalParagraph _ n IH)|exact RG].
Qed.

(** ** lists *)
Lemma tr_item emb tn es : shows_all [".Content"] tn = true -> tr emb (renderItem E rec tn es) (appear (item_text t emb es)).
Proof. intros SH. unfold renderItem. eapply tr_bind; [apply (tr_listElements _ n IH)|]. intros c C. eapply (tr_exec1 _ _ _ ".Content"); [exact SH|exact C]. Qed.
Lemma tr_orderedItems emb l : tr emb (renderOrderedItems E rec l) (appear (items_text t "ordered_list" emb l)).
Proof.
  induction l as [|e l IHl]; [now apply tr_ret|]. cbn [renderOrderedItems]. destruct e; try apply tr_fail. eapply tr_bind; [apply tr_item; sh|]. intros a A.
  eapply tr_bind; [exact IHl|]. intros b B. apply tr_ret. now apply appear_app.
Qed.
Lemma tr_unorderedItems emb l : tr emb (renderUnorderedItems E rec l) (appear (items_text t "unordered_list" emb l)).
Proof.
  induction l as [|e l IHl]; [now apply tr_ret|]. cbn [renderUnorderedItems]. destruct e; try apply tr_fail; (eapply tr_bind; [apply tr_item; sh|]; intros a A;
  eapply tr_bind; [exact IHl|]; intros b B; apply tr_ret; now apply appear_app).
Qed.
Lemma tr_labeledItems emb tn l : shows_all [".Term"; ".Content"] tn = true -> forall cont, tr emb (renderLabeledItems E rec tn cont l) (appear (items_text t "labeled_list" emb l)).
Proof.
  intros SH. induction l as [|e l IHl]; intros cont; [now apply tr_ret|]. cbn [renderLabeledItems]. destruct e; try apply tr_fail.
  eapply (tr_bind _ _ _ _ _ (fun x => appear (texts t emb term ++ item_text t emb elements) (fst x))).
  - unfold renderLabeledListItem. eapply tr_bind; [apply (tr_inline _ n IH)|]. intros tm0 T0. eapply tr_bind; [apply (tr_listElements _ n IH)|]. intros c C.
    eapply tr_bind; [eapply (tr_exec2 _ _ _ ".Term" ".Content"); [exact SH|exact T0|exact C]|]. intros s S0. apply tr_ret. exact S0.
  - intros a A. eapply tr_bind; [apply IHl|]. intros b B. apply tr_ret. now apply appear_app.
Qed.
Lemma tr_calloutItems emb l : tr emb (renderCalloutItems E rec l) (appear (items_text t "callout_list" emb l)).
Proof.
  induction l as [|e l IHl]; [now apply tr_ret|]. cbn [renderCalloutItems]. destruct e; try apply tr_fail. eapply tr_bind; [apply (tr_listElements _ n IH)|]. intros c C.
  eapply tr_bind; [eapply (tr_exec1 _ _ _ ".Content"); [sh|exact C]|]. intros a A. eapply tr_bind; [exact IHl|]. intros b B. apply tr_ret. now apply appear_app.
Qed.
Lemma tr_list emb kind attrs es : tr emb (renderList E rec kind attrs es) (appear (title_text t emb attrs ++ items_text t kind emb es)).
Proof.
  unfold renderList. destruct (String.eqb_spec kind "ordered_list") as [->|].
  { unfold renderOrderedList. eapply tr_bind; [apply tr_orderedItems|]. intros c C. eapply tr_bind; [apply (tr_elementRoles _ n IH)|]. intros r _.
    eapply (tr_bind _ _ _ _ _ (fun _ => True)); [apply tr_lift; auto|]. intros st _. eapply tr_bind; [apply (tr_title _ n IH)|]. intros ti TI.
    eapply (tr_exec2 _ _ _ ".Title" ".Content"); [sh|exact TI|exact C]. }
  destruct (String.eqb_spec kind "unordered_list") as [->|].
  { unfold renderUnorderedList. eapply (tr_bind _ _ _ _ _ (fun _ => True)); [destruct es as [|[] ?]; first [now apply tr_ret|apply tr_fail]|]. intros ck _.
    eapply tr_bind; [apply tr_unorderedItems|]. intros c C. eapply tr_bind; [apply (tr_elementRoles _ n IH)|]. intros r _.
    eapply tr_bind; [apply (tr_title _ n IH)|]. intros ti TI. eapply (tr_exec2 _ _ _ ".Title" ".Content"); [sh|exact TI|exact C]. }
  destruct (String.eqb_spec kind "labeled_list") as [->|].
  { unfold renderLabeledList. eapply (tr_bind _ _ _ _ _ (fun x => shows_all [".Title"; ".Content"] (fst x) = true /\ shows_all [".Term"; ".Content"] (snd x) = true)).
    - unfold getLabeledListTmpl. destruct (mget attrs "style") as [v|]; [|apply tr_ret; split; sh]. destruct (eq_str v "qanda"); [apply tr_ret; split; sh|].
      destruct (eq_str v "horizontal"); [apply tr_ret; split; sh|apply tr_fail].
    - intros [a b] [A B]. eapply (tr_usual_block rec n IH _ _ _ _ a []); [exact A|intros; now rewrite app_nil_r|]. now apply tr_labeledItems. }
  destruct (String.eqb_spec kind "callout_list") as [->|]; [|apply tr_fail].
  unfold renderCalloutList. eapply (tr_usual_block rec n IH _ _ _ _ TCalloutList []); [sh|intros; now rewrite app_nil_r|apply tr_calloutItems].
Qed.

(** ** tables *)
Lemma tr_edgeCells emb tn cols l : shows_all [".Content"] tn = true -> forall i, tr emb (renderEdgeCells E rec tn cols i l) (appear (flat_map (edge_cell_text t emb) l)).
Proof.
  intros SH. induction l as [|c l IHl]; intros i; [now apply tr_ret|]. cbn [renderEdgeCells]. destruct cols as [|d cols]; [apply tr_panic|].
  eapply (tr_bind _ _ _ _ _ (appear (edge_cell_text t emb c))).
  - unfold renderEdgeCell. destruct c; try apply tr_fail. destruct elements as [|e [|]]; try apply tr_fail; destruct e; try apply tr_fail.
    eapply tr_bind; [apply (tr_inline _ n IH)|]. intros s S0. eapply (tr_exec1 _ _ _ ".Content"); [exact SH|exact S0].
  - intros a A. eapply tr_bind; [apply IHl|]. intros b B. apply tr_ret. cbn [flat_map]. now apply appear_app.
Qed.
Lemma tr_edgeRow emb tn tc row cols : shows_all [".Content"] tn = true -> shows_all [".Content"] tc = true ->
  tr emb (renderEdgeRow E rec tn tc row cols) (appear (row_text (edge_cell_text t emb) row)).
Proof.
  intros S1 S2. unfold renderEdgeRow. destruct row; try now apply tr_ret. eapply tr_bind; [apply (tr_edgeCells _ _ _ _ S2)|]. intros c C.
  eapply (tr_exec1 _ _ _ ".Content"); [exact S1|exact C].
Qed.
Lemma tr_cellBlock emb b : tr emb (renderTableCellBlock E rec b) (appear (match b with Paragraph _ es => texts t emb es | _ => t emb b end)).
Proof.
  assert (G : tr emb (let* s := rec b in tm TTableCellBlock [(".Content", FS s)]) (appear (t emb b))).
  { eapply tr_bind; [apply IH|]. intros s S0. apply tr_lift. intros out X.
    assert (K : out = ("<div class=""content"">" ++ trim_suffix s LF ++ "</div>")%string).
    { unfold template in X. destruct (e_xhtml E); cbv [execute] in X; cbn in X; injection X as <-; reflexivity. }
    rewrite K. apply appear_ctx, appear_after, keeps_trim_suffix_LF; [apply ws_text|exact S0]. }
  unfold renderTableCellBlock. destruct b; try exact G. eapply tr_bind; [apply (tr_elements _ n IH)|]. intros c C. eapply tr_bind; [apply (tr_title _ n IH)|]. intros ti _.
  eapply tr_bind; [eapply (tr_exec1 _ _ _ ".Content"); [sh|exact C]|]. intros s S0. apply tr_ret. apply keeps_trim_suffix_LF; [apply wt|exact S0].
Qed.
Lemma tr_cellBlocks emb l : tr emb (renderCellBlocks E rec l) (appear (flat_map (fun b => match b with Paragraph _ es => texts t emb es | _ => t emb b end) l)).
Proof.
  induction l as [|b l IHl]; [now apply tr_ret|]. cbn [renderCellBlocks]. eapply tr_bind; [apply tr_cellBlock|]. intros a A. eapply tr_bind; [exact IHl|]. intros c C.
  apply tr_ret. cbn [flat_map]. now apply appear_app.
Qed.
Lemma tr_cells emb cols l : forall i, tr emb (renderCells E rec cols i l) (appear (flat_map (cell_text t emb) l)).
Proof.
  induction l as [|c l IHl]; intros i; [now apply tr_ret|]. cbn [renderCells]. destruct (nth_error cols i) as [col|]; [|apply tr_panic].
  eapply (tr_bind _ _ _ _ _ (appear (cell_text t emb c))).
  - unfold renderTableCell. destruct c; try apply tr_fail. eapply tr_bind; [apply tr_cellBlocks|]. intros s S0.
    destruct (String.eqb _ _); (eapply (tr_exec1 _ _ _ ".Content"); [sh|exact S0]).
  - intros a A. eapply tr_bind; [apply IHl|]. intros b B. apply tr_ret. cbn [flat_map]. now apply appear_app.
Qed.
Lemma row_nonempty fs out : execute (e_toLower E) (template E TTableRow) fs = Ok out -> out <> "".
Proof.
  intros X. assert (K : exists r, out = ("<tr>" ++ r)%string).
  { unfold template in X. destruct (e_xhtml E); cbv [execute] in X; cbn in X; destruct (field fs ".Content"); try discriminate; cbn in X; destruct (show _); try discriminate; injection X as <-; eexists; reflexivity. }
  destruct K as [r ->]. discriminate.
Qed.
Lemma tr_rows emb cols l : tr emb (renderRows E rec cols l) (fun s => appear (flat_map (row_text (cell_text t emb)) l) s /\ (l <> [] -> s <> "")).
Proof.
  induction l as [|r l IHl]; [apply tr_ret; split; [exact Logic.I|congruence]|]. cbn [renderRows]. destruct r; try apply tr_fail.
  eapply tr_bind; [apply tr_cells|]. intros c C.
  eapply (tr_bind _ _ _ _ _ (fun s => appear (flat_map (cell_text t emb) cells) s /\ s <> "")).
  - intros st a st' L X Y. assert (Y' := Y). unfold exec, lift in Y'. destruct (execute _ _ _) as [o| |] eqn:EX; try discriminate. injection Y' as <- <-.
    destruct (tr_exec1 emb TTableRow [(".Content", FS c)] ".Content" _ ltac:(sh) C _ _ _ L X Y) as (AP & R). split; [|exact R]. split; [exact AP|]. eapply row_nonempty; eauto.
  - intros a [A NE]. eapply tr_bind; [exact IHl|]. intros b [B _]. apply tr_ret. split; [cbn [flat_map row_text]; now apply appear_app|].
    intros _ X. destruct a; [congruence|discriminate].
Qed.
Lemma body_nonempty c out : execute (e_toLower E) (template E TTableBody) [(".Content", FS c)] = Ok out -> c <> "" -> out <> "".
Proof.
  intros X NE. assert (K : exists r, out = ("<tbody>" ++ r)%string).
  { unfold template in X. destruct (e_xhtml E); cbv [execute] in X; cbn in X; destruct (String.eqb_spec c ""); try contradiction; cbn in X; injection X as <-; eexists; reflexivity. }
  destruct K as [r ->]. discriminate.
Qed.
Lemma tr_table emb attrs h rows f : tr emb (renderTable E rec (Table attrs h rows f)) (appear (table_text t emb attrs h rows f)).
Proof.
  unfold renderTable, table_text. eapply (tr_bind _ _ _ _ _ (fun _ => True)); [destruct (ahas attrs "title"); [apply tr_caption|now apply tr_ret]|]. intros cn _.
  eapply (tr_bind _ _ _ _ _ (fun _ => True)); [apply tr_lift; auto|]. intros cols _.
  eapply tr_bind; [apply (tr_edgeRow emb TTableHeader TTableHeaderCell); sh|]. intros hd HD.
  eapply tr_bind; [apply (tr_edgeRow emb TTableFooter TTableFooterCell); sh|]. intros ft FT.
  eapply (tr_bind _ _ _ _ _ (fun s => appear (flat_map (row_text (cell_text t emb)) rows) s /\ (rows <> [] -> s <> ""))).
  { eapply tr_bind; [apply tr_rows|]. intros c [C NE]. intros st a st' L X Y. assert (Y' := Y). unfold exec, lift in Y'. destruct (execute _ _ _) as [o| |] eqn:EX; try discriminate. injection Y' as <- <-.
    destruct (tr_exec1 emb TTableBody [(".Content", FS c)] ".Content" _ ltac:(sh) C _ _ _ L X Y) as (AP & R). split; [|exact R]. split; [exact AP|].
    intros NR. eapply body_nonempty; eauto. }
  intros b [B NE]. eapply tr_bind; [apply (tr_elementRoles _ n IH)|]. intros r _. eapply tr_bind; [apply (tr_title _ n IH)|]. intros ti TI.
  destruct rows as [|row rows]; [rewrite app_nil_r; eapply (tr_exec1 _ _ _ ".Title"); [sh|exact TI]|].
  rewrite <- (app_nil_r (row_text _ f)).
  eapply (tr_exec_if emb TTable _ [".Body"] [".Title"; ".Header"; ".Body"; ".Footer"]
    [title_text t emb attrs; row_text (edge_cell_text t emb) h; flat_map (row_text (cell_text t emb)) (row :: rows); row_text (edge_cell_text t emb) f]); [sh| |].
  - intros k [<-|[]]. eexists. split; [reflexivity|]. cbn [truth]. destruct (String.eqb_spec b ""); [|reflexivity]. destruct NE; [discriminate|assumption].
  - repeat constructor; assumption.
Qed.

(** ** images and inline elements *)
Lemma tr_imageBlock emb loc attrs : tr emb (renderImageBlock E rec loc attrs) (appear (title_text t emb attrs)).
Proof.
  unfold renderImageBlock. eapply tr_bind; [apply (tr_title _ n IH)|]. intros ti TI.
  eapply (tr_bind _ _ _ _ _ (fun _ => True)); [destruct (String.eqb ti ""); [now apply tr_ret|apply tr_caption]|]. intros cn _.
  eapply tr_bind; [apply (tr_imageRoles _ n IH)|]. intros r _. eapply tr_bind; [apply tr_getAttrs|]. intros ctx _.
  eapply (tr_bind _ _ _ _ _ (fun _ => True)); [apply tr_lift; auto|]. intros alt _. eapply (tr_exec1 _ _ _ ".Title"); [sh|exact TI].
Qed.
Lemma tr_inlineImage emb loc attrs : tr emb (renderInlineImage E rec loc attrs) (fun _ => True).
Proof.
  unfold renderInlineImage. eapply tr_bind; [apply (tr_imageRoles _ n IH)|]. intros r _. eapply tr_bind; [apply tr_getAttrs|]. intros ctx _.
  eapply (tr_bind _ _ _ _ _ (fun _ => True)); [apply tr_lift; auto|]. intros alt _. eapply tr_bind; [apply (tr_title _ n IH)|]. intros. apply tr_exec0.
Qed.
Lemma tr_label emb l : tr emb (renderLabel E rec l) (fun _ => True).
Proof.
  induction l as [|e l IHl]; [now apply tr_ret|]. cbn [renderLabel]. eapply (tr_bind _ _ _ _ _ (fun _ => True)).
  - destruct e; try (eapply tr_true, IH). apply tr_lift. auto.
  - intros a _. eapply tr_bind; [exact IHl|]. intros. now apply tr_ret.
Qed.
Lemma tr_internal emb id label : tr emb (renderInternalCrossReference E rec id label) (appear (match label with VStr s => words s | _ => [] end)).
Proof.
  unfold renderInternalCrossReference. destruct id; try apply tr_fail. eapply (tr_bind _ _ _ _ _ (appear (match label with VStr s => words s | _ => [] end))).
  - assert (G : tr emb (renderRefLabel E rec s) (fun _ => True)).
    { unfold renderRefLabel. destruct (mget _ s) as [[]|]; first [now apply tr_ret|apply tr_label|apply tr_fail]. }
    destruct label; try exact G. apply tr_ret, words_appear.
  - intros a A. eapply (tr_exec1 _ _ _ ".Label"); [sh|exact A].
Qed.
Lemma tr_external emb loc attrs : tr emb (renderExternalCrossReference E rec loc attrs) (appear (label_text t emb (mget attrs "xrefLabel"))).
Proof.
  unfold renderExternalCrossReference. eapply (tr_bind _ _ _ _ _ (appear (label_text t emb (mget attrs "xrefLabel")))).
  - destruct (mget attrs "xrefLabel") as [[]|]; try (now apply tr_ret); cbn [label_text]; [apply tr_ret, words_appear|apply (tr_inline _ n IH)].
  - intros a A. eapply (tr_exec1 _ _ _ ".Label"); [sh|exact A].
Qed.
Lemma tr_quoted emb k es attrs : tr emb (renderQuotedText E rec k es attrs) (appear (texts t emb es)).
Proof.
  unfold renderQuotedText. eapply tr_bind; [apply (tr_elements _ n IH)|]. intros c C. eapply tr_bind; [apply (tr_elementRoles _ n IH)|]. intros r _.
  unfold quotedTemplate. repeat match goal with |- context [if ?b then Some _ else _] => destruct b; [eapply (tr_exec1 _ _ _ ".Content"); [sh|exact C]|] end. apply tr_fail.
Qed.
Lemma tr_link emb attrs loc : tr emb (renderLink E rec attrs loc)
  (appear (match mget attrs "text", loc with None, Location _ (VStr path) => words path | l, _ => label_text t emb l end)).
Proof.
  unfold renderLink. eapply tr_bind; [apply (tr_elementRoles _ n IH)|]. intros r _.
  eapply (tr_bind _ _ _ _ _ (fun x => appear (match mget attrs "text", loc with None, Location _ (VStr path) => words path | l, _ => label_text t emb l end) (fst x))).
  - destruct (mget attrs "text") as [x|].
    + eapply (tr_bind _ _ _ _ _ (appear (label_text t emb (Some x)))); [|intros a A; apply tr_ret; exact A].
      destruct x; try now apply tr_ret; cbn [label_text]. 2: apply (tr_inline _ n IH). apply tr_ret. apply keeps_escape; [apply words_ws|apply words_appear].
    + apply tr_ret. cbn [fst]. destruct loc; try exact Logic.I. destruct loc; try exact Logic.I. apply keeps_escape; [apply words_ws|]. cbn [toDisplayString stringify].
      destruct (String.eqb scheme "mailto:"); [apply words_appear|apply appear_ctx, words_appear].
  - intros a A. eapply (tr_exec1 _ _ _ ".Text"); [sh|exact A].
Qed.
Lemma menu_shows path out : execute (e_toLower E) (template E TInlineMenu) [(".Path", FL (map (fun s => [("", s)]) path))] = Ok out -> appear path out.
Proof.
  intros X. set (l := map (fun s => [("", s)]) path) in X. set (e := [(".Path", FL l)]) in X.
  set (body := [NIf (CEq "$index" 0) [NLit "<b class=""menu"">"; NField "$element"; NLit "</b>"]
                   [NIf (CLast ".Path" "$index") [NLit "&#160;<b class=""caret"">&#8250;</b> <b class=""menuitem"">"; NField "$element"; NLit "</b>"]
                      [NLit "&#160;<b class=""caret"">&#8250;</b> <b class=""submenu"">"; NField "$element"; NLit "</b>"]]]).
  set (ns := [NIf (CLen ".Path" 1) [NLit "<b class=""menuref"">"; NIndex ".Path" 0; NLit "</b>"]
               [NLit "<span class=""menuseq"">"; NIf (CField ".Path") [NRange "$index" "$element" ".Path" body; NLit "</span>"] []]]).
  assert (NX : exec_nodes (e_toLower E) ns e = Ok out).
  { unfold template, execute in X. destruct (e_xhtml E); (destruct (String.eqb _ ""); [discriminate|]).
    - replace (parse (xhtml5 TInlineMenu)) with (Some ns) in X by (vm_compute; reflexivity). exact X.
    - replace (parse (html5 TInlineMenu)) with (Some ns) in X by (vm_compute; reflexivity). exact X. }
  clear X. revert NX.
  pose (range := fix range (q : list (list (string * string))) (k : nat) : result string :=
                     match q with
                     | [] => Ok EmptyString
                     | elt :: r => do s <- exec_nodes (e_toLower E) body (bind_elt "$index" "$element" k elt e); do t <- range r (S k); Ok (s ++ t)%string
                     end).
  assert (R : forall q k s, range (map (fun s => [("", s)]) q) k = Ok s -> appear q s).
  { induction q as [|x q IHq]; intros k s H; [exact Logic.I|]. cbn [map range] in H. fold range in H.
    destruct (exec_nodes (e_toLower E) body (bind_elt "$index" "$element" k [("", x)] e)) as [a| |] eqn:EA; try discriminate. cbn [bind] in H.
    destruct (range (map _ q) (S k)) as [b| |] eqn:EB; try discriminate. cbn [bind] in H. injection H as <-.
    assert (A : exists u v, a = (u ++ x ++ v)%string).
    { clear - EA. unfold body, bind_elt in EA. cbn in EA. destruct (Z.eqb (Z.of_nat k) 0); cbn in EA.
      - injection EA as <-. exists "<b class=""menu"">", "</b>". cbn. rewrite ?sapp_nil_r, ?sapp_assoc. reflexivity.
      - destruct (Z.eqb (Z.of_nat k) (Z.of_nat (List.length l) - 1)); cbn in EA; injection EA as <-.
        + exists "&#160;<b class=""caret"">&#8250;</b> <b class=""menuitem"">", "</b>". cbn. rewrite ?sapp_nil_r, ?sapp_assoc. reflexivity.
        + exists "&#160;<b class=""caret"">&#8250;</b> <b class=""submenu"">", "</b>". cbn. rewrite ?sapp_nil_r, ?sapp_assoc. reflexivity. }
    destruct A as (u & v & ->). exists u, (v ++ b)%string. split; [now rewrite !sapp_assoc|]. apply appear_ctx. eauto. }
  intros NX. assert (NX' : (if Z.eqb (Z.of_nat (List.length l)) 1 then exec_nodes (e_toLower E) [NLit "<b class=""menuref"">"; NIndex ".Path" 0; NLit "</b>"] e
     else do s <- (if truth (FL l) then do s1 <- range l 0; Ok (s1 ++ "</span>")%string else Ok ""); Ok ("<span class=""menuseq"">" ++ s)%string) = Ok out).
  { rewrite <- NX. unfold ns. cbn [exec_nodes exec_node eval field mget e String.eqb Ascii.eqb Bool.eqb bind fst snd]. destruct (Z.eqb _ 1).
    - destruct (nth_error l 0) as [el|]; [|reflexivity]. destruct (mget el ""); [|reflexivity]. cbn [bind]. now rewrite !sapp_nil_r.
    - match goal with |- context [(fix range (l : list (list (string * string))) (k : nat) {struct l} : result string := _) l 0%nat] => idtac end.
      change ((fix range (l : list (list (string * string))) (k : nat) {struct l} : result string :=
         match l with
         | [] => Ok ""
         | elt :: r =>
             do s <-
             (fix exec_nodes (ns : list node) (e : fields) {struct ns} : result string :=
                match ns with
                | [] => Ok ""
                | n :: r0 => do s <- exec_node (e_toLower E) n e; do t <- exec_nodes r0 e; Ok (s ++ t)%string
                end) body (bind_elt "$index" "$element" k elt e);
             do t <- range r (S k); Ok (s ++ t)%string
         end) l 0%nat) with (range l 0%nat).
      destruct (truth (FL l)); [|reflexivity]. destruct (range l 0%nat); try reflexivity. cbn [bind]. now rewrite !sapp_nil_r. }
  clear NX. destruct (Z.eqb (Z.of_nat (List.length l)) 1) eqn:L1.
  - assert (P1 : exists x, path = [x]).
    { apply Z.eqb_eq in L1. unfold l in L1. rewrite map_length in L1. destruct path as [|x [|y p]]; cbn in L1; try lia. now exists x. }
    destruct P1 as [x ->]. cbn in NX'. injection NX' as <-. exists "<b class=""menuref"">", "</b>". split; [reflexivity|exact Logic.I].
  - destruct path as [|x p]; [exact Logic.I|]. unfold l in NX'. change (truth (FL (map (fun s => [("", s)]) (x :: p)))) with true in NX'. cbv iota in NX'.
    destruct (range _ 0%nat) as [s1| |] eqn:RR; try discriminate. cbn [bind] in NX'. injection NX' as <-. apply (appear_ctx _ "<span class=""menuseq"">"). apply appear_after. eapply R; eauto.
Qed.

Lemma tr_section emb level attrs title es : tr emb (renderSection E rec level attrs title es)
  (appear (match title with Some l => texts t emb l | None => [] end ++ texts t emb es)).
Proof.
  unfold renderSection. eapply (tr_bind _ _ _ _ _ (appear (match title with Some l => texts t emb l | None => [] end))).
  - unfold renderSectionTitle. eapply tr_bind; [apply (tr_inline _ n IH)|]. intros s S0. eapply (tr_exec1 _ _ _ ".Content"); [sh|].
    apply keeps_trimSpace; [destruct title; [apply wt|apply ws_nil]|]. destruct title; exact S0.
  - intros h H. eapply tr_bind; [apply (tr_elements _ n IH)|]. intros c C. eapply tr_bind; [apply (tr_elementRoles _ n IH)|]. intros r _.
    eapply (tr_exec2 _ _ _ ".Header" ".Content"); [sh|exact H|exact C].
Qed.
Lemma tr_preamble emb es toc : tr emb toc (fun _ => True) -> tr emb (renderPreamble E rec es toc) (appear (texts t emb es)).
Proof.
  intros T0. unfold renderPreamble. eapply tr_bind; [apply (tr_elements _ n IH)|]. intros c C. eapply tr_bind; [exact T0|]. intros tc _.
  eapply (tr_exec1 _ _ _ ".Content"); [sh|exact C].
Qed.

Lemma tr_with emb v : tr emb (renderElementWith E rec v) (appear (text (S n) emb v)).
Proof.
  cbn [text]. destruct v; cbn [renderElementWith]; try apply tr_fail.
  - (* StringElement *) eapply tr_bind; [apply tr_getAttrs|]. intros ctx _. apply tr_ret. unfold renderStringElement.
    destruct (getAsBool ctx "unicode" true); [apply words_appear|apply keeps_ascii; [apply words_ws|apply words_appear]].
  - apply tr_lift. intros. exact Logic.I.
  - apply tr_lift. intros. exact Logic.I.
  - now apply tr_ret.
  - apply tr_quoted.
  - apply tr_inlinePass.
  - apply tr_link.
  - apply tr_internal.
  - apply tr_external.
  - apply tr_inlineImage.
  - (* Icon *) unfold renderInlineIcon. eapply tr_bind; [apply tr_icon|]. intros. apply tr_exec0.
  - apply (tr_inline _ n IH).
  - now apply tr_ret.
  - (* FootnoteReference *) unfold renderFootnoteReference. repeat match goal with |- tr _ (if ?b then _ else _) _ => destruct b end; apply tr_exec0.
  - apply tr_exec0.
  - (* InlineButton *) unfold renderInlineButton. destruct (mget attrs "label") as [x|]; [|apply tr_exec0]. destruct x; try apply tr_exec0.
    eapply (tr_exec1 _ _ _ "."); [sh|apply words_appear].
  - (* InlineMenu *) apply tr_lift. intros out X. apply menu_shows in X. rewrite flat_map_concat_map. eapply appear_in; [|exact X].
    clear. induction path; constructor; [apply words_appear|assumption].
  - (* UserMacro *) unfold renderUserMacro. destruct (e_macro E _) as [r|]; [apply tr_lift; intros; exact Logic.I|]. destruct (String.eqb kind "block"); [|now apply tr_ret].
    eapply tr_true, tr_paragraph.
  - apply tr_exec0.
  - apply tr_paragraph.
  - apply tr_delimited.
  - apply tr_section.
  - apply tr_imageBlock.
  - apply tr_exec0.
  - (* FrontMatter *) eapply tr_bind; [apply tr_upd|]. intros. now apply tr_ret.
  - apply tr_preamble. now apply tr_ret.
  - eapply tr_bind; [apply tr_upd|]. intros. now apply tr_ret.
  - eapply tr_bind; [apply tr_upd|]. intros. now apply tr_ret.
  - apply tr_list.
  - apply tr_table.
Qed.
End Rec2.

Lemma tr_element depth : forall n emb v, tr emb (renderElement E depth v) (appear (text n emb v)).
Proof.
  induction depth as [|k IH]; intros n emb v; cbn [renderElement]; [apply tr_panic|]. destruct n as [|n].
  - cbn [text]. eapply tr_true. apply (tr_with _ O). intros. apply IH.
  - apply tr_with. intros. apply IH.
Qed.

(** ** documents *)
Section Doc.
Variable rec : val -> M string.
Hypothesis IH : forall n emb v, tr emb (rec v) (appear (text n emb v)).
Ltac sh := vm_compute; reflexivity.
Lemma tr_entry x : tr false (prerenderEntry E rec x) (fun _ => True).
Proof.
  revert x. fix F 1. intros [id level sub]. cbn [prerenderEntry]. eapply (tr_bind _ _ _ _ _ (fun _ => True)).
  - induction sub as [|x r IHr]; [now apply tr_ret|]. eapply tr_bind; [apply F|]. intros a _. eapply tr_bind; [apply IHr|]. intros. now apply tr_ret.
  - intros a _. destruct (mget (e_refs E) id) as [v|]; [|apply tr_fail]. eapply (tr_bind _ _ _ _ _ (fun _ => True)); [|intros; now apply tr_ret].
    destruct v; try (eapply tr_true, (IH 0%nat)). eapply tr_true, (tr_elements _ 0%nat (IH 0%nat)).
Qed.
Lemma tr_entries l : tr false (prerenderEntries E rec l) (fun _ => True).
Proof.
  induction l as [|x l IHl]; [now apply tr_ret|]. cbn [prerenderEntries]. eapply tr_bind; [apply tr_entry|]. intros a _. eapply tr_bind; [exact IHl|]. intros. now apply tr_ret.
Qed.
Lemma tr_tocEntry x : tr false (renderTocEntry E x) (fun _ => True).
Proof.
  revert x. fix F 1. intros [id level number title sub]. cbn [renderTocEntry]. eapply (tr_bind _ _ _ _ _ (fun _ => True)); [|intros; apply tr_exec0].
  set (go := fix go (l : list tocr) : M string := match l with [] => ret "" | x :: r => let* a := renderTocEntry E x in let* b := go r in ret (a ++ b)%string end).
  assert (G : tr false (go sub) (fun _ => True)).
  { induction sub as [|x r IHr]; [now apply tr_ret|]. cbn [go]. fold go. eapply tr_bind; [apply F|]. intros a _. eapply tr_bind; [apply IHr|]. intros. now apply tr_ret. }
  destruct sub as [|[]]; [now apply tr_ret|]. eapply tr_bind; [exact G|]. intros. apply tr_exec0.
Qed.
Lemma tr_tocEntries l : tr false (renderTocEntries E l) (fun _ => True).
Proof.
  induction l as [|x l IHl]; [now apply tr_ret|]. cbn [renderTocEntries]. eapply tr_bind; [apply tr_tocEntry|]. intros a _. eapply tr_bind; [exact IHl|]. intros. now apply tr_ret.
Qed.
Lemma tr_toc x : tr false (renderToc E rec x) (fun _ => True).
Proof.
  unfold renderToc. destruct x as [l|]; [|now apply tr_ret]. eapply (tr_bind _ _ _ _ _ (fun _ => True)).
  - unfold renderTocTitle. eapply tr_bind; [apply tr_getAttrs|]. intros ctx _. destruct (mget ctx "toc-title") as [v|]; [|now apply tr_ret].
    destruct v; try (eapply tr_true, (IH 0%nat)); [now apply tr_ret|eapply tr_true, (tr_elements _ 0%nat (IH 0%nat))].
  - intros a _. eapply (tr_bind _ _ _ _ _ (fun _ => True)).
    + unfold renderTocSections. destruct l as [|[] r]; [now apply tr_ret|]. eapply tr_bind; [apply tr_tocEntries|]. intros. apply tr_exec0.
    + intros b _. destruct (String.eqb b ""); [now apply tr_ret|apply tr_exec0].
Qed.
Lemma tr_elementsToc n x l : tr false (renderElementsToc E rec x l) (appear (texts (text n) false l)).
Proof.
  induction l as [|e l IHl]; [now apply tr_ret|].
  assert (G : tr false (let* s := rec e in let* q := renderElementsToc E rec x l in ret (s ++ q)%string) (appear (texts (text n) false (e :: l)))).
  { eapply tr_bind; [apply (IH n)|]. intros a A. eapply tr_bind; [exact IHl|]. intros b B. apply tr_ret. now apply appear_app. }
  destruct e; try exact G. cbn [renderElementsToc]. eapply (tr_bind _ _ _ _ _ (appear (text n false (Preamble elements)))).
  - destruct n as [|m]; [eapply tr_true, (tr_preamble rec 0 (IH 0%nat)), tr_toc|]. apply (tr_preamble rec m (IH m)), tr_toc.
  - intros a A. eapply tr_bind; [apply (tr_elements _ n (IH n))|]. intros b B. apply tr_ret. now apply appear_app.
Qed.
Lemma tr_footnotes n l : tr false (renderFootnotes E rec l) (appear (texts (text n) false l)).
Proof.
  assert (G : tr false (renderFootnoteElements E rec l) (appear (texts (text n) false l))).
  { induction l as [|e l IHl]; [now apply tr_ret|]. cbn [renderFootnoteElements]. eapply (tr_bind _ _ _ _ _ (appear (text n false e))).
    - unfold renderFootnoteElement. destruct e; try apply tr_fail. destruct n as [|m].
      + eapply tr_bind; [apply (tr_inline _ 0%nat (IH 0%nat))|]. intros. eapply tr_true, tr_exec0.
      + eapply tr_bind; [apply (tr_inline _ m (IH m))|]. intros c C. eapply (tr_exec1 _ _ _ ".Content"); [sh|]. cbn [svalue mget String.eqb Ascii.eqb Bool.eqb].
        apply (keeps_replace_LF " "); [apply ws_text|]. apply keeps_trimSpace; [apply ws_text|exact C].
    - intros a A. eapply tr_bind; [exact IHl|]. intros b B. apply tr_ret. now apply appear_app. }
  unfold renderFootnotes. destruct l as [|e l]; [now apply tr_ret|]. eapply tr_bind; [exact G|]. intros c C. eapply (tr_exec1 _ _ _ ".Content"); [sh|exact C].
Qed.
Lemma tr_body n source toc notes : tr false (renderDocumentBody E rec source toc notes) (appear (texts (text n) false source ++ texts (text n) false notes)).
Proof.
  unfold renderDocumentBody. eapply tr_bind; [apply tr_getAttrs|]. intros ctx _. eapply (tr_bind _ _ _ _ _ (appear (texts (text n) false source))).
  - assert (G := tr_elements rec n (IH n) false source). destruct (mget ctx "toc"); [|exact G]. destruct toc; [|exact G]. destruct (eq_str _ _); [apply tr_elementsToc|].
    destruct (_ || _); [|apply tr_fail]. eapply tr_bind; [apply tr_toc|]. intros a _. eapply tr_bind; [exact G|]. intros b B. apply tr_ret. now apply appear_ctx.
  - intros s S0. eapply tr_bind; [apply (tr_footnotes n)|]. intros f F. apply tr_ret. now apply appear_app.
Qed.
Lemma tr_authors l : forall b, tr false (renderAuthorsList E b l) (fun _ => True).
Proof.
  induction l as [|[[i nm] em] l IHl]; intros b; [now apply tr_ret|]. cbn [renderAuthorsList]. eapply tr_bind; [apply tr_exec0|]. intros a _.
  eapply tr_bind; [apply IHl|]. intros. now apply tr_ret.
Qed.
Lemma tr_header n title : tr false (renderDocumentHeader E rec title) (appear (title_words n title)).
Proof.
  unfold renderDocumentHeader. eapply (tr_bind _ _ _ _ _ (appear (title_words n title))); [destruct title; [apply (tr_elements _ n (IH n))|now apply tr_ret]|].
  intros h H. eapply (tr_bind _ _ _ _ _ (fun _ => True)).
  - unfold renderDocumentDetails. eapply tr_bind; [apply tr_getAttrs|]. intros ctx _. destruct (ahas ctx "authors"); [|now apply tr_ret].
    eapply tr_bind; [apply tr_authors|]. intros. apply tr_exec0.
  - intros d _. eapply (tr_exec1 _ _ _ ".Header"); [sh|exact H].
Qed.
Lemma tr_manpageHeader n title name : tr false (renderManpageHeader E rec title name) (appear (name_words n name)).
Proof.
  unfold renderManpageHeader. destruct name; try apply tr_panic. destruct elements as [|first r]; [apply tr_panic|].
  eapply (tr_bind _ _ _ _ _ (fun _ => True)); [destruct title; [eapply tr_true, (tr_elements _ n (IH n))|now apply tr_ret]|]. intros h _.
  eapply (tr_bind _ _ _ _ _ (appear (title_words n title0))); [destruct title0; [apply (tr_elements _ n (IH n))|now apply tr_ret]|]. intros nm NM.
  destruct first; try apply tr_panic. cbn [name_words].
  eapply (tr_bind _ _ _ _ _ (appear (texts (text n) false elements))).
  - pose proof (tr_paragraph rec n (IH n) false (aset attrs0 "style" (VStr "manpage")) elements) as K. unfold paragraph_text, styled in K.
    rewrite aset_plain in K by (repeat split; discriminate). rewrite mget_mset_eq in K. exact K.
  - intros c C. eapply (tr_exec2 _ _ _ ".Name" ".Content"); [sh|exact NM|exact C].
Qed.
End Doc.
End R.
