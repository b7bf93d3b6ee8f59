(** Proofs for C59. *)
From Verif Require Import GoBase GoLemmas Types Attrs AttrLemmas Aggregate Toc TocRender Escape Merge Elements Ids Locations Indent Footnotes
  Templates Tmpl HtmlTmpl SectNum RenderAttrs Authors Render TextSpec TextTmpl TextWords TextDocSpec TextRender MarkSpec MarkOps.

(** ** marks are solid *)
Section Solid.
Variable t : bool -> val -> list string.
Hypothesis T : forall e x, ms (t e x).
Lemma ms_parts emb l : ms (part_marks t emb l). Proof. apply ms_flat. auto. Qed.
Lemma ms_label emb v : ms (label_marks t emb v). Proof. destruct v as [[]|]; try apply ms_nil. apply ms_parts. Qed.
Lemma ms_title emb a : ms (title_marks t emb a). Proof. apply ms_label. Qed.
Lemma ms_source a es : ms (source_marks t a es).
Proof.
  unfold source_marks. pose proof (ms_parts true es) as X. destruct (mget a "language") as [v|]; [|exact X]. destruct v; try apply ms_nil. destruct s; [exact X|apply ms_nil].
Qed.
Lemma ms_item emb es : ms (item_marks t emb es).
Proof. destruct es; [apply ms_nil|]. apply ms_app; [apply T|apply ms_parts]. Qed.
Lemma ms_edge emb x : ms (row_text (edge_cell_marks t emb) x).
Proof. destruct x; try apply ms_nil. apply ms_flat. intros [] _; try apply ms_nil. cbn. destruct elements as [|[] []]; try apply ms_nil. apply ms_parts. Qed.
Lemma ms_cells emb x : ms (row_text (cell_marks t emb) x).
Proof. destruct x; try apply ms_nil. apply ms_flat. intros [] _; try apply ms_nil. cbn. apply ms_flat. intros [] _; try apply T. apply ms_parts. Qed.
End Solid.
Lemma ms_note id : ms (note_marks id).
Proof. repeat constructor; apply solids_quoted; try reflexivity; rewrite solids_app, solids_itoa; reflexivity. Qed.
Lemma ms_reference id dup : ms (reference_marks id dup).
Proof. unfold reference_marks. repeat match goal with |- ms (if ?b then _ else _) => destruct b end; repeat constructor; apply solids_quoted; try reflexivity; rewrite solids_app, solids_itoa; reflexivity. Qed.
Lemma ms_marks low n : forall emb v, ms (marks low n emb v).
Proof.
  induction n as [|n IH]; intros emb v; [apply ms_nil|]. cbn [marks].
  pose proof (ms_parts _ IH) as HT. pose proof (ms_label _ IH) as HL. pose proof (ms_title _ IH) as HTi. pose proof (ms_item _ IH) as HI.
  pose proof ms_id as HD. pose proof (fun a => ms_attr "href" a "link" eq_refl) as HK.
  destruct v; try apply ms_nil; try apply ms_reference; try apply HT; try apply HL; try apply HK; try (apply ms_app; auto using ms_note; fail).
  - destruct (String.eqb kind "+"); [apply ms_nil|apply HT].
  - apply ms_app; [apply HD|]. apply ms_app; [|apply HL]. destruct v; try apply ms_nil. destruct v; try apply ms_nil. now apply ms_mark.
  - destruct v1; try apply ms_nil. now apply ms_prefixed.
  - unfold paragraph_marks. destruct (emb || _); [apply HT|]. destruct (styled _ _); [apply ms_app; [apply HD|apply ms_app; [apply HTi|now apply ms_source]]|].
    destruct (styled _ _); [apply ms_app; [apply HD|apply HTi]|]. assert (X : ms (id_mark attrs ++ title_marks (marks low n) emb attrs ++ part_marks (marks low n) emb elements)) by (apply ms_app; [apply HD|apply ms_app; auto]).
    destruct (styled _ _); [|exact X]. destruct (flat_map _ elements); [|exact X]. destruct (part_marks _ _ elements); [apply ms_nil|exact X].
  - unfold block_marks. destruct (String.eqb kind "pass"); [apply HT|]. destruct (_ && _); (apply ms_app; [apply HD|apply ms_app; [apply HTi|]]); [now apply ms_source|apply HT].
  - apply ms_app; [destruct (mget attrs "id") as [[]|]; try apply ms_nil; destruct (all_kept _); [now apply ms_mark|apply ms_nil]|].
    apply ms_app; [destruct title; [apply HT|apply ms_nil]|apply HT].
  - apply ms_app; [apply HD|]. apply ms_app; [apply HK|apply HTi].
  - apply ms_app; [apply HD|]. apply ms_app; [apply HTi|]. apply ms_flat. intros [] _; try apply ms_nil; try apply HI. apply ms_app; [destruct (String.eqb _ _); [apply HT|apply ms_nil]|apply HI].
  - unfold table_marks. apply ms_app; [apply HD|]. apply ms_app; [apply HTi|]. destruct rows as [|r rows]; [apply ms_nil|].
    apply ms_app; [now apply ms_edge|apply ms_app; [|now apply ms_edge]]. apply ms_flat. intros x _. now apply ms_cells.
Qed.

(** ** executions *)
Lemma tr_has emb (m : M string) a b : tr emb m (has a) -> tr emb m (has b) -> tr emb m (has (a ++ b)).
Proof. intros A B st x st' L X Y. destruct (A _ _ _ L X Y) as (PA & R). destruct (B _ _ _ L X Y) as (PB & _). split; [now apply has_app|exact R]. Qed.
Lemma tr_and emb A (m : M A) P Q : tr emb m P -> tr emb m Q -> tr emb m (fun a => P a /\ Q a).
Proof. intros H G st x st' L X Y. destruct (H _ _ _ L X Y) as (PA & R). destruct (G _ _ _ L X Y) as (PB & _). auto. Qed.
Lemma tr_none emb (m : M string) : tr emb m (fun _ => True) -> tr emb m (has []).
Proof. intros H. eapply tr_weak; [exact H|]. intros. apply has_nil. Qed.
Lemma tr_map_has emb f (m : M string) l : ms l -> keepm f -> tr emb m (has l) -> tr emb (mapS f m) (has l).
Proof. intros W K H. eapply tr_bind; [exact H|]. intros a A. apply tr_ret. now apply has_keep. Qed.

Section R.
Variable E : renv.
Notation tm := (exec E).
Notation low := (e_toLower E).
(** a field shown by a template *)
Lemma tr_field_if emb t fs ne f l : shows_if ne [f] t = true -> (forall g, In g ne -> exists v, mget fs g = Some v /\ truth v = true) ->
  has l (svalue fs f) -> tr emb (tm t fs) (has l).
Proof. intros SH K H. apply tr_lift. intros out X. unfold template in X. eapply has_part; [|exact H]. apply part_appear. exact (template_shows_if low _ t ne [f] fs out SH K X). Qed.
Lemma tr_field emb t fs f l : shows_all [f] t = true -> has l (svalue fs f) -> tr emb (tm t fs) (has l).
Proof. intros SH. apply (tr_field_if emb t fs []); [exact SH|intros g []]. Qed.
(** name="value" written by a template *)
Lemma tr_prints emb t fs ne name pre fn f v : prints_if_known ne (name ++ "=""" ++ pre) fn f """" t = true ->
  (forall g, In g ne -> exists s, mget fs g = Some (FS s) /\ s <> "") ->
  (exists y, mget fs f = Some y /\ (if String.eqb fn "" then show y else call low fn y) = Ok v) ->
  tr emb (tm t fs) (has [quoted name (pre ++ v)]).
Proof.
  intros P K V. apply tr_lift. intros out X. unfold template in X. constructor; [|constructor].
  pose proof (template_prints low _ t ne _ fn f """" fs v out P K V X) as Q. unfold quoted. repeat rewrite sapp_assoc in Q. repeat rewrite sapp_assoc. exact Q.
Qed.
(** the field [f] holds the value of an attribute *)
Lemma tr_mark emb t fs ne name f v : prints_if_known (f :: ne) (name ++ "=""") "" f """" t = true ->
  (forall g, In g ne -> exists s, mget fs g = Some (FS s) /\ s <> "") ->
  (all_kept v = true -> mget fs f = Some (FS v)) -> tr emb (tm t fs) (has (mark name v)).
Proof.
  intros P K F. unfold mark. destruct (plain_value v) eqn:PV; [|apply tr_none; apply tr_exec0]. apply plain_kept in PV. destruct PV as [PV NE].
  apply (tr_prints emb t fs (f :: ne) name "" "" f v); [|intros g [<-|G]; [exists v; auto|auto]|exists (FS v); auto]. exact P.
Qed.
Lemma tr_id_if emb t fs ne attrs : prints_if_known (".ID" :: ne) "id=""" "" ".ID" """" t = true ->
  (forall g, In g ne -> exists s, mget fs g = Some (FS s) /\ s <> "") ->
  mget fs ".ID" = Some (FS (renderElementID attrs)) -> tr emb (tm t fs) (has (id_mark attrs)).
Proof.
  intros P K F. unfold id_mark, attr_mark. unfold renderElementID in F. destruct (mget attrs "id") as [[]|]; try (apply tr_none; apply tr_exec0).
  apply (tr_mark emb t fs ne "id" ".ID"); [exact P|exact K|]. intros A. now rewrite html_escape_kept in F.
Qed.
Lemma tr_id emb t fs attrs : prints_if_known [".ID"] "id=""" "" ".ID" """" t = true -> mget fs ".ID" = Some (FS (renderElementID attrs)) -> tr emb (tm t fs) (has (id_mark attrs)).
Proof. intros P. apply (tr_id_if _ _ _ []); [exact P|intros g []]. Qed.

Section Rec.
Variable rec : val -> M string.
Variable n : nat.
Notation t := (marks low n).
Hypothesis IH : forall emb v, tr emb (rec v) (has (t emb v)).
Hypothesis IHt : forall n emb v, tr emb (rec v) (appear (text n emb v)).
Lemma wt emb l : ms (part_marks t emb l). Proof. apply ms_parts, ms_marks. Qed.
Lemma mr_roles emb a : tr emb (renderElementRoles rec a) (fun _ => True).
Proof. exact (tr_elementRoles rec 0 (IHt 0) emb a). Qed.
Lemma mr_elements emb l : tr emb (renderElements rec l) (has (part_marks t emb l)).
Proof.
  induction l as [|e l IHl]; [apply tr_ret, has_nil|]. cbn [renderElements]. eapply tr_bind; [apply IH|]. intros a A. eapply tr_bind; [exact IHl|]. intros b B.
  apply tr_ret. cbn [part_marks flat_map]. now apply has_cat.
Qed.
Lemma mr_listElements emb l : tr emb (renderListElements rec l) (has (item_marks t emb l)).
Proof.
  destruct l as [|e l]; [apply tr_ret, has_nil|]. cbn [renderListElements item_marks]. eapply tr_bind; [apply tr_inList, IH|]. intros a A.
  eapply tr_bind; [apply mr_elements|]. intros b B. apply tr_ret. now apply has_cat.
Qed.
Lemma mr_inline emb l : tr emb (renderInlineElements rec l) (has (part_marks t emb l)).
Proof.
  induction l as [|e l IHl]; [apply tr_ret, has_nil|]. cbn [renderInlineElements]. eapply tr_bind; [apply IH|]. intros a A. eapply tr_bind; [exact IHl|]. intros b B.
  apply tr_ret. cbn [part_marks flat_map]. apply has_cat; [|exact B].
  assert (K : has (t emb e) (trim_right_char " "%char a)) by (apply has_keep; [apply keepm_trim_right_space|apply ms_marks|exact A]).
  destruct l; [|exact A]. destruct e; assumption.
Qed.
Lemma mr_title emb a : tr emb (renderElementTitle rec a) (has (title_marks t emb a)).
Proof.
  unfold renderElementTitle, title_marks, label_marks. destruct (mget a "title") as [[]|]; try apply tr_fail; [apply tr_ret, has_nil|apply mr_elements|apply tr_ret, has_nil].
Qed.
(** id, title and content *)
Definition its (emb : bool) (attrs : attributes) (c : list string) : list string := id_mark attrs ++ title_marks t emb attrs ++ c.
Lemma tr_block_if emb tn fs ne attrs c : prints_if_known (".ID" :: ne) "id=""" "" ".ID" """" tn = true -> shows_if ne [".Title"] tn = true -> shows_if ne [".Content"] tn = true ->
  (forall g, In g ne -> exists s, mget fs g = Some (FS s) /\ s <> "") -> mget fs ".ID" = Some (FS (renderElementID attrs)) ->
  has (title_marks t emb attrs) (svalue fs ".Title") -> has c (svalue fs ".Content") -> tr emb (tm tn fs) (has (its emb attrs c)).
Proof.
  intros P S1 S2 K F T C.
  assert (K' : forall g, In g ne -> exists v, mget fs g = Some v /\ truth v = true).
  { intros g G. destruct (K g G) as (s & X & NE). exists (FS s). split; [exact X|]. cbn. destruct (String.eqb_spec s ""); [contradiction|reflexivity]. }
  apply tr_has; [now apply (tr_id_if emb tn fs ne)|]. apply tr_has; [apply (tr_field_if _ _ _ ne ".Title"); assumption|apply (tr_field_if _ _ _ ne ".Content"); assumption].
Qed.
Lemma tr_block emb tn fs attrs c : prints_if_known [".ID"] "id=""" "" ".ID" """" tn = true -> shows_all [".Title"] tn = true -> shows_all [".Content"] tn = true ->
  mget fs ".ID" = Some (FS (renderElementID attrs)) -> has (title_marks t emb attrs) (svalue fs ".Title") -> has c (svalue fs ".Content") -> tr emb (tm tn fs) (has (its emb attrs c)).
Proof. intros P S1 S2. apply (tr_block_if emb tn fs []); try assumption. intros g []. Qed.
Lemma mr_usual emb attrs content k c Q : tr emb content (has c) ->
  (forall ti r co, has (title_marks t emb attrs) ti -> has c co ->
     tr emb (k [(".ID", FS (renderElementID attrs)); (".Title", FS ti); (".Roles", FS r); (".Content", FS co)]) Q) ->
  tr emb (usual rec attrs content k) Q.
Proof.
  intros C K. unfold usual. eapply tr_bind; [exact C|]. intros co CO. eapply tr_bind; [apply mr_roles|]. intros r _.
  eapply tr_bind; [apply mr_title|]. intros ti TI. now apply K.
Qed.
Lemma mr_usual_block emb attrs content k tn extra c :
  prints_if_known [".ID"] "id=""" "" ".ID" """" tn = true -> shows_all [".Title"] tn = true -> shows_all [".Content"] tn = true ->
  (forall f, k f = tm tn (f ++ extra)) -> tr emb content (has c) -> tr emb (usual rec attrs content k) (has (its emb attrs c)).
Proof.
  intros P S1 S2 K C. eapply mr_usual; [exact C|]. intros ti r co TI CO. rewrite K. apply tr_block; try assumption. reflexivity.
Qed.

(** ** paragraphs *)
Lemma mr_paragraphElements emb attrs es : tr emb (renderParagraphElements E rec attrs es) (has (part_marks t emb es)).
Proof.
  unfold renderParagraphElements. eapply tr_bind; [apply tr_getAttrs|]. intros ctx _. eapply tr_bind; [apply mr_elements|]. intros s S0.
  destruct (_ || _); [|now apply tr_ret]. eapply tr_bind; [apply tr_exec0|]. intros br _. apply tr_ret.
  apply (has_keep (fun s => replace_all s LF (br ++ LF)%string)); [apply keepm_replace_LF|apply wt|exact S0].
Qed.
Ltac sh := vm_compute; reflexivity.
Lemma mr_embedded emb attrs es cl : tr emb (renderEmbeddedParagraph E rec attrs es cl) (has (part_marks t emb es)).
Proof.
  unfold renderEmbeddedParagraph. eapply tr_bind; [apply mr_elements|]. intros c C. eapply (tr_field _ _ _ ".Content"); [sh|].
  cbn. apply has_keep; [apply keepm_trimSpaces|apply wt|exact C].
Qed.
Ltac blk := apply tr_block; [sh|sh|sh|reflexivity|assumption|try assumption].
Ltac ublk := match goal with |- tr _ (usual _ _ _ (tm ?tn)) _ => eapply (mr_usual_block _ _ _ _ tn []); [sh|sh|sh|intros; now rewrite app_nil_r|] end.
Lemma mr_exampleBlock emb attrs es : tr emb (renderExampleBlock E rec attrs es) (has (its emb attrs (part_marks t emb es))).
Proof.
  unfold renderExampleBlock. eapply tr_bind; [apply mr_elements|]. intros c C. eapply tr_bind; [apply mr_roles|]. intros r _.
  eapply tr_bind; [apply tr_caption|]. intros cn _. eapply tr_bind; [apply mr_title|]. intros ti TI. blk.
Qed.
Lemma mr_admonitionBlock emb attrs es : tr emb (renderAdmonitionBlock E rec attrs es) (has (its emb attrs (part_marks t emb es))).
Proof.
  unfold renderAdmonitionBlock. eapply tr_bind; [apply tr_icon|]. intros ic _. eapply mr_usual_block; [| | |intros; reflexivity|apply mr_elements]; sh.
Qed.
Lemma mr_admonitionParagraph emb attrs es : tr emb (renderAdmonitionParagraph E rec attrs es)
  (has (match flat_map (text n emb) es, part_marks t emb es with [], [] => [] | _, l => its emb attrs l end)).
Proof.
  unfold renderAdmonitionParagraph. destruct (getAsString attrs "style"); [|apply tr_fail]. eapply tr_bind; [apply tr_icon|]. intros ic _.
  unfold usual. eapply tr_bind; [apply tr_and; [apply mr_paragraphElements|apply (tr_paragraphElements E rec n (IHt n))]|]. intros co [CO TX].
  eapply tr_bind; [apply mr_roles|]. intros r _. eapply tr_bind; [apply mr_title|]. intros ti TI. unfold texts in TX.
  assert (G : co <> "" -> tr emb (tm TAdmonitionParagraph ([(".ID", FS (renderElementID attrs)); (".Title", FS ti); (".Roles", FS r); (".Content", FS co)] ++
     [(".Kind", FS (low s)); (".Icon", FS ic)])) (has (its emb attrs (part_marks t emb es)))).
  { intros NE. apply (tr_block_if emb _ _ [".Content"]); [sh|sh|sh| |reflexivity|exact TI|exact CO]. intros g [<-|[]]. exists co. split; [reflexivity|exact NE]. }
  destruct (flat_map (text n emb) es) as [|w l] eqn:TE.
  - destruct (part_marks t emb es) as [|m l'] eqn:PM; [apply tr_none, tr_exec0|]. apply G. eapply has_nonempty; [exact CO|discriminate|]. rewrite <- PM. apply wt.
  - apply G. intros ->. destruct TX as (a & b & EQ & _). pose proof (TextRender.wt n emb es) as W. unfold texts in W. rewrite TE in W. inversion W as [|? ? [_ NE] _]; subst.
    destruct a; [|discriminate]. destruct w; [now destruct NE|discriminate].
Qed.
Lemma mr_exampleParagraph emb attrs es : tr emb (renderExampleParagraph E rec attrs es) (has (its emb attrs (part_marks t emb es))).
Proof.
  unfold renderExampleParagraph. eapply mr_usual_block; [| | |intros; reflexivity|]; [sh|sh|sh|]. eapply tr_bind; [apply mr_elements|].
  intros s S0. apply tr_ret. now apply has_l.
Qed.
Lemma mr_literalParagraph emb attrs es : tr emb (renderLiteralParagraph E rec attrs es) (has (its emb attrs (part_marks t emb es))).
Proof.
  unfold renderLiteralParagraph. ublk. eapply tr_bind; [apply mr_elements|].
  intros s S0. apply tr_ret. destruct (mget attrs "style") as [[]|]; try exact S0. destruct (String.eqb _ _); [|exact S0]. apply has_keep; [apply keepm_heading|apply wt|exact S0].
Qed.
Lemma mr_trimmed emb es : tr emb (mapS trimLF (renderElements rec es)) (has (part_marks t emb es)).
Proof. apply tr_map_has; [apply wt|apply keepm_trimLF|apply mr_elements]. Qed.
Lemma mr_literalBlock emb attrs es : tr emb (renderLiteralBlock E rec attrs es) (has (its emb attrs (part_marks t emb es))).
Proof. unfold renderLiteralBlock. ublk. apply mr_trimmed. Qed.
Lemma mr_fencedBlock emb attrs es : tr emb (renderFencedBlock E rec attrs es) (has (its true attrs (part_marks t true es))).
Proof. unfold renderFencedBlock. apply tr_inBlock. ublk. apply mr_trimmed. Qed.
Lemma mr_listingParagraph emb attrs es : tr emb (renderListingParagraph E rec attrs es) (has (its emb attrs (part_marks t emb es))).
Proof. unfold renderListingParagraph. ublk. apply mr_elements. Qed.
Lemma mr_sourceElements emb attrs es : tr emb (renderSourceBlockElements E rec attrs es) (fun x => has (source_marks t attrs es) (fst x)).
Proof.
  unfold renderSourceBlockElements. apply tr_inBlock. eapply tr_bind; [apply tr_getAttrs|]. intros ctx _. eapply tr_bind; [|intros s S0; apply tr_ret; exact S0].
  unfold source_marks. unfold getD, getAsStringD. destruct (mget attrs "language") as [v|]; [|cbn; apply mr_elements].
  assert (X : forall (b : bool), tr true (if b then renderElements rec es else renderHighlighted E attrs 0 (SplitElementsPerLine es)) (has [])).
  { intros []; apply tr_none; [eapply tr_true, mr_elements|apply tr_highlighted]. }
  destruct v; try apply X. destruct s; [cbn; apply mr_elements|apply X].
Qed.
Lemma mr_sourceBlock emb attrs es : tr emb (renderSourceBlock E rec attrs es) (has (its emb attrs (source_marks t attrs es))).
Proof.
  unfold renderSourceBlock. eapply tr_bind; [apply mr_sourceElements|]. intros c C. eapply tr_bind; [apply mr_roles|]. intros r _.
  eapply tr_bind; [apply mr_title|]. intros ti TI. blk. apply (has_keep trimLF); [apply keepm_trimLF|apply ms_source, ms_marks|exact C].
Qed.
Lemma mr_listingBlock emb attrs es : tr emb (renderListingBlock E rec attrs es)
  (has (if styled attrs ["source"] then its emb attrs (source_marks t attrs es) else its true attrs (part_marks t true es))).
Proof.
  unfold renderListingBlock. assert (X : (match mget attrs "style" with Some v => eq_str v "source" | None => false end) = styled attrs ["source"]).
  { unfold styled. destruct (mget attrs "style") as [[]|]; try reflexivity. cbn. now destruct (String.eqb _ _). }
  rewrite X. destruct (styled _ _); [apply mr_sourceBlock|]. apply tr_inBlock. ublk. apply mr_trimmed.
Qed.
Lemma mr_markdownQuote emb attrs es : tr emb (renderMarkdownQuoteBlock E rec attrs es) (has (its emb attrs (part_marks t emb es))).
Proof. unfold renderMarkdownQuoteBlock. eapply mr_usual; [apply mr_trimmed|]. intros ti r co TI CO. blk. Qed.
Lemma mr_quoteBlock emb attrs es : tr emb (renderQuoteBlock E rec attrs es) (has (its emb attrs (part_marks t emb es))).
Proof. unfold renderQuoteBlock. eapply mr_usual; [apply mr_elements|]. intros ti r co TI CO. blk. Qed.
Lemma mr_quoteParagraph emb attrs es : tr emb (renderQuoteParagraph E rec attrs es) (has (its emb attrs (part_marks t emb es))).
Proof. unfold renderQuoteParagraph. eapply tr_bind; [apply mr_paragraphElements|]. intros c C. eapply tr_bind; [apply mr_title|]. intros ti TI. blk. Qed.
Lemma mr_verseBlock emb attrs es : tr emb (renderVerseBlock E rec attrs es) (has (its true attrs (part_marks t true es))).
Proof.
  unfold renderVerseBlock. eapply tr_bind; [apply mr_roles|]. intros r _. apply tr_inBlock. eapply tr_bind; [apply mr_elements|]. intros c C.
  eapply tr_bind; [apply mr_title|]. intros ti TI. blk. apply (has_keep trimLF); [apply keepm_trimLF|apply wt|exact C].
Qed.
Lemma mr_verseParagraph emb attrs es : tr emb (renderVerseParagraph E rec attrs es) (has (id_mark attrs ++ title_marks t emb attrs)).
Proof.
  unfold renderVerseParagraph. eapply (tr_bind _ _ _ _ _ (has [])); [apply tr_lift; intros; apply has_nil|]. intros c C.
  eapply tr_bind; [apply mr_title|]. intros ti TI. rewrite <- (app_nil_r (title_marks t emb attrs)). blk.
Qed.
Lemma mr_raw emb l : tr emb (renderRawElements rec l) (has (part_marks t emb l)).
Proof.
  induction l as [|e l IHl]; [apply tr_ret, has_nil|]. cbn [renderRawElements]. eapply (tr_bind _ _ _ _ _ (has (t emb e))).
  - destruct e; try apply IH. apply tr_ret. destruct n; apply has_nil.
  - intros a A. eapply tr_bind; [exact IHl|]. intros b B. apply tr_ret. cbn [part_marks flat_map]. now apply has_cat.
Qed.
Lemma mr_passContent emb l : tr emb (renderPassthroughContent rec l) (has (part_marks t emb l)).
Proof. apply tr_map_has; [apply wt|apply keepm_trimLF|apply mr_raw]. Qed.
Lemma mr_passParagraph emb l : tr emb (renderPassthroughParagraph rec l) (has (part_marks t emb l)).
Proof. eapply tr_bind; [apply mr_passContent|]. intros s S0. apply tr_ret. now apply has_l. Qed.
Lemma mr_inlinePass emb k l : tr emb (renderInlinePassthrough rec k l) (has (if String.eqb k "+" then [] else part_marks t emb l)).
Proof. eapply tr_bind; [apply mr_passContent|]. intros s S0. apply tr_ret. destruct (String.eqb k "+"); [apply has_nil|exact S0]. Qed.
Lemma mr_passBlock emb attrs es : tr emb (renderPassthroughBlock E rec attrs es) (has (part_marks t true es)).
Proof.
  unfold renderPassthroughBlock. apply tr_inBlock. eapply tr_bind; [apply mr_elements|]. intros c C. eapply tr_bind; [apply mr_roles|]. intros r _.
  eapply (tr_field _ _ _ ".Content"); [sh|]. apply (has_keep trimLF); [apply keepm_trimLF|apply wt|exact C].
Qed.
Lemma mr_plainBlock emb attrs es tn : prints_if_known [".ID"] "id=""" "" ".ID" """" tn = true -> shows_all [".Title"] tn = true -> shows_all [".Content"] tn = true ->
  tr emb (usual rec attrs (renderElements rec es) (tm tn)) (has (its emb attrs (part_marks t emb es))).
Proof. intros A B C. eapply (mr_usual_block _ _ _ _ tn []); [exact A|exact B|exact C|intros; now rewrite app_nil_r|apply mr_elements]. Qed.
Lemma mr_delimited emb kind attrs es : tr emb (renderDelimitedBlock E rec kind attrs es) (has (block_marks t emb kind attrs es)).
Proof.
  unfold renderDelimitedBlock, block_marks.
  destruct (String.eqb_spec kind "example") as [->|]; [cbn; rewrite orb_false_r; destruct (ahas attrs "style"); [apply mr_admonitionBlock|apply mr_exampleBlock]|].
  destruct (String.eqb_spec kind "fenced") as [->|]; [cbn; rewrite orb_true_r; apply mr_fencedBlock|].
  destruct (String.eqb_spec kind "literal") as [->|]; [cbn; rewrite orb_false_r; apply mr_literalBlock|].
  destruct (String.eqb_spec kind "listing") as [->|]; [cbn [String.eqb Ascii.eqb Bool.eqb andb]; pose proof (mr_listingBlock emb attrs es) as K; destruct (styled attrs ["source"]); [exact K|];
    cbn; rewrite orb_true_r; exact K|].
  destruct (String.eqb_spec kind "markdown-quote") as [->|]; [cbn; rewrite orb_false_r; apply mr_markdownQuote|].
  destruct (String.eqb_spec kind "pass") as [->|]; [cbn; apply mr_passBlock|].
  destruct (String.eqb_spec kind "quote") as [->|]; [cbn; rewrite orb_false_r; apply mr_quoteBlock|].
  destruct (String.eqb_spec kind "verse") as [->|]; [cbn; rewrite orb_true_r; apply mr_verseBlock|].
  destruct (String.eqb_spec kind "sidebar") as [->|]; [cbn; rewrite orb_false_r; apply mr_plainBlock; sh|].
  destruct (String.eqb_spec kind "open") as [->|]; [cbn; rewrite orb_false_r; apply mr_plainBlock; sh|]. apply tr_fail.
Qed.
Lemma mr_regular emb attrs es : tr emb (renderRegularParagraph E rec attrs es) (has (its emb attrs (part_marks t emb es))).
Proof. unfold renderRegularParagraph. ublk. apply tr_map_has; [apply wt|apply keepm_trimLF|apply mr_paragraphElements]. Qed.
Lemma mr_manpageName emb es : tr emb (renderManpageNameParagraph E rec es) (has (part_marks t emb es)).
Proof. unfold renderManpageNameParagraph. eapply tr_bind; [apply mr_elements|]. intros c C. eapply (tr_field _ _ _ ".Content"); [sh|exact C]. Qed.
Lemma mr_paragraph emb attrs es : tr emb (renderParagraph E rec attrs es) (has (paragraph_marks t (text n) emb attrs es)).
Proof.
  unfold renderParagraph. apply (tr_state emb _ (fun st => if r_within st || (0 <? r_list st)%Z then _ else _)). intros st EM. fold (emb_of st). rewrite EM.
  unfold paragraph_marks. destruct emb; [apply mr_embedded|]. cbn [orb]. unfold styled, among, admonition_styles.
  assert (RG := mr_regular false attrs es).
  destruct (mget attrs "style") as [v|] eqn:MS; [|exact RG].
  destruct v; try exact RG. cbn [existsb].
  destruct (String.eqb_spec s "example") as [->|]; [apply mr_exampleParagraph|].
  destruct (String.eqb_spec s "listing") as [->|]; [apply mr_listingParagraph|].
  destruct (String.eqb_spec s "source") as [->|].
  { cbn. unfold renderSourceParagraph. pose proof (mr_sourceBlock false (mset attrs "style" (VStr "source")) es) as K.
    unfold its, id_mark, attr_mark, title_marks, source_marks in *. rewrite !mget_mset_neq in K by discriminate. exact K. }
  destruct (String.eqb_spec s "verse") as [->|]; [apply mr_verseParagraph|].
  destruct (String.eqb_spec s "quote") as [->|]; [apply mr_quoteParagraph|].
  destruct (String.eqb_spec s "pass") as [->|]; [apply mr_passParagraph|].
  destruct (String.eqb_spec s "manpage") as [->|]; [apply mr_manpageName|]. cbn [orb].
  destruct (_ || (_ || (_ || (_ || (_ || false))))); [apply mr_admonitionParagraph|].
  destruct (_ || _); [apply mr_literalParagraph|exact RG].
Qed.

(** ** lists *)
Lemma mr_item emb tn es : shows_all [".Content"] tn = true -> tr emb (renderItem E rec tn es) (has (item_marks t emb es)).
Proof. intros SH. unfold renderItem. eapply tr_bind; [apply mr_listElements|]. intros c C. eapply (tr_field _ _ _ ".Content"); [exact SH|exact C]. Qed.
Lemma mr_orderedItems emb l : tr emb (renderOrderedItems E rec l) (has (items_marks t "ordered_list" emb l)).
Proof.
  induction l as [|e l IHl]; [apply tr_ret, has_nil|]. cbn [renderOrderedItems]. destruct e; try apply tr_fail. eapply tr_bind; [apply mr_item; sh|]. intros a A.
  eapply tr_bind; [exact IHl|]. intros b B. apply tr_ret. now apply has_cat.
Qed.
Lemma mr_unorderedItems emb l : tr emb (renderUnorderedItems E rec l) (has (items_marks t "unordered_list" emb l)).
Proof.
  induction l as [|e l IHl]; [apply tr_ret, has_nil|]. cbn [renderUnorderedItems]. destruct e; try apply tr_fail; (eapply tr_bind; [apply mr_item; sh|]; intros a A;
  eapply tr_bind; [exact IHl|]; intros b B; apply tr_ret; now apply has_cat).
Qed.
Lemma mr_labeledItems emb tn l : shows_all [".Term"] tn = true -> shows_all [".Content"] tn = true -> forall cont, tr emb (renderLabeledItems E rec tn cont l) (has (items_marks t "labeled_list" emb l)).
Proof.
  intros S1 S2. induction l as [|e l IHl]; intros cont; [apply tr_ret, has_nil|]. cbn [renderLabeledItems]. destruct e; try apply tr_fail.
  eapply (tr_bind _ _ _ _ _ (fun x => has (part_marks t emb term ++ item_marks t emb elements) (fst x))).
  - unfold renderLabeledListItem. eapply tr_bind; [apply mr_inline|]. intros tm0 T0. eapply tr_bind; [apply mr_listElements|]. intros c C.
    eapply tr_bind; [apply tr_has; [eapply (tr_field _ _ _ ".Term"); [exact S1|exact T0]|eapply (tr_field _ _ _ ".Content"); [exact S2|exact C]]|]. intros s S0. apply tr_ret. exact S0.
  - intros a A. eapply tr_bind; [apply IHl|]. intros b B. apply tr_ret. now apply has_cat.
Qed.
Lemma mr_calloutItems emb l : tr emb (renderCalloutItems E rec l) (has (items_marks t "callout_list" emb l)).
Proof.
  induction l as [|e l IHl]; [apply tr_ret, has_nil|]. cbn [renderCalloutItems]. destruct e; try apply tr_fail. eapply tr_bind; [apply mr_listElements|]. intros c C.
  eapply tr_bind; [eapply (tr_field _ _ _ ".Content"); [sh|exact C]|]. intros a A. eapply tr_bind; [exact IHl|]. intros b B. apply tr_ret. now apply has_cat.
Qed.
Lemma mr_list emb kind attrs es : tr emb (renderList E rec kind attrs es) (has (its emb attrs (items_marks t kind emb es))).
Proof.
  unfold renderList. destruct (String.eqb_spec kind "ordered_list") as [->|].
  { unfold renderOrderedList. eapply tr_bind; [apply mr_orderedItems|]. intros c C. eapply tr_bind; [apply mr_roles|]. intros r _.
    eapply (tr_bind _ _ _ _ _ (fun _ => True)); [apply tr_lift; auto|]. intros st _. eapply tr_bind; [apply mr_title|]. intros ti TI. blk. }
  destruct (String.eqb_spec kind "unordered_list") as [->|].
  { unfold renderUnorderedList. eapply (tr_bind _ _ _ _ _ (fun _ => True)); [destruct es as [|[] ?]; first [now apply tr_ret|apply tr_fail]|]. intros ck _.
    eapply tr_bind; [apply mr_unorderedItems|]. intros c C. eapply tr_bind; [apply mr_roles|]. intros r _.
    eapply tr_bind; [apply mr_title|]. intros ti TI. blk. }
  destruct (String.eqb_spec kind "labeled_list") as [->|].
  { unfold renderLabeledList. eapply (tr_bind _ _ _ _ _ (fun x => (prints_if_known [".ID"] "id=""" "" ".ID" """" (fst x) = true /\ shows_all [".Title"] (fst x) = true /\ shows_all [".Content"] (fst x) = true) /\
      shows_all [".Term"] (snd x) = true /\ shows_all [".Content"] (snd x) = true)).
    - unfold getLabeledListTmpl.
      destruct (mget attrs "style") as [v|]; [|apply tr_ret; repeat split; sh]. destruct (eq_str v "qanda"); [apply tr_ret; repeat split; sh|].
      destruct (eq_str v "horizontal"); [apply tr_ret; repeat split; sh|apply tr_fail].
    - intros [a b] [(A1 & A2 & A3) [B1 B2]]. eapply (mr_usual_block _ _ _ _ a []); [exact A1|exact A2|exact A3|intros; now rewrite app_nil_r|]. now apply mr_labeledItems. }
  destruct (String.eqb_spec kind "callout_list") as [->|]; [|apply tr_fail].
  unfold renderCalloutList. ublk. apply mr_calloutItems.
Qed.

(** ** tables *)
Lemma mr_edgeCells emb tn cols l : shows_all [".Content"] tn = true -> forall i, tr emb (renderEdgeCells E rec tn cols i l) (has (flat_map (edge_cell_marks t emb) l)).
Proof.
  intros SH. induction l as [|c l IHl]; intros i; [apply tr_ret, has_nil|]. cbn [renderEdgeCells]. destruct cols as [|d cols]; [apply tr_panic|].
  eapply (tr_bind _ _ _ _ _ (has (edge_cell_marks t emb c))).
  - unfold renderEdgeCell. destruct c; try apply tr_fail. destruct elements as [|e [|]]; try apply tr_fail; destruct e; try apply tr_fail.
    eapply tr_bind; [apply mr_inline|]. intros s S0. eapply (tr_field _ _ _ ".Content"); [exact SH|exact S0].
  - intros a A. eapply tr_bind; [apply IHl|]. intros b B. apply tr_ret. cbn [flat_map]. now apply has_cat.
Qed.
Lemma mr_edgeRow emb tn tc row cols : shows_all [".Content"] tn = true -> shows_all [".Content"] tc = true ->
  tr emb (renderEdgeRow E rec tn tc row cols) (has (row_text (edge_cell_marks t emb) row)).
Proof.
  intros S1 S2. unfold renderEdgeRow. destruct row; try apply tr_ret, has_nil. eapply tr_bind; [apply (mr_edgeCells _ _ _ _ S2)|]. intros c C.
  eapply (tr_field _ _ _ ".Content"); [exact S1|exact C].
Qed.
Lemma mr_cellBlock emb b : tr emb (renderTableCellBlock E rec b) (has (match b with Paragraph _ es => part_marks t emb es | _ => t emb b end)).
Proof.
  assert (G : tr emb (let* s := rec b in tm TTableCellBlock [(".Content", FS s)]) (has (t emb b))).
  { eapply tr_bind; [apply IH|]. intros s S0. apply tr_lift. intros out X.
    assert (K : out = ("<div class=""content"">" ++ trim_suffix s LF ++ "</div>")%string).
    { unfold template in X. destruct (e_xhtml E); cbv [execute] in X; cbn in X; injection X as <-; reflexivity. }
    rewrite K. apply has_r, has_l. apply (has_keep (fun s => trim_suffix s LF)); [apply keepm_trim_suffix_LF|apply ms_marks|exact S0]. }
  unfold renderTableCellBlock. destruct b; try exact G. eapply tr_bind; [apply mr_elements|]. intros c C. eapply tr_bind; [apply mr_title|]. intros ti _.
  eapply tr_bind; [eapply (tr_field _ _ _ ".Content"); [sh|exact C]|]. intros s S0. apply tr_ret. apply (has_keep (fun s => trim_suffix s LF)); [apply keepm_trim_suffix_LF|apply wt|exact S0].
Qed.
Lemma mr_cellBlocks emb l : tr emb (renderCellBlocks E rec l) (has (flat_map (fun b => match b with Paragraph _ es => part_marks t emb es | _ => t emb b end) l)).
Proof.
  induction l as [|b l IHl]; [apply tr_ret, has_nil|]. cbn [renderCellBlocks]. eapply tr_bind; [apply mr_cellBlock|]. intros a A. eapply tr_bind; [exact IHl|]. intros c C.
  apply tr_ret. cbn [flat_map]. now apply has_cat.
Qed.
Lemma mr_cells emb cols l : forall i, tr emb (renderCells E rec cols i l) (has (flat_map (cell_marks t emb) l)).
Proof.
  induction l as [|c l IHl]; intros i; [apply tr_ret, has_nil|]. cbn [renderCells]. destruct (nth_error cols i) as [col|]; [|apply tr_panic].
  eapply (tr_bind _ _ _ _ _ (has (cell_marks t emb c))).
  - unfold renderTableCell. destruct c; try apply tr_fail. eapply tr_bind; [apply mr_cellBlocks|]. intros s S0.
    destruct (String.eqb _ _); (eapply (tr_field _ _ _ ".Content"); [sh|exact S0]).
  - intros a A. eapply tr_bind; [apply IHl|]. intros b B. apply tr_ret. cbn [flat_map]. now apply has_cat.
Qed.
Lemma mr_rows emb cols l : tr emb (renderRows E rec cols l) (fun s => has (flat_map (row_text (cell_marks t emb)) l) s).
Proof.
  induction l as [|r l IHl]; [apply tr_ret, has_nil|]. cbn [renderRows]. destruct r; try apply tr_fail.
  eapply tr_bind; [apply mr_cells|]. intros c C.
  eapply tr_bind; [eapply (tr_field _ _ _ ".Content"); [sh|exact C]|]. intros a A. eapply tr_bind; [exact IHl|]. intros b B. apply tr_ret. cbn [flat_map row_text]. now apply has_cat.
Qed.
Lemma mr_table emb attrs h rows f : tr emb (renderTable E rec (Table attrs h rows f)) (has (table_marks t emb attrs h rows f)).
Proof.
  unfold renderTable, table_marks. eapply (tr_bind _ _ _ _ _ (fun _ => True)); [destruct (ahas attrs "title"); [apply tr_caption|now apply tr_ret]|]. intros cn _.
  eapply (tr_bind _ _ _ _ _ (fun _ => True)); [apply tr_lift; auto|]. intros cols _.
  eapply tr_bind; [apply (mr_edgeRow emb TTableHeader TTableHeaderCell); sh|]. intros hd HD.
  eapply tr_bind; [apply (mr_edgeRow emb TTableFooter TTableFooterCell); sh|]. intros ft FT.
  eapply (tr_bind _ _ _ _ _ (fun s => has (flat_map (row_text (cell_marks t emb)) rows) s /\ (rows <> [] -> s <> ""))).
  { eapply tr_bind; [apply tr_and; [apply mr_rows|apply (tr_rows E rec 0 (IHt 0) emb)]|]. intros c [C [_ NE]]. intros st a st' L X Y. assert (Y' := Y). unfold exec, lift in Y'. destruct (execute _ _ _) as [o| |] eqn:EX; try discriminate. injection Y' as <- <-.
    destruct (tr_field emb TTableBody [(".Content", FS c)] ".Content" _ ltac:(sh) C _ _ _ L X Y) as (AP & R). split; [|exact R]. split; [exact AP|].
    intros NR. eapply body_nonempty; eauto. }
  intros b [B NE]. eapply tr_bind; [apply mr_roles|]. intros r _. eapply tr_bind; [apply mr_title|]. intros ti TI.
  apply tr_has; [apply tr_id; [sh|reflexivity]|]. apply tr_has; [eapply (tr_field _ _ _ ".Title"); [sh|exact TI]|].
  destruct rows as [|row rows]; [apply tr_none, tr_exec0|].
  assert (K : forall k fs, mget fs ".Body" = Some (FS b) -> In k [".Body"] -> exists v, mget fs k = Some v /\ truth v = true).
  { intros k fs F [<-|[]]. exists (FS b). split; [exact F|]. cbn. destruct (String.eqb_spec b ""); [|reflexivity]. destruct NE; [discriminate|assumption]. }
  apply tr_has; [eapply (tr_field_if _ _ _ [".Body"] ".Header"); [sh|intros k; now apply K|exact HD]|].
  apply tr_has; [eapply (tr_field_if _ _ _ [".Body"] ".Body"); [sh|intros k; now apply K|exact B]|eapply (tr_field_if _ _ _ [".Body"] ".Footer"); [sh|intros k; now apply K|exact FT]].
Qed.

(** ** images and inline elements *)
Lemma tr_link_mark emb tn fs attrs f : prints_if_known [f] "href=""" "" f """" tn = true -> (forall v, mget attrs "link" = Some (VStr v) -> mget fs f = Some (FS v)) ->
  tr emb (tm tn fs) (has (attr_mark "href" attrs "link")).
Proof.
  intros P F. unfold attr_mark. destruct (mget attrs "link") as [[]|]; try apply tr_none, tr_exec0. apply (tr_mark emb tn fs [] "href" f); [exact P|intros g []|]. intros _. now apply F.
Qed.
Lemma getD_str a k v d : mget a k = Some (VStr v) -> getD E a k d = v.
Proof. unfold getD, getAsStringD. now intros ->. Qed.
Lemma mr_imageBlock emb loc attrs : tr emb (renderImageBlock E rec loc attrs) (has (id_mark attrs ++ attr_mark "href" attrs "link" ++ title_marks t emb attrs)).
Proof.
  unfold renderImageBlock. eapply tr_bind; [apply mr_title|]. intros ti TI.
  eapply (tr_bind _ _ _ _ _ (fun _ => True)); [destruct (String.eqb ti ""); [now apply tr_ret|apply tr_caption]|]. intros cn _.
  eapply tr_bind; [apply (tr_imageRoles rec 0 (IHt 0))|]. intros r _. eapply tr_bind; [apply tr_getAttrs|]. intros ctx _.
  eapply (tr_bind _ _ _ _ _ (fun _ => True)); [apply tr_lift; auto|]. intros alt _.
  apply tr_has; [apply tr_id; [sh|reflexivity]|]. apply tr_has; [apply (tr_link_mark _ _ _ _ ".Href"); [sh|]|eapply (tr_field _ _ _ ".Title"); [sh|exact TI]].
  intros v V. cbn [mget String.eqb Ascii.eqb Bool.eqb]. now rewrite (getD_str _ _ _ _ V).
Qed.
Lemma mr_inlineImage emb loc attrs : tr emb (renderInlineImage E rec loc attrs) (has (attr_mark "href" attrs "link")).
Proof.
  unfold renderInlineImage. eapply tr_bind; [apply (tr_imageRoles rec 0 (IHt 0))|]. intros r _. eapply tr_bind; [apply tr_getAttrs|]. intros ctx _.
  eapply (tr_bind _ _ _ _ _ (fun _ => True)); [apply tr_lift; auto|]. intros alt _. eapply tr_bind; [apply mr_title|]. intros ti _.
  apply (tr_link_mark _ _ _ _ ".Href"); [sh|]. intros v V. cbn [mget String.eqb Ascii.eqb Bool.eqb]. now rewrite (getD_str _ _ _ _ V).
Qed.
Lemma mr_icon emb cl attrs : tr emb (renderInlineIcon E cl attrs) (has (id_mark attrs ++ attr_mark "href" attrs "link")).
Proof.
  unfold renderInlineIcon. eapply tr_bind; [apply tr_icon|]. intros ic _. apply tr_has; [apply tr_id; [sh|reflexivity]|].
  apply (tr_link_mark _ _ _ _ ".Link"); [sh|]. intros v V. cbn [mget String.eqb Ascii.eqb Bool.eqb]. now rewrite (getD_str _ _ _ _ V).
Qed.
Lemma mr_internal emb id label : tr emb (renderInternalCrossReference E rec id label) (has (match id with VStr s => prefixed "href" "#" (low s) | _ => [] end)).
Proof.
  unfold renderInternalCrossReference. destruct id; try apply tr_fail. eapply (tr_bind _ _ _ _ _ (fun _ => True)).
  - assert (G : tr emb (renderRefLabel E rec s) (fun _ => True)).
    { unfold renderRefLabel. destruct (mget _ s) as [[]|]; first [now apply tr_ret|apply (tr_label E rec 0 (IHt 0))|apply tr_fail]. }
    destruct label; try exact G. now apply tr_ret.
  - intros a _. unfold prefixed. destruct (plain_value _); [|apply tr_none, tr_exec0].
    apply (tr_prints emb _ _ [] "href" "#" "toLower" ".Href"); [sh|intros g []|]. eexists. split; reflexivity.
Qed.
Lemma mr_external emb loc attrs : tr emb (renderExternalCrossReference E rec loc attrs) (has (label_marks t emb (mget attrs "xrefLabel"))).
Proof.
  unfold renderExternalCrossReference. eapply (tr_bind _ _ _ _ _ (has (label_marks t emb (mget attrs "xrefLabel")))).
  - destruct (mget attrs "xrefLabel") as [[]|]; try apply tr_ret, has_nil. cbn [label_marks]. apply mr_inline.
  - intros a A. eapply (tr_field _ _ _ ".Label"); [sh|exact A].
Qed.
Lemma mr_quoted emb k es attrs : tr emb (renderQuotedText E rec k es attrs) (has (id_mark attrs ++ part_marks t emb es)).
Proof.
  unfold renderQuotedText. eapply tr_bind; [apply mr_elements|]. intros c C. eapply tr_bind; [apply mr_roles|]. intros r _.
  unfold quotedTemplate. repeat match goal with |- context [if ?b then Some _ else _] => destruct b; [apply tr_has; [apply tr_id; [sh|reflexivity]|eapply (tr_field _ _ _ ".Content"); [sh|exact C]]|] end. apply tr_fail.
Qed.
Lemma mr_link emb attrs loc : tr emb (renderLink E rec attrs loc)
  (has (id_mark attrs ++ match loc with Location scheme (VStr path) => mark "href" (scheme ++ path) | _ => [] end ++ label_marks t emb (mget attrs "text"))).
Proof.
  unfold renderLink. eapply tr_bind; [apply mr_roles|]. intros r _.
  eapply (tr_bind _ _ _ _ _ (fun x => has (label_marks t emb (mget attrs "text")) (fst x))).
  - destruct (mget attrs "text") as [x|].
    + eapply (tr_bind _ _ _ _ _ (has (label_marks t emb (Some x)))); [|intros a A; apply tr_ret; exact A].
      destruct x; try apply tr_ret, has_nil. cbn [label_marks]. apply mr_inline.
    + apply tr_ret. apply has_nil.
  - intros a A. apply tr_has; [|apply tr_has].
    + unfold id_mark, attr_mark. destruct (mget attrs "id") as [[]|] eqn:ID; try apply tr_none, tr_exec0. apply (tr_mark emb _ _ [] "id" ".ID"); [sh|intros g []|].
      intros _. cbn [mget String.eqb Ascii.eqb Bool.eqb]. now rewrite (getD_str _ _ _ _ ID).
    + destruct loc; try apply tr_none, tr_exec0. destruct loc; try apply tr_none, tr_exec0. apply (tr_mark emb _ _ [] "href" ".URL"); [sh|intros g []|].
      intros K. cbn [mget String.eqb Ascii.eqb Bool.eqb toString stringify]. now rewrite (escape_kept _ K).
    + eapply (tr_field _ _ _ ".Text"); [sh|exact A].
Qed.
Lemma mr_reference emb id ref dup : tr emb (renderFootnoteReference E id ref dup) (has (reference_marks id dup)).
Proof.
  unfold renderFootnoteReference, reference_marks. change InvalidFootnoteReference with (-1)%Z.
  destruct (negb _ && negb dup).
  - change ([quoted "id" ("_footnoteref_" ++ itoa id); quoted "href" ("#_footnotedef_" ++ itoa id)]) with ([quoted "id" ("_footnoteref_" ++ itoa id)] ++ [quoted "href" ("#_footnotedef_" ++ itoa id)]).
    apply tr_has; [apply (tr_prints emb _ _ [] "id" "_footnoteref_" "" ".ID")|apply (tr_prints emb _ _ [] "href" "#_footnotedef_" "" ".ID")]; try sh; try (intros g []); eexists; split; reflexivity.
  - destruct dup; [|apply tr_none, tr_exec0]. apply (tr_prints emb _ _ [] "href" "#_footnotedef_" "" ".ID"); [sh|intros g []|]. eexists; split; reflexivity.
Qed.
Lemma mr_section emb level attrs title es : tr emb (renderSection E rec level attrs title es)
  (has (match mget attrs "id" with Some (VStr s) => if all_kept s then mark "id" (low s) else [] | _ => [] end ++ match title with Some l => part_marks t emb l | None => [] end ++ part_marks t emb es)).
Proof.
  unfold renderSection. set (T := match title with Some l => part_marks t emb l | None => [] end).
  eapply (tr_bind _ _ _ _ _ (has (match mget attrs "id" with Some (VStr s) => if all_kept s then mark "id" (low s) else [] | _ => [] end ++ T))).
  - unfold renderSectionTitle. eapply tr_bind; [apply mr_inline|]. intros s S0. apply tr_has.
    + destruct (mget attrs "id") as [v|] eqn:ID; [|apply tr_none, tr_exec0]. destruct v; try apply tr_none, tr_exec0. destruct (all_kept s0) eqn:AK; [|apply tr_none, tr_exec0].
      unfold mark. destruct (plain_value _); [|apply tr_none, tr_exec0]. apply (tr_prints emb _ _ [] "id" "" "toLower" ".ID"); [sh|intros g []|].
      eexists. split; [reflexivity|]. cbn. unfold renderElementID. now rewrite ID, html_escape_kept.
    + eapply (tr_field _ _ _ ".Content"); [sh|]. apply (has_keep trimSpace); [apply keepm_trimSpace|unfold T; destruct title; [apply wt|apply ms_nil]|]. unfold T. destruct title; exact S0.
  - intros h H. eapply tr_bind; [apply mr_elements|]. intros c C. eapply tr_bind; [apply mr_roles|]. intros r _. rewrite app_assoc.
    apply tr_has; [eapply (tr_field _ _ _ ".Header"); [sh|exact H]|eapply (tr_field _ _ _ ".Content"); [sh|exact C]].
Qed.
Lemma mr_preamble emb es toc : tr emb toc (fun _ => True) -> tr emb (renderPreamble E rec es toc) (has (part_marks t emb es)).
Proof.
  intros T0. unfold renderPreamble. eapply tr_bind; [apply mr_elements|]. intros c C. eapply tr_bind; [exact T0|]. intros tc _.
  eapply (tr_field _ _ _ ".Content"); [sh|exact C].
Qed.
Lemma mr_with emb v : tr emb (renderElementWith E rec v) (has (marks low (S n) emb v)).
Proof.
  cbn [marks]. destruct v; cbn [renderElementWith]; try apply tr_fail;
    try (apply mr_quoted || apply mr_inlinePass || apply mr_link || apply mr_internal || apply mr_external || apply mr_inlineImage || apply mr_icon || apply mr_inline || apply mr_reference
         || apply mr_paragraph || apply mr_delimited || apply mr_section || apply mr_imageBlock || apply mr_list || apply mr_table); try (apply tr_none, tr_exec0);
    try (apply tr_none; eapply tr_bind; [first [apply tr_upd|apply tr_getAttrs]|]; intros; now apply tr_ret); try (apply tr_none, tr_lift; auto; fail); try (apply tr_ret, has_nil).
  - (* UserMacro *) apply tr_none. unfold renderUserMacro. destruct (e_macro E _) as [r|]; [apply tr_lift; auto|]. destruct (String.eqb kind "block"); [|now apply tr_ret].
    eapply tr_true, mr_paragraph.
  - apply mr_preamble. now apply tr_ret.
Qed.
End Rec.

Lemma mr_element depth : forall n emb v, tr emb (renderElement E depth v) (has (marks low n emb v)).
Proof.
  induction depth as [|k IH]; intros n emb v; cbn [renderElement]; [apply tr_panic|]. destruct n as [|n].
  - apply tr_none. eapply tr_true. apply (mr_with _ O); [intros; apply IH|intros; apply tr_element].
  - apply mr_with; [intros; apply IH|intros; apply tr_element].
Qed.

(** ** documents *)
Section Doc.
Variable rec : val -> M string.
Hypothesis IH : forall n emb v, tr emb (rec v) (has (marks low n emb v)).
Hypothesis IHt : forall n emb v, tr emb (rec v) (appear (text n emb v)).
Ltac sh := vm_compute; reflexivity.
Lemma mr_elementsToc n x l : tr false (renderElementsToc E rec x l) (has (part_marks (marks low n) false l)).
Proof.
  induction l as [|e l IHl]; [apply tr_ret, has_nil|].
  assert (G : tr false (let* s := rec e in let* q := renderElementsToc E rec x l in ret (s ++ q)%string) (has (part_marks (marks low n) false (e :: l)))).
  { eapply tr_bind; [apply (IH n)|]. intros a A. eapply tr_bind; [exact IHl|]. intros b B. apply tr_ret. now apply has_cat. }
  destruct e; try exact G. cbn [renderElementsToc]. eapply (tr_bind _ _ _ _ _ (has (marks low n false (Preamble elements)))).
  - destruct n as [|m]; [apply tr_none; eapply tr_true, (mr_preamble rec 0 (IH 0%nat)), (tr_toc E rec IHt)|]. apply (mr_preamble rec m (IH m)), (tr_toc E rec IHt).
  - intros a A. eapply tr_bind; [apply (mr_elements rec n (IH n))|]. intros b B. apply tr_ret. now apply has_cat.
Qed.
Lemma mr_footnotes n l : tr false (renderFootnotes E rec l) (has (part_marks (marks low n) false l)).
Proof.
  assert (G : tr false (renderFootnoteElements E rec l) (has (part_marks (marks low n) false l))).
  { induction l as [|e l IHl]; [apply tr_ret, has_nil|]. cbn [renderFootnoteElements]. eapply (tr_bind _ _ _ _ _ (has (marks low n false e))).
    - unfold renderFootnoteElement. destruct e; try apply tr_fail. destruct n as [|m].
      + eapply tr_bind; [apply (mr_inline rec 0 (IH 0%nat))|]. intros. apply tr_none, tr_exec0.
      + eapply tr_bind; [apply (mr_inline rec m (IH m))|]. intros c C. cbn [marks]. apply tr_has.
        * change (note_marks id) with ([quoted "id" ("_footnotedef_" ++ itoa id)] ++ [quoted "href" ("#_footnoteref_" ++ itoa id)]).
          apply tr_has; [apply (tr_prints false _ _ [] "id" "_footnotedef_" "" ".ID")|apply (tr_prints false _ _ [] "href" "#_footnoteref_" "" ".ID")]; try sh; try (intros g []); eexists; split; reflexivity.
        * eapply (tr_field _ _ _ ".Content"); [sh|]. cbn [svalue mget String.eqb Ascii.eqb Bool.eqb].
          apply (has_keep (fun s => replace_all s LF " ")); [apply keepm_replace_LF|apply wt|]. apply (has_keep trimSpace); [apply keepm_trimSpace|apply wt|exact C].
    - intros a A. eapply tr_bind; [exact IHl|]. intros b B. apply tr_ret. now apply has_cat. }
  unfold renderFootnotes. destruct l as [|e l]; [apply tr_ret, has_nil|]. eapply tr_bind; [exact G|]. intros c C. eapply (tr_field _ _ _ ".Content"); [sh|exact C].
Qed.
Lemma mr_body n source toc notes : tr false (renderDocumentBody E rec source toc notes) (has (part_marks (marks low n) false source ++ part_marks (marks low n) false notes)).
Proof.
  unfold renderDocumentBody. eapply tr_bind; [apply tr_getAttrs|]. intros ctx _. eapply (tr_bind _ _ _ _ _ (has (part_marks (marks low n) false source))).
  - assert (G := mr_elements rec n (IH n) false source). destruct (mget ctx "toc"); [|exact G]. destruct toc; [|exact G]. destruct (eq_str _ _); [apply mr_elementsToc|].
    destruct (_ || _); [|apply tr_fail]. eapply tr_bind; [apply (tr_toc E rec IHt)|]. intros a _. eapply tr_bind; [exact G|]. intros b B. apply tr_ret. now apply has_r.
  - intros s S0. eapply tr_bind; [apply (mr_footnotes n)|]. intros f F. apply tr_ret. now apply has_cat.
Qed.
Lemma mr_header n title : tr false (renderDocumentHeader E rec title) (has (header_marks low n title)).
Proof.
  unfold renderDocumentHeader. eapply (tr_bind _ _ _ _ _ (has (header_marks low n title))); [destruct title; [apply (mr_elements rec n (IH n))|apply tr_ret, has_nil]|].
  intros h H. eapply (tr_bind _ _ _ _ _ (fun _ => True)).
  - unfold renderDocumentDetails. eapply tr_bind; [apply tr_getAttrs|]. intros ctx _. destruct (ahas ctx "authors"); [|now apply tr_ret].
    eapply tr_bind; [apply tr_authors|]. intros. apply tr_exec0.
  - intros d _. eapply (tr_field _ _ _ ".Header"); [sh|exact H].
Qed.
Lemma mr_manpageHeader n title name : tr false (renderManpageHeader E rec title name) (has (name_marks low n name)).
Proof.
  unfold renderManpageHeader. destruct name; try apply tr_panic. destruct elements as [|first r]; [apply tr_panic|].
  eapply (tr_bind _ _ _ _ _ (fun _ => True)); [destruct title; [eapply tr_true, (mr_elements rec n (IH n))|now apply tr_ret]|]. intros h _.
  eapply (tr_bind _ _ _ _ _ (has (header_marks low n title0))); [destruct title0; [apply (mr_elements rec n (IH n))|apply tr_ret, has_nil]|]. intros nm NM.
  destruct first; try apply tr_panic. cbn [name_marks].
  eapply (tr_bind _ _ _ _ _ (has (part_marks (marks low n) false elements))).
  - pose proof (mr_paragraph rec n (IH n) IHt false (aset attrs0 "style" (VStr "manpage")) elements) as K. unfold paragraph_marks, styled in K.
    rewrite aset_plain in K by (repeat split; discriminate). rewrite mget_mset_eq in K. exact K.
  - intros c C. apply tr_has; [eapply (tr_field _ _ _ ".Name"); [sh|exact NM]|eapply (tr_field _ _ _ ".Content"); [sh|exact C]].
Qed.
End Doc.
End R.
