(** C57: no text is lost. *)
From Verif Require Import GoBase GoLemmas Types Attrs AttrLemmas Aggregate Toc TocRender Escape Ids Templates Tmpl HtmlTmpl RenderAttrs Render RenderKit
  RenderStateSpec RenderState TextSpec TextTmpl TextWords TextDocSpec TextRender P_Html.

(** Every word of an element (of any size and depth) is in what is rendered, and the words are in the order of the element. *)
Theorem C57_element : forall E depth n v st out st', (0 <= r_list st)%Z ->
  renderElement E depth v st = Ok (out, st') -> appear (text n (r_within st || (0 <? r_list st)%Z) v) out.
Proof. intros E depth n v st out st' L X. exact (proj1 (tr_element E depth n _ v st out st' L eq_refl X)). Qed.
Print Assumptions C57_element.

(** ** documents *)
Definition silent_about (key : string) (v : val) : Prop := forall x, occurs x v -> ~ declares x key.
Definition silent (v : val) : Prop := silent_about "doctype" v.
(** an attribute that is not declared does not change (for example the type of the document) *)
Section Kept.
Variable key : string.
Variable E : renv.
Notation keeps_key := (silent_about key).
Hypothesis refs_silent : forall id v, mget (e_refs E) id = Some v -> keeps_key v.
Definition KD {A} (m1 _ : M A) : Prop := forall st r st', m1 st = Ok (r, st') -> mget (r_attrs st') key = mget (r_attrs st) key.
Lemma KD_closed : closed (@KD) (fun _ => True) keeps_key.
Proof.
  split.
  - intros A m [r ->] st a st' H. destruct r; inversion H; subst. auto.
  - intros A B m1 m2 f1 f2 H1 H2 st r st' H. unfold bindM in H. destruct (m1 st) as [[a st1]| |] eqn:X; try discriminate.
    rewrite (H2 a _ _ _ H). now rewrite (H1 _ _ _ X).
  - intros B f1 f2 H st r st' X. unfold bindM, getAttrs in X. exact (H _ Logic.I _ _ _ X).
  - intros B f1 f2 H st r st' X. exact (H st _ _ _ X).
  - intros n st r st' X. unfold nextCounter in X. inversion X; subst. reflexivity.
  - intros A m1 m2 H st r st' X. unfold inBlock in X. destruct (m1 _) as [[a st1]| |] eqn:Y; try discriminate. inversion X; subst. exact (H _ _ _ Y).
  - intros A m1 m2 H st r st' X. unfold inList in X. destruct (m1 _) as [[a st1]| |] eqn:Y; try discriminate. inversion X; subst. exact (H _ _ _ Y).
  - intros n v HV st r st' X. unfold upd_attrs in X. inversion X; subst. cbn [r_attrs]. apply mget_mset_neq. intros ->. apply (HV _ (occ_refl _)). reflexivity.
  - intros n HV st r st' X. unfold upd_attrs in X. inversion X; subst. cbn [r_attrs]. rewrite mget_mdel. destruct (String.eqb_spec n key) as [->|]; [|reflexivity].
    destruct (HV _ (occ_refl _)). reflexivity.
  - intros b HV st r st' X. unfold upd_attrs in X. inversion X; subst. cbn [r_attrs]. apply aaddall_other. apply HV. apply occ_refl.
Qed.
Lemma silent_child c v : keeps_key v -> In c (children v) -> keeps_key c.
Proof. intros H I x O. apply H. econstructor; eauto. Qed.
Lemma silent_need x v : keeps_key v -> need E x v -> keeps_key x.
Proof.
  intros H N. destruct N as [x v (c & C & O)|x id l label R I|s k n v a].
  - intros y Y. apply H. apply (occurs_trans _ x); [exact Y|]. econstructor; eauto.
  - apply (silent_child x _ (refs_silent _ _ R)). exact I.
  - intros y Y D. inversion Y as [|? ? ? C]; subst; [destruct D|destruct C].
Qed.
Lemma KD_element depth : forall v, keeps_key v -> KD (renderElement E depth v) (renderElement E depth v).
Proof.
  induction depth as [|k IH]; intros v H; cbn [renderElement]; [intros st r st' X; discriminate|].
  apply (k_with E (@KD) (fun _ => True) keeps_key KD_closed); [exact H|]. intros x N. apply IH. eapply silent_need; eauto.
Qed.
Lemma KD_entries depth l : KD (prerenderEntries E (renderElement E depth) l) (prerenderEntries E (renderElement E depth) l).
Proof.
  apply (k_entries E (@KD) (fun _ => True) keeps_key KD_closed _ _ keeps_key); auto.
  - intros x X. now apply KD_element.
  - intros c v X I. eapply silent_child; eauto.
Qed.
End Kept.

Lemma bindM_ok A B (m : M A) (f : A -> M B) st r st' : bindM m f st = Ok (r, st') -> exists a st1, m st = Ok (a, st1) /\ f a st1 = Ok (r, st').
Proof. unfold bindM. destruct (m st) as [[a st1]| |] eqn:X; try discriminate. eauto. Qed.
(** what the header and the content hold *)
Lemma split_words E rec n (IH : forall n emb v, tr emb (rec v) (appear (text n emb v))) c d toc st h b st' :
  (0 <= r_list st)%Z -> emb_of st = false ->
  splitAndRender E rec c d toc st = Ok ((h, b), st') ->
  let manpage := String.eqb (getAsStringD (e_fmtv E) (r_attrs st) "doctype" "article") "manpage" in
  let els := rd_elements d in
  let body := bodyElements els in
  (if rc_wrap c then appear (first_words n manpage (headerTitle els) body) h /\ appear (body_words n manpage body (rd_notes d)) b
   else appear ((if manpage then first_words n manpage (headerTitle els) body else []) ++ body_words n manpage body (rd_notes d)) b)
  /\ emb_of st' = false /\ (0 <= r_list st')%Z.
Proof.
  intros L EM X. cbv zeta. unfold splitAndRender in X. unfold bindM at 1 in X. cbn [getAttrs] in X. unfold getD in X.
  destruct (String.eqb (getAsStringD (e_fmtv E) (r_attrs st) "doctype" "article") "manpage") eqn:MP.
  - destruct (bodyElements (rd_elements d)) as [|name rest] eqn:BE; [discriminate|]. cbn [first_words body_words tl]. destruct (rc_wrap c).
    + unfold bindM in X. destruct (renderManpageHeader _ _ _ _ _) as [[h0 st1]| |] eqn:H1; try discriminate.
      destruct (renderDocumentBody _ _ _ _ _ _) as [[b0 st2]| |] eqn:H2; try discriminate. inversion X; subst.
      destruct (tr_manpageHeader E rec IH n _ _ _ _ _ L EM H1) as (A1 & W1 & L1).
      assert (EM1 : emb_of st1 = false) by (unfold emb_of in *; now rewrite W1, L1).
      destruct (tr_body E rec IH n _ _ _ _ _ _ ltac:(rewrite L1; exact L) EM1 H2) as (A2 & W2 & L2).
      split; [auto|]. unfold emb_of in *. rewrite W2, L2, L1. rewrite L1 in EM1. auto.
    + unfold bindM in X. destruct (renderManpageHeader _ _ _ _ _) as [[h0 st1]| |] eqn:H1; try discriminate.
      destruct (renderDocumentBody _ _ _ _ _ _) as [[b0 st2]| |] eqn:H2; try discriminate. inversion X; subst.
      destruct (tr_manpageHeader E rec IH n _ _ _ _ _ L EM H1) as (A1 & W1 & L1).
      assert (EM1 : emb_of st1 = false) by (unfold emb_of in *; now rewrite W1, L1).
      destruct (tr_body E rec IH n _ _ _ _ _ _ ltac:(rewrite L1; exact L) EM1 H2) as (A2 & W2 & L2).
      split; [now apply appear_app|]. unfold emb_of in *. rewrite W2, L2, L1. rewrite L1 in EM1. auto.
  - apply bindM_ok in X as (h0 & st1 & H1 & X). apply bindM_ok in X as (b0 & st2 & H2 & X). inversion X; subst.
    assert (Q : appear (title_words n (headerTitle (rd_elements d))) h /\ r_within st1 = r_within st /\ r_list st1 = r_list st).
    { destruct (hasHeader (rd_elements d)) eqn:HH.
      - exact (tr_header E rec IH n _ _ _ _ L EM H1).
      - inversion H1; subst. unfold headerTitle. unfold hasHeader in HH. destruct (docHeader _); [discriminate|]. split; [exact Logic.I|auto]. }
    destruct Q as (A1 & W1 & L1).
    assert (EM1 : emb_of st1 = false) by (unfold emb_of in *; now rewrite W1, L1).
    destruct (tr_body E rec IH n _ _ _ _ _ _ ltac:(rewrite L1; exact L) EM1 H2) as (A2 & W2 & L2).
    cbn [first_words body_words app]. split; [destruct (rc_wrap c); auto|]. unfold emb_of in *. rewrite W2, L2, L1. rewrite L1 in EM1. auto.
Qed.

(** The words of a document are all in the output, in order; [a]: the attributes at the start of the rendering *)
Theorem C57_text_kept : forall E depth n c d attrs a out title attrs',
  renderAttrs (rd_elements d) attrs = Ok a ->
  render E depth c d attrs = Ok (out, title, attrs') ->
  (forall id v, mget (e_refs E) id = Some v -> silent v) ->
  let manpage := String.eqb (getAsStringD (e_fmtv E) a "doctype" "article") "manpage" in
  appear (page_words n (rc_wrap c) manpage (ahas attrs' "noheader") (headerTitle (rd_elements d)) (bodyElements (rd_elements d)) (rd_notes d)) out
  /\ appear (title_words n (headerTitle (rd_elements d))) title.
Proof.
  intros E depth n c d attrs a out title attrs' RA X SI. cbv zeta. unfold render in X. rewrite RA in X. cbn [bind] in X.
  set (E' := mkRenv _ _ _ _ _ _ _ _ _ _ _ _ _) in X.
  destruct (renderDocument E' _ c d _) as [[[o t] stf]| |] eqn:R; try discriminate. injection X as -> -> <-.
  unfold renderDocument in R. set (rec := renderElement E' depth) in *.
  assert (IH : forall n emb v, tr emb (rec v) (appear (text n emb v))) by (intros; apply tr_element).
  set (st0 := mkRst a [] false 0 []) in *.
  assert (L0 : (0 <= r_list st0)%Z) by (cbn; lia). assert (EM0 : emb_of st0 = false) by reflexivity.
  apply bindM_ok in R as (ti & st1 & H1 & R).
  assert (Q1 : appear (title_words n (headerTitle (rd_elements d))) ti /\ st1 = st0).
  { destruct (headerTitle (rd_elements d)) as [l|].
    - unfold lift in H1. destruct (renderPlainText E' (VSlice l)) as [s| |] eqn:P; inversion H1; subst. split; [|reflexivity].
      cbn [title_words]. unfold renderPlainText in P. change (texts (text n) false l) with (text (S n) false (InlinePassthrough "" l)). apply (plain_text E' (S (vsize (VSlice l))) (S n) false (Some escapeString) (InlinePassthrough "" l)). exact P.
    - inversion H1; subst. split; [exact Logic.I|reflexivity]. }
  destruct Q1 as [T1 ->].
  apply bindM_ok in R as (toc & st2 & H2 & R).
  assert (Q2 : (0 <= r_list st2)%Z /\ emb_of st2 = false /\ mget (r_attrs st2) "doctype" = mget a "doctype").
  { destruct (rd_toc d) as [l|]; [|inversion H2; subst; auto]. unfold bindM in H2.
    destruct (prerenderEntries E' rec l st0) as [[r1 s1]| |] eqn:P; try discriminate. inversion H2; subst.
    destruct (tr_entries E' rec IH l _ _ _ L0 EM0 P) as (_ & W & L). unfold emb_of. rewrite W, L. split; [exact L0|]. split; [exact EM0|].
    exact (KD_entries _ E' SI depth l _ _ _ P). }
  destruct Q2 as (L2 & EM2 & D2).
  apply bindM_ok in R as ([h b] & st3 & H3 & R).
  pose proof (split_words E' rec n IH c d toc st2 h b st3 L2 EM2 H3) as Q3. cbv zeta in Q3.
  replace (getAsStringD (e_fmtv E') (r_attrs st2) "doctype" "article") with (getAsStringD (e_fmtv E) a "doctype" "article") in Q3
    by (unfold getAsStringD; now rewrite D2).
  set (mp := String.eqb (getAsStringD (e_fmtv E) a "doctype" "article") "manpage") in *.
  destruct Q3 as (Q3 & EM3 & L3).
  apply bindM_ok in R as (roles & st4 & H4 & R). apply bindM_ok in R as (ctx & st5 & [= <- <-] & R). unfold page_words.
  destruct (rc_wrap c).
  - apply bindM_ok in R as (authors & st5 & H5 & R).
    assert (st5 = st4). { destruct (hasHeader _); unfold lift, ret in H5; [match type of H5 with match ?x with _ => _ end = _ => destruct x end|]; inversion H5; subst; auto. } subst st5.
    match type of R with context [exec ?e ?t ?fs] => set (F := fs) in R end.
    apply bindM_ok in R as (o & st6 & H6 & R). inversion R; subst o ti st6.
    assert (st4 = stf) by (unfold exec, lift in H6; destruct (execute _ _ _); inversion H6; auto). subst st4. split; [|exact T1].
    destruct Q3 as [A B].
    assert (T2 : appear (title_words n (headerTitle (rd_elements d))) (svalue F ".Title")).
    { change (svalue F ".Title") with (match headerTitle (rd_elements d) with Some _ => title | None => "Untitled" end).
      destruct (headerTitle (rd_elements d)); [exact T1|exact Logic.I]. }
    unfold exec, lift in H6. destruct (execute _ _ F) as [o| |] eqn:TE; inversion H6; subst o. unfold template in TE.
    destruct (ahas (r_attrs stf) "noheader") eqn:NH.
    + cbn [app]. rewrite <- (app_nil_r (body_words _ _ _ _)).
      eapply (appear_in [title_words n _; body_words n mp _ _] (map (svalue F) [".Title"; ".Content"])); [repeat constructor; assumption|].
      eapply template_shows; [|exact TE]. vm_compute. reflexivity.
    + rewrite <- (app_nil_r (body_words _ _ _ _)).
      eapply (appear_in [title_words n _; first_words n mp _ _; body_words n mp _ _] (map (svalue F) [".Title"; ".Header"; ".Content"])); [repeat constructor; assumption|].
      eapply (template_shows_if _ _ _ [".IncludeHTMLBodyHeader"]); [| |exact TE]; [vm_compute; reflexivity|].
      intros f [<-|[]]. exists (FB true). split; [|reflexivity]. reflexivity.
  - inversion R; subst. split; [|exact T1]. exact Q3.
Qed.
Print Assumptions C57_text_kept.

(** ** a document that meets the conditions, and its words *)
Lemma silent_intro v : ~ declares v "doctype" -> Forall silent (children v) -> silent v.
Proof. intros H F x X. inversion X as [|? c ? C]; subst; [exact H|]. rewrite Forall_forall in F. now apply (F c). Qed.
Lemma rich_silent x id v : mget (e_refs (rich_env x)) id = Some v -> silent v.
Proof.
  cbn [rich_env e_refs]. unfold rich_refs. intros H. apply mget_In in H.
  repeat (destruct H as [H|H]; [injection H as _ <-; repeat (apply silent_intro; [intros []|]; cbn [children app map snd]; repeat constructor)|]). destruct H.
Qed.
Theorem C57_example : forall x, exists out title attrs' a,
  renderAttrs (rd_elements rich_doc) (Some []) = Ok a /\
  render (rich_env x) 30 (mkRconf true "2026" ["style.css"]) rich_doc (Some []) = Ok (out, title, attrs') /\
  (forall id v, mget (e_refs (rich_env x)) id = Some v -> silent v) /\
  String.eqb (getAsStringD (e_fmtv (rich_env x)) a "doctype" "article") "manpage" = false /\
  page_words 10 true false (ahas attrs' "noheader") (headerTitle (rd_elements rich_doc)) (bodyElements (rd_elements rich_doc)) (rd_notes rich_doc) =
    ["Title"; "Title"; "One"; "bold"; "x"; "1"; "y"; "z"; "a"; "b"; "B"; "item"; "x.org"; "Two"; "T"; "h"; "c"; "N"; "F"; "q"; "me"; "note"].
Proof.
  intros x.
  assert (R : exists r, render (rich_env x) 30 (mkRconf true "2026" ["style.css"]) rich_doc (Some []) = Ok r /\ ahas (snd r) "noheader" = false)
    by (destruct x; eexists; vm_compute; split; reflexivity).
  destruct R as [[[o t] a] [R NH]]. cbn [snd] in NH. assert (A : exists a0, renderAttrs (rd_elements rich_doc) (Some []) = Ok a0 /\ mget a0 "doctype" = None)
    by (eexists; vm_compute; split; reflexivity). destruct A as (a0 & A & DT).
  exists o, t, a, a0. split; [exact A|]. split; [exact R|]. split; [apply rich_silent|]. split; [unfold getAsStringD; now rewrite DT|].
  rewrite NH. vm_compute. reflexivity.
Qed.

(** ** what is lost *)
Definition titled (l : list val) : val := Paragraph [("title", VStr "Lost")] l.
Definition kept_only (els : list val) : Prop := exists out, body [] els = Ok out /\ contains out "Lost" = false /\ contains out "Kept" = true.
Ltac lost := eexists; split; [vm_compute; reflexivity|]; split; vm_compute; reflexivity.
(** the title of a paragraph: that begins an item, inside of a fenced block, in the cell of a table, or of a passthrough paragraph or block *)
Theorem C57_item_title_refuted : kept_only [ListBlock "unordered_list" [] [UnorderedListElement "*" "nocheck" [] [titled [StringElement "Kept"]]]].
Proof. lost. Qed.
Theorem C57_fenced_title_refuted : kept_only [DelimitedBlock "fenced" [] [titled [StringElement "Kept"]]].
Proof. lost. Qed.
Theorem C57_cell_title_refuted : kept_only [Table [] VNil [TableRow [TableCell "" [titled [StringElement "Kept"]]]] VNil].
Proof. lost. Qed.
Theorem C57_pass_title_refuted :
  kept_only [Paragraph [("style", VStr "pass"); ("title", VStr "Lost")] [StringElement "Kept"]] /\
  kept_only [DelimitedBlock "pass" [("title", VStr "Lost")] [StringElement "Kept"]].
Proof. split; lost. Qed.
(** the title of an admonition without content *)
Theorem C57_admonition_title_refuted : kept_only [Paragraph [("style", VStr "NOTE"); ("title", VStr "Lost")] []; para [StringElement "Kept"]].
Proof. lost. Qed.
(** the header and the footer of a table without rows *)
Theorem C57_table_header_refuted :
  kept_only [Table [("title", VStr "Kept")] (TableRow [TableCell "" [para [StringElement "Lost"]]]) [] (TableRow [TableCell "" [para [StringElement "Lost"]]])].
Proof. lost. Qed.
(** the work quoted, when the author is an empty string *)
Theorem C57_work_refuted : kept_only [DelimitedBlock "quote" [("quoteAuthor", VStr ""); ("quoteTitle", VStr "Lost")] [para [StringElement "Kept"]]].
Proof. lost. Qed.
(** what follows the first paragraph of the NAME section of a manpage; and that whole section, in a page without header *)
Definition manpage : list val :=
  [DocumentHeader (Some [StringElement "Top"]) [] []; Section 1 [] (Some [StringElement "Name"]) [para [StringElement "First"]; para [StringElement "Lost"]]; para [StringElement "Kept"]].
Definition rendered_page (wrap : bool) (attrs : attributes) : result string :=
  do (p, a) <- render plain_env 30 (mkRconf wrap "2026" []) (mkRdoc manpage None []) (Some attrs); Ok (fst p).
Theorem C57_manpage_name_refuted : forall wrap, exists out,
  rendered_page wrap [("doctype", VStr "manpage")] = Ok out /\ contains out "First" = true /\ contains out "Lost" = false /\ contains out "Kept" = true.
Proof. intros []; eexists; (split; [vm_compute; reflexivity|]); repeat split; vm_compute; reflexivity. Qed.
Theorem C57_manpage_noheader_refuted : exists out,
  rendered_page true [("doctype", VStr "manpage"); ("noheader", VNil)] = Ok out /\ contains out "First" = false /\ contains out "Kept" = true.
Proof. eexists; (split; [vm_compute; reflexivity|]); repeat split; vm_compute; reflexivity. Qed.
