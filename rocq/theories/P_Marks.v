(** C59: the ids and the links of the document are in the output. *)
From Verif Require Import GoBase GoLemmas Types Attrs AttrLemmas Aggregate Toc TocRender Escape Ids Footnotes Templates Tmpl HtmlTmpl RenderAttrs Render RenderKit
  RenderStateSpec RenderState TextSpec TextTmpl TextWords TextDocSpec TextRender MarkSpec MarkOps MarkRender P_Html P_Text.

(** Every id and link of an element (of any size and depth) is in what is rendered. *)
Theorem C59_element : forall E depth n v st out st', (0 <= r_list st)%Z ->
  renderElement E depth v st = Ok (out, st') -> has (marks (e_toLower E) n (r_within st || (0 <? r_list st)%Z) v) out.
Proof. intros E depth n v st out st' L X. exact (proj1 (mr_element E depth n _ v st out st' L eq_refl X)). Qed.
Print Assumptions C59_element.

(** ** documents *)
Lemma split_marks E rec n (IH : forall n emb v, tr emb (rec v) (has (marks (e_toLower E) n emb v))) (IHt : forall n emb v, tr emb (rec v) (appear (text n emb v))) c d toc st h b st' :
  (0 <= r_list st)%Z -> emb_of st = false ->
  splitAndRender E rec c d toc st = Ok ((h, b), st') ->
  let manpage := String.eqb (getAsStringD (e_fmtv E) (r_attrs st) "doctype" "article") "manpage" in
  let els := rd_elements d in
  let body := bodyElements els in
  if rc_wrap c then has (first_marks (e_toLower E) n manpage (headerTitle els) body) h /\ has (body_marks (e_toLower E) n manpage body (rd_notes d)) b
  else has ((if manpage then first_marks (e_toLower E) n manpage (headerTitle els) body else []) ++ body_marks (e_toLower E) n manpage body (rd_notes d)) b.
Proof.
  intros L EM X. cbv zeta. unfold splitAndRender in X. unfold bindM at 1 in X. cbn [getAttrs] in X. unfold getD in X.
  assert (EM1 : forall st1, r_within st1 = r_within st -> r_list st1 = r_list st -> emb_of st1 = false) by (intros st1 W1 L1; unfold emb_of in *; now rewrite W1, L1).
  destruct (String.eqb (getAsStringD (e_fmtv E) (r_attrs st) "doctype" "article") "manpage") eqn:MP.
  - destruct (bodyElements (rd_elements d)) as [|name rest] eqn:BE; [discriminate|]. cbn [first_marks body_marks tl]. destruct (rc_wrap c).
    + apply bindM_ok in X as (h0 & st1 & H1 & X). apply bindM_ok in X as (b0 & st2 & H2 & X). inversion X; subst.
      destruct (mr_manpageHeader E rec IH IHt n _ _ _ _ _ L EM H1) as (A1 & W1 & L1).
      destruct (mr_body E rec IH IHt n _ _ _ _ _ _ ltac:(rewrite L1; exact L) (EM1 _ W1 L1) H2) as (A2 & _). auto.
    + apply bindM_ok in X as (h0 & st1 & H1 & X). apply bindM_ok in X as (b0 & st2 & H2 & X). inversion X; subst.
      destruct (mr_manpageHeader E rec IH IHt n _ _ _ _ _ L EM H1) as (A1 & W1 & L1).
      destruct (mr_body E rec IH IHt n _ _ _ _ _ _ ltac:(rewrite L1; exact L) (EM1 _ W1 L1) H2) as (A2 & _). now apply has_cat.
  - apply bindM_ok in X as (h0 & st1 & H1 & X). apply bindM_ok in X as (b0 & st2 & H2 & X). inversion X; subst.
    assert (Q : has (header_marks (e_toLower E) n (headerTitle (rd_elements d))) h /\ r_within st1 = r_within st /\ r_list st1 = r_list st).
    { destruct (hasHeader (rd_elements d)) eqn:HH.
      - exact (mr_header E rec IH n _ _ _ _ L EM H1).
      - inversion H1; subst. unfold headerTitle. unfold hasHeader in HH. destruct (docHeader _); [discriminate|]. split; [apply has_nil|auto]. }
    destruct Q as (A1 & W1 & L1).
    destruct (mr_body E rec IH IHt n _ _ _ _ _ _ ltac:(rewrite L1; exact L) (EM1 _ W1 L1) H2) as (A2 & _).
    cbn [first_marks body_marks app]. destruct (rc_wrap c); auto.
Qed.

(** The ids and the links of a document are all in the output; [a]: the attributes at the start of the rendering *)
Theorem C59_marks_shown : forall E depth n c d attrs a out title attrs',
  renderAttrs (rd_elements d) attrs = Ok a ->
  render E depth c d attrs = Ok (out, title, attrs') ->
  (forall id v, mget (e_refs E) id = Some v -> silent v) ->
  let manpage := String.eqb (getAsStringD (e_fmtv E) a "doctype" "article") "manpage" in
  has (page_marks (e_toLower E) n (rc_wrap c) manpage (ahas attrs' "noheader") (headerAttrs (rd_elements d)) (headerTitle (rd_elements d)) (bodyElements (rd_elements d)) (rd_notes d)) out.
Proof.
  intros E depth n c d attrs a out title attrs' RA X SI. cbv zeta. unfold render in X. rewrite RA in X. cbn [bind] in X.
  set (E' := mkRenv _ _ _ _ _ _ _ _ _ _ _ _ _) in X. change (e_toLower E) with (e_toLower E').
  destruct (renderDocument E' _ c d _) as [[[o t] stf]| |] eqn:R; try discriminate. injection X as -> -> <-.
  unfold renderDocument in R. set (rec := renderElement E' depth) in *.
  assert (IHt : forall n emb v, tr emb (rec v) (appear (text n emb v))) by (intros; apply tr_element).
  assert (IH : forall n emb v, tr emb (rec v) (has (marks (e_toLower E') n emb v))) by (intros; apply mr_element).
  set (st0 := mkRst a [] false 0 []) in *.
  assert (L0 : (0 <= r_list st0)%Z) by (cbn; lia). assert (EM0 : emb_of st0 = false) by reflexivity.
  apply bindM_ok in R as (ti & st1 & H1 & R).
  assert (Q1 : st1 = st0).
  { destruct (headerTitle (rd_elements d)) as [l|]; [unfold lift in H1; destruct (renderPlainText E' (VSlice l))|]; inversion H1; auto. }
  subst st1. apply bindM_ok in R as (toc & st2 & H2 & R).
  assert (Q2 : (0 <= r_list st2)%Z /\ emb_of st2 = false /\ mget (r_attrs st2) "doctype" = mget a "doctype").
  { destruct (rd_toc d) as [l|]; [|inversion H2; subst; auto]. unfold bindM in H2.
    destruct (prerenderEntries E' rec l st0) as [[r1 s1]| |] eqn:P; try discriminate. inversion H2; subst.
    destruct (tr_entries E' rec IHt l _ _ _ L0 EM0 P) as (_ & W & L). unfold emb_of. rewrite W, L. split; [exact L0|]. split; [exact EM0|].
    exact (KD_entries _ E' SI depth l _ _ _ P). }
  destruct Q2 as (L2 & EM2 & D2).
  apply bindM_ok in R as ([h b] & st3 & H3 & R).
  pose proof (split_marks E' rec n IH IHt c d toc st2 h b st3 L2 EM2 H3) as Q3. cbv zeta in Q3.
  replace (getAsStringD (e_fmtv E') (r_attrs st2) "doctype" "article") with (getAsStringD (e_fmtv E) a "doctype" "article") in Q3
    by (unfold getAsStringD; now rewrite D2).
  set (mp := String.eqb (getAsStringD (e_fmtv E) a "doctype" "article") "manpage") in *.
  apply bindM_ok in R as (roles & st4 & H4 & R). apply bindM_ok in R as (ctx & st5 & [= <- <-] & R). unfold page_marks.
  destruct (rc_wrap c); [|inversion R; subst; exact Q3].
  apply bindM_ok in R as (authors & st5 & H5 & R).
  assert (st5 = st4). { destruct (hasHeader _); unfold lift, ret in H5; [match type of H5 with match ?x with _ => _ end = _ => destruct x end|]; inversion H5; subst; auto. } subst st5.
  match type of R with context [exec ?e ?t ?fs] => set (F := fs) in R end.
  apply bindM_ok in R as (o & st6 & H6 & R). inversion R; subst o ti st6.
  assert (st4 = stf) by (unfold exec, lift in H6; destruct (execute _ _ _); inversion H6; auto). subst st4.
  destruct Q3 as [A B].
  assert (H7 : exec E' TArticle F st0 = Ok (out, st0)) by (unfold exec, lift in *; destruct (execute _ _ F); inversion H6; auto).
  assert (HF : tr false (exec E' TArticle F) (has (id_mark (headerAttrs (rd_elements d)) ++ (if ahas (r_attrs stf) "noheader" then [] else first_marks (e_toLower E') n mp (headerTitle (rd_elements d)) (bodyElements (rd_elements d))) ++
       body_marks (e_toLower E') n mp (bodyElements (rd_elements d)) (rd_notes d)))).
    { apply tr_has; [|apply tr_has].
      - apply tr_id; [vm_compute; reflexivity|]. unfold F. cbn [mget String.eqb Ascii.eqb Bool.eqb fst snd]. unfold headerAttrs, hasHeader. destruct (docHeader _); reflexivity.
      - destruct (ahas (r_attrs stf) "noheader") eqn:NH; [apply tr_none, tr_exec0|].
        eapply (tr_field_if E' _ _ _ [".IncludeHTMLBodyHeader"] ".Header"); [vm_compute; reflexivity| |exact A]. intros f [<-|[]]. exists (FB true). split; [|reflexivity]. reflexivity.
      - eapply (tr_field E' _ _ _ ".Content"); [vm_compute; reflexivity|exact B]. }
  exact (proj1 (HF _ _ _ L0 EM0 H7)).
Qed.
Print Assumptions C59_marks_shown.

(** ** consequences *)
(** every footnote of the document is linked in both directions *)
Lemma has_in l m out : has l out -> In m l -> part m out.
Proof. unfold has. rewrite Forall_forall. auto. Qed.
Corollary C59_footnote_shown : forall E depth c d attrs a out title attrs' id ref es,
  renderAttrs (rd_elements d) attrs = Ok a ->
  render E depth c d attrs = Ok (out, title, attrs') ->
  (forall id v, mget (e_refs E) id = Some v -> silent v) ->
  In (Footnote id ref es) (rd_notes d) ->
  part (quoted "id" ("_footnotedef_" ++ itoa id)) out /\ part (quoted "href" ("#_footnoteref_" ++ itoa id)) out.
Proof.
  intros E depth c d attrs a out title attrs' id ref es RA X SI I. pose proof (C59_marks_shown E depth 1 c d attrs a out title attrs' RA X SI) as H. cbv zeta in H.
  assert (B : forall mp, incl (note_marks id) (body_marks (e_toLower E) 1 mp (bodyElements (rd_elements d)) (rd_notes d))).
  { intros mp m M. apply in_or_app. right. unfold part_marks. apply in_flat_map. exists (Footnote id ref es). split; [exact I|]. cbn [marks]. apply in_or_app. now left. }
  split; (eapply has_in; [exact H|]); unfold page_marks; destruct (rc_wrap c); rewrite !in_app_iff; repeat right; apply B; [now left|now left|right; now left|right; now left].
Qed.
(** where the section is: at the top of the body, or in a section that is in the body *)
Inductive section_of (l : list val) : val -> Prop :=
| so_here v : In v l -> section_of l v
| so_in level attrs title es v : section_of l (Section level attrs title es) -> In v es -> section_of l v.
Lemma section_marks low l v : section_of l v -> forall n m, In m (marks low n false v) -> exists k, In m (part_marks (marks low k) false l).
Proof.
  induction 1 as [v I|level attrs title es v SO IH I]; intros n m M.
  - exists n. unfold part_marks. apply in_flat_map. eauto.
  - apply (IH (S n) m). cbn [marks]. rewrite !in_app_iff. right. right. unfold part_marks. apply in_flat_map. eauto.
Qed.
(** the elements of a section, or of the body, are shown with their ids and links, however deep the section is (for documents other than manpages) *)
Corollary C59_section_element : forall E depth n c d attrs a out title attrs' v m,
  renderAttrs (rd_elements d) attrs = Ok a ->
  render E depth c d attrs = Ok (out, title, attrs') ->
  (forall id v, mget (e_refs E) id = Some v -> silent v) ->
  getAsStringD (e_fmtv E) a "doctype" "article" <> "manpage" ->
  section_of (bodyElements (rd_elements d)) v -> In m (marks (e_toLower E) n false v) -> part m out.
Proof.
  intros E depth n c d attrs a out title attrs' v m RA X SI DT SO M. destruct (section_marks _ _ _ SO _ _ M) as [k K].
  pose proof (C59_marks_shown E depth k c d attrs a out title attrs' RA X SI) as H. cbv zeta in H.
  destruct (String.eqb_spec (getAsStringD (e_fmtv E) a "doctype" "article") "manpage") as [|_]; [contradiction|].
  eapply has_in; [exact H|]. unfold page_marks, body_marks. destruct (rc_wrap c); rewrite !in_app_iff; auto.
Qed.
(** a cross reference to a section reaches its heading: the same string follows the "#" of the link and is the id of the heading *)
Corollary C59_xref_resolved : forall E depth c d attrs a out title attrs' level sattrs stitle es id pattrs pes label,
  renderAttrs (rd_elements d) attrs = Ok a ->
  render E depth c d attrs = Ok (out, title, attrs') ->
  (forall id v, mget (e_refs E) id = Some v -> silent v) ->
  getAsStringD (e_fmtv E) a "doctype" "article" <> "manpage" ->
  section_of (bodyElements (rd_elements d)) (Section level sattrs stitle es) -> mget sattrs "id" = Some (VStr id) -> all_kept id = true ->
  section_of (bodyElements (rd_elements d)) (Paragraph pattrs pes) -> mget pattrs "style" = None -> In (InternalCrossReference (VStr id) label) pes ->
  plain_value (e_toLower E id) = true ->
  part (quoted "id" (e_toLower E id)) out /\ part (quoted "href" ("#" ++ e_toLower E id)) out.
Proof.
  intros E depth c d attrs a out title attrs' level sattrs stitle es id pattrs pes label RA X SI DT S1 ID AK S2 ST I PV. split.
  - apply (C59_section_element E depth 1 c d attrs a out title attrs' (Section level sattrs stitle es)); try assumption. cbn [marks]. rewrite ID, AK. unfold mark. rewrite PV. now left.
  - apply (C59_section_element E depth 2 c d attrs a out title attrs' (Paragraph pattrs pes)); try assumption. cbn [marks]. unfold paragraph_marks, styled. rewrite ST. cbn [orb]. rewrite !in_app_iff. right. right.
    unfold part_marks. apply in_flat_map. exists (InternalCrossReference (VStr id) label). split; [exact I|]. cbn [marks]. unfold prefixed. rewrite PV. now left.
Qed.
Print Assumptions C59_xref_resolved.

(** ** a document that meets the conditions, and its marks *)
Theorem C59_example : forall x, exists out title attrs' a,
  renderAttrs (rd_elements rich_doc) (Some []) = Ok a /\
  render (rich_env x) 30 (mkRconf true "2026" ["style.css"]) rich_doc (Some []) = Ok (out, title, attrs') /\
  (forall id v, mget (e_refs (rich_env x)) id = Some v -> silent v) /\
  getAsStringD (e_fmtv (rich_env x)) a "doctype" "article" <> "manpage" /\
  page_marks (e_toLower (rich_env x)) 10 true false (ahas attrs' "noheader") (headerAttrs (rd_elements rich_doc)) (headerTitle (rd_elements rich_doc)) (bodyElements (rd_elements rich_doc)) (rd_notes rich_doc) =
    ["id=""_title"""; "id=""_one"""; "href=""#_two"""; "id=""_footnoteref_1"""; "href=""#_footnotedef_1"""; "href=""https://x.org"""; "id=""_two""";
     "id=""_footnotedef_1"""; "href=""#_footnoteref_1"""].
Proof.
  intros x.
  assert (R : exists r, render (rich_env x) 30 (mkRconf true "2026" ["style.css"]) rich_doc (Some []) = Ok r /\ ahas (snd r) "noheader" = false)
    by (destruct x; eexists; vm_compute; split; reflexivity).
  destruct R as [[[o t] a] [R NH]]. cbn [snd] in NH. assert (A : exists a0, renderAttrs (rd_elements rich_doc) (Some []) = Ok a0 /\ mget a0 "doctype" = None)
    by (eexists; vm_compute; split; reflexivity). destruct A as (a0 & A & DT).
  exists o, t, a, a0. split; [exact A|]. split; [exact R|]. split; [apply rich_silent|]. split; [unfold getAsStringD; rewrite DT; discriminate|].
  rewrite NH. vm_compute. reflexivity.
Qed.

(** ** what is lost *)
Definition marked (l : list val) : val := Paragraph [("id", VStr "lost")] l.
Definition id_lost (els : list val) : Prop := exists out, body [] els = Ok out /\ contains out "lost" = false /\ contains out "Kept" = true.
(** the id of a paragraph: that begins an item, inside of a fenced block, in the cell of a table, or of a passthrough paragraph or block *)
Theorem C59_item_id_refuted : id_lost [ListBlock "unordered_list" [] [UnorderedListElement "*" "nocheck" [] [marked [StringElement "Kept"]]]].
Proof. lost. Qed.
Theorem C59_fenced_id_refuted : id_lost [DelimitedBlock "fenced" [] [marked [StringElement "Kept"]]].
Proof. lost. Qed.
Theorem C59_cell_id_refuted : id_lost [Table [] VNil [TableRow [TableCell "" [marked [StringElement "Kept"]]]] VNil].
Proof. lost. Qed.
Theorem C59_pass_id_refuted :
  id_lost [Paragraph [("style", VStr "pass"); ("id", VStr "lost")] [StringElement "Kept"]] /\
  id_lost [DelimitedBlock "pass" [("id", VStr "lost")] [StringElement "Kept"]].
Proof. split; lost. Qed.
(** the id of an inline image, and the ids and links in a verse paragraph *)
Theorem C59_inline_image_id_refuted : id_lost [para [StringElement "Kept"; InlineImage (Location "" (VStr "a.png")) [("id", VStr "lost"); ("alt", VStr "an image")]]].
Proof. lost. Qed.
Theorem C59_verse_refuted : id_lost [Paragraph [("style", VStr "verse")] [QuotedText "*" [StringElement "Kept"] [("id", VStr "lost")]]].
Proof. lost. Qed.
(** strings.ToLower, for ASCII *)
Definition lower_byte (c : ascii) : ascii := let n := N_of_ascii c in if ((65 <=? n) && (n <=? 90))%N then ascii_of_N (n + 32) else c.
Fixpoint lower_ascii (s : string) : string := match s with EmptyString => "" | String c r => String (lower_byte c) (lower_ascii r) end.
Definition lower_env : renv := mkRenv (e_xhtml plain_env) lower_ascii (e_fmtv plain_env) (e_columns plain_env) (e_src plain_env) (e_alt plain_env) (e_iconpath plain_env)
  (e_macro plain_env) (e_raw plain_env) (e_highlight plain_env) (e_refs plain_env) [] false.
(** a cross reference to an element other than a section whose id has capital letters leads nowhere: the link is written in lower case, not the id *)
Theorem C59_capital_id_refuted : exists out title attrs',
  render lower_env 30 (mkRconf false "2026" []) (page [Paragraph [("id", VStr "Here")] [StringElement "target"]; para [InternalCrossReference (VStr "Here") (VStr "see")]]) (Some []) = Ok (out, title, attrs')
  /\ contains out "id=""Here""" = true /\ contains out "href=""#here""" = true /\ contains out "id=""here""" = false /\ contains out "href=""#Here""" = false.
Proof. do 3 eexists. split; [vm_compute; reflexivity|]. repeat split; vm_compute; reflexivity. Qed.
(** while a section can be reached: both are written in lower case *)
Theorem C59_capital_section : exists out title attrs',
  render lower_env 30 (mkRconf false "2026" []) (page [Section 1 [("id", VStr "Here")] (Some [StringElement "target"]) [para [InternalCrossReference (VStr "Here") (VStr "see")]]]) (Some []) = Ok (out, title, attrs')
  /\ contains out "id=""here""" = true /\ contains out "href=""#here""" = true.
Proof. do 3 eexists. split; [vm_compute; reflexivity|]. repeat split; vm_compute; reflexivity. Qed.
