(** C29 (the whole output) and C58: the alphabet of the output. *)
From Verif Require Import GoBase Utf8 Types Attrs Toc Escape Ids Aggregate Templates Tmpl RenderAttrs Authors Render RenderKit HtmlSpec AlphaSpec AlphaOps AlphaRender P_Html.
Local Open Scope string_scope.

(** C58.  The renderer invents no characters: every byte of the output is a byte of the document (of its text, of its attributes, of the
    configuration), or printable ASCII, or a line feed.  Stated for any set of bytes that has printable ASCII and line feeds: if the document is
    written in it, so is the output, whatever the backend, with or without the surrounding page. *)
Theorem C58_no_invented_bytes : forall P E depth c d attrs out title attrs',
  alphabet P -> keeps false P E -> doc_in false P E c d -> attrs_in false P (e_fmtv E) attrs ->
  render E depth c d (Some attrs) = Ok (out, title, attrs') ->
  forall k b, String.get k out = Some b -> P b = true.
Proof.
  intros P E depth c d attrs out title attrs' HP K D A X. apply over_iff. eapply (render_over false); eauto. discriminate.
Qed.
(** C29.  When Unicode is off (attribute "unicode" of the value "false"), the output is pure ASCII, whatever the text of the document: only the strings
    that the renderer does not convert (attributes, link targets, passthroughs, source blocks, the title of the page...: see [written]) have to be ASCII. *)
Definition asciib (b : ascii) : bool := ((0 <? N_of_ascii b) && (N_of_ascii b <? 128))%N.
Lemma ascii_alphabet : alphabet asciib.
Proof.
  split; [|discriminate]. intros b H. unfold asciib. unfold basic in H. apply andb_true_iff. rewrite !N.ltb_lt. lia.
Qed.
Theorem C29_output_ascii : forall E depth c d attrs out title attrs',
  keeps true asciib E -> doc_in true asciib E c d -> attrs_in true asciib (e_fmtv E) attrs ->
  render E depth c d (Some attrs) = Ok (out, title, attrs') ->
  forall k b, String.get k out = Some b -> (N_of_ascii b < 128)%N.
Proof.
  intros E depth c d attrs out title attrs' K D A X k b G.
  assert (O : over asciib out).
  { eapply (render_over true); eauto; [exact ascii_alphabet|]. intros _ n H. unfold asciib. apply andb_true_iff. rewrite !N.ltb_lt. unfold chr. rewrite N_ascii_embedding; lia. }
  apply over_iff with (k := k) (c := b) in O; [|exact G]. unfold asciib in O. apply andb_true_iff in O. rewrite !N.ltb_lt in O. lia.
Qed.

(** ** documents that meet the conditions *)
Lemma in_intro conv P f v : written conv P f v -> Forall (in_alphabet conv P f) (children v) -> in_alphabet conv P f v.
Proof. intros H F x X. inversion X as [|? c ? C]; subst; [exact H|]. rewrite Forall_forall in F. now apply (F c). Qed.
Ltac inn := repeat match goal with
  | |- in_alphabet _ _ _ _ => apply in_intro
  | |- Forall _ (children _) => cbn [children app map snd]
  | |- Forall _ [] => constructor
  | |- Forall _ (_ :: _) => constructor
  end.
Ltac wri := cbn [written au_email au_name fn_first fn_middle fn_last rev_number rev_date rev_remark stringify]; unfold styled, raw_text;
  try exact Logic.I; try reflexivity; try (left; reflexivity); try (right; reflexivity);
  repeat split; try reflexivity; try discriminate; try (intros [X|X]; discriminate X); try (intros _ _ s [[= <-]|[[=]|[]]]; reflexivity);
  try (intros s [[= <-]|[]]; reflexivity); auto.
Lemma rich_keeps conv P x : alphabet P -> keeps conv P (rich_env x).
Proof.
  intros HP. assert (K : forall s, all_chars basicb s = true -> over P s) by apply (W_const P HP).
  constructor; cbn [rich_env e_toLower e_fmtv e_columns e_src e_alt e_iconpath e_macro e_raw e_highlight e_refs]; intros; try assumption; try (apply K; reflexivity); try discriminate.
  - injection H0 as <-. repeat constructor; apply K; reflexivity.
  - injection H0 as <-. apply K. reflexivity.
  - injection H0 as <-. apply K. reflexivity.
  - unfold rich_refs in H. apply mget_In in H. repeat (destruct H as [H|H]; [injection H as _ <-; inn; wri; right; apply K; reflexivity|]). destruct H.
  - unfold rich_refs in H. apply mget_In in H. repeat (destruct H as [H|H]; [injection H as _ <-; repeat (destruct H0 as [H0|H0]; [discriminate H0|]); destruct H0|]). destruct H.
Qed.
(** the document of C55, with titles, lists, tables, notes, is written in printable ASCII and line feeds; so are the pages made of it *)
Lemma rich_in x c : over basicb (rc_updated c) -> Forall (over basicb) (rc_css c) -> doc_in false basicb (rich_env x) c rich_doc.
Proof.
  intros HU HC. constructor; [| | |exact HU|exact HC|].
  - cbn [rich_doc rd_elements rich_env e_fmtv]. unfold para. inn; wri.
    repeat (constructor; [repeat split; reflexivity|]). constructor.
  - cbn [rich_doc rd_notes]. inn; wri.
  - intros l [= <-]. repeat constructor.
  - intros _ l [= <-] v s [<-|[<-|[]]] O; inversion O; subst; cbn [children] in *; try contradiction; reflexivity.
Qed.
Lemma basic_alphabet : alphabet basicb.
Proof. split; [|discriminate]. intros b H. unfold basicb. unfold basic in H. rewrite orb_true_iff, andb_true_iff, !N.leb_le, N.eqb_eq. exact H. Qed.
Theorem C58_example : forall x, exists out title attrs',
  alphabet basicb /\ keeps false basicb (rich_env x) /\ doc_in false basicb (rich_env x) (mkRconf true "2026" ["style.css"]) rich_doc /\
  attrs_in false basicb (e_fmtv (rich_env x)) [] /\
  render (rich_env x) 30 (mkRconf true "2026" ["style.css"]) rich_doc (Some []) = Ok (out, title, attrs').
Proof.
  intros x.
  assert (R : exists r, render (rich_env x) 30 (mkRconf true "2026" ["style.css"]) rich_doc (Some []) = Ok r) by (destruct x; eexists; vm_compute; reflexivity).
  destruct R as [[[o t] a] R]. exists o, t, a. split; [apply basic_alphabet|]. split; [apply rich_keeps, basic_alphabet|].
  split; [apply rich_in; [reflexivity|repeat constructor]|]. split; [|exact R]. split; [intros v []|discriminate].
Qed.

(** text in many places, none of it ASCII *)
Definition eacute : string := encode_rune 233%N.
Definition accents : rdoc := mkRdoc
  [DocumentHeader (Some [StringElement "Title"]) [] [];
   Section 1 [("id", VStr "_one")] (Some [StringElement eacute; QuotedText "*" [StringElement eacute] []])
     [para [StringElement eacute; QuotedText "_" [QuotedText "*" [StringElement eacute] []] []; FootnoteReference 1 VNil false];
      ListBlock "labeled_list" [] [LabeledListElement "::" [StringElement eacute] [] [para [StringElement eacute]]];
      ListBlock "unordered_list" [] [UnorderedListElement "*" "nocheck" [] [para [StringElement eacute]]];
      Table [("title", VSlice [StringElement eacute])] VNil [TableRow [TableCell "" [para [StringElement eacute]]]] VNil;
      DelimitedBlock "listing" [("title", VSlice [StringElement eacute])] [StringElement eacute];
      DelimitedBlock "quote" [] [para [InlineLink [("text", VSlice [StringElement eacute])] (Location "https://" (VStr "x.org"))]]]]
  None [Footnote 1 VNil [StringElement eacute]].
Definition ascii_attrs : attributes := [("unicode", VStr "false")].
Theorem C29_example : forall x, exists out title attrs',
  keeps true asciib (rich_env x) /\ doc_in true asciib (rich_env x) (mkRconf true "2026" []) accents /\ attrs_in true asciib (e_fmtv (rich_env x)) ascii_attrs /\
  render (rich_env x) 30 (mkRconf true "2026" []) accents (Some ascii_attrs) = Ok (out, title, attrs').
Proof.
  intros x.
  assert (R : exists r, render (rich_env x) 30 (mkRconf true "2026" []) accents (Some ascii_attrs) = Ok r) by (destruct x; eexists; vm_compute; reflexivity).
  destruct R as [[[o t] a] R]. exists o, t, a. split; [apply rich_keeps, ascii_alphabet|]. split; [|split; [|exact R]].
  - constructor; [| | |reflexivity|constructor|].
    + cbn [accents rd_elements rich_env e_fmtv]. unfold para. inn; wri.
    + cbn [accents rd_notes]. inn; wri.
    + discriminate.
    + intros _ l [= <-] v s [<-|[]] O; inversion O; subst; cbn [children] in *; try contradiction; reflexivity.
  - split; [|reflexivity]. intros v [<-|[]]. inn; wri.
Qed.
(** the same document with Unicode is not ASCII *)
Definition rendered (attrs : attributes) (wrap : bool) (l : list val) : result string :=
  do (p, a) <- render plain_env 30 (mkRconf wrap "2026" []) (page l) (Some attrs); Ok (fst p).
Ltac not_ascii := eexists; split; [vm_compute; reflexivity|]; intro; discriminate.
Theorem C29_unicode_kept : exists out, rendered [] false (rd_elements accents) = Ok out /\ ~ over asciib out.
Proof. not_ascii. Qed.

(** ** where the text is not converted: each exception of [written] is needed *)
Theorem C29_page_title_refuted : exists out, rendered ascii_attrs true [DocumentHeader (Some [StringElement eacute]) [] []] = Ok out /\ ~ over asciib out.
Proof. not_ascii. Qed.
Theorem C29_passthrough_refuted : exists out, rendered ascii_attrs false [para [InlinePassthrough "+" [StringElement eacute]]] = Ok out /\ ~ over asciib out.
Proof. not_ascii. Qed.
Theorem C29_verse_refuted : exists out, rendered ascii_attrs false [Paragraph [("style", VStr "verse")] [StringElement eacute]] = Ok out /\ ~ over asciib out.
Proof. not_ascii. Qed.
Theorem C29_link_text_refuted : exists out,
  rendered ascii_attrs false [para [InlineLink [("text", VStr eacute)] (Location "https://" (VStr "x.org"))]] = Ok out /\ ~ over asciib out.
Proof. not_ascii. Qed.
(** a NUL byte in an id: the output has bytes that the document does not have *)
Definition is_nul_or_ascii (b : ascii) : bool := (N_of_ascii b <? 128)%N.
Theorem C58_nul_refuted : exists out,
  rendered [] false [Paragraph [("id", VStr (String (chr 0) ""))] [StringElement "a"]] = Ok out /\ ~ over is_nul_or_ascii out.
Proof. not_ascii. Qed.

Print Assumptions C58_no_invented_bytes.
Print Assumptions C29_output_ascii.
