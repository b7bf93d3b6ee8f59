(** C55: the output is well-formed markup. *)
From Verif Require Import GoBase Types Attrs Toc Escape Ids Aggregate Templates Tmpl RenderAttrs Authors Render RenderKit HtmlSpec HtmlMachine HtmlOps HtmlTmpl HtmlDocSpec HtmlRender.
Local Open Scope string_scope.

(** Every tag that the renderer opens is closed, in the right order, and no value of an attribute breaks out of its quotes:
    whatever the document (of any size and depth), whatever the two backends, with or without the surrounding page.  The conditions
    on the document ([doc_ok], [attrs_ok]) and on the other packages ([sane]) are in HtmlDocSpec.v. *)
Theorem C55_well_formed : forall E depth c d attrs out title attrs',
  sane E -> doc_ok E c d -> attrs_ok (e_fmtv E) attrs -> render E depth c d (Some attrs) = Ok (out, title, attrs') ->
  if rc_wrap c then exists body, out = "<!DOCTYPE html>" ++ LF ++ body /\ wf body else wf out.
Proof.
  intros E depth c d attrs out title attrs' S D A X. pose proof (render_wf E depth c d attrs out title attrs' S D A X) as H.
  destruct (rc_wrap c); [|exact H]. destruct H as (b & -> & B). exists b. split; [apply app_assoc_s|exact B].
Qed.
(** The same for any element rendered on its own (a list item, the cell of a table, a title...). *)
Theorem C55_elements_well_formed : forall E depth v st out st',
  sane E -> (forall k n, mget (e_numbers E) k = Some n -> safe n) -> benign (e_fmtv E) v -> attrs_ok (e_fmtv E) (r_attrs st) -> (0 <= r_list st)%Z ->
  renderElement E depth v st = Ok (out, st') -> wf out.
Proof. intros E depth v st out st' S N V A L X. apply wf_bal. exact (proj2 (proj2 (t_element E S N depth v V st out st' (conj A L) X))). Qed.

(** ** a document that meets the conditions *)
Definition rich_refs : gomap val := [("_one", VSlice [StringElement "One"; QuotedText "*" [StringElement "bold"] []]); ("_two", VSlice [StringElement "Two"])].
Definition rich_env (x : bool) : renv :=
  mkRenv x (fun s => s) (fun _ => "") (fun _ => Ok [mkRcol "<" "^" "50" "d"; mkRcol ">" "<" "50" "h"]) (fun _ _ => "a.png") (fun _ => Ok "a")
         (fun _ s => s) (fun _ => None) (fun _ => "raw") (fun _ _ _ _ => Ok "<span class=""k"">if</span>") rich_refs [] false.
Definition para (l : list val) : val := Paragraph [] l.
Definition rich_doc : rdoc := mkRdoc
  [DocumentHeader (Some [StringElement "Title "; SpecialCharacter "&"]) [("id", VStr "_title")]
     [AttributeDeclaration "authors" (VAuthors [mkAuthor (Some (mkFullName "Jane" "" "Doe")) "j@x.org"; mkAuthor (Some (mkFullName "Bob" "B." "")) ""]);
      AttributeDeclaration "revision" (VRevision (mkRevision "1.0" "2026" ""));
      AttributeDeclaration "icons" (VStr "font"); AttributeDeclaration "toc" VNil; AttributeDeclaration "sectnums" VNil];
   Section 1 [("id", VStr "_one"); ("roles", VRoles [VStr "r"])] (Some [StringElement "One"; QuotedText "*" [StringElement "bold"] []])
     [para [StringElement ("x > 1" ++ LF ++ "y ""z"""); InternalCrossReference (VStr "_two") VNil; FootnoteReference 1 VNil false];
      ListBlock "labeled_list" [("style", VStr "horizontal")]
        [LabeledListElement "::" [StringElement "a"] [] []; LabeledListElement "::" [StringElement "b"] [] [para [StringElement "B"]]];
      ListBlock "unordered_list" [] [UnorderedListElement "*" "nocheck" [] [para [StringElement "item"; Icon "tip" []];
        ListBlock "ordered_list" [] [OrderedListElement "arabic" [] [para [InlineLink [] (Location "https://" (VStr "x.org"))]]]]];
      Section 2 [("id", VStr "_two")] (Some [StringElement "Two"])
        [Table [("title", VStr "T")] (TableRow [TableCell "" [para [StringElement "h"]]]) [TableRow [TableCell "" [para [StringElement "c"]]; TableCell "" []]] VNil;
         DelimitedBlock "listing" [("style", VStr "source"); ("language", VStr "go"); ("source-highlighter", VStr "chroma")] [StringElement "if"; Callout 1];
         DelimitedBlock "example" [("style", VStr "NOTE"); ("title", VSlice [StringElement "N"])] [para [Symbol "(C)"]];
         ImageBlock (Location "" (VStr "a.png")) [("title", VStr "F"); ("alt", VStr "an image")];
         DelimitedBlock "quote" [("quoteAuthor", VStr "me")] [para [InlinePassthrough "+" [StringElement "q"]]]]]]
  (Some [TocSec "_one" 1 [TocSec "_two" 2 []]]) [Footnote 1 VNil [StringElement "note"]].

Lemma benign_intro f v : local f v -> Forall (benign f) (children v) -> benign f v.
Proof. intros H F x X. inversion X as [|? c ? C]; subst; [exact H|]. rewrite Forall_forall in F. now apply (F c). Qed.
Ltac ben := repeat match goal with
  | |- benign _ _ => apply benign_intro
  | |- Forall _ (children _) => cbn [children app map snd]
  | |- Forall _ [] => constructor
  | |- Forall _ (_ :: _) => constructor
  end.
Ltac loc := cbn [local au_email au_name fn_first fn_middle fn_last rev_number rev_date rev_remark stringify]; try exact I; try reflexivity;
  repeat split; try reflexivity; try discriminate; try (intros [X|X]; discriminate X); try (intros ? [<-|[]]; eauto; fail);
  try (intros _ X; discriminate X); try (now left); auto.
Lemma rich_sane x : sane (rich_env x).
Proof.
  constructor; cbn [rich_env e_toLower e_fmtv e_columns e_src e_alt e_iconpath e_macro e_raw e_highlight e_refs]; intros; try assumption; try reflexivity; try discriminate.
  - injection H0 as <-. constructor; [|constructor; [|constructor]]; cbn [rc_halign rc_valign rc_width]; repeat split; try reflexivity; (now left) || (right; reflexivity).
  - injection H0 as <-. reflexivity.
  - injection H as <-. apply wf_bal. reflexivity.
  - unfold rich_refs in H. apply mget_In in H. repeat (destruct H as [H|H]; [injection H as _ <-; ben; loc|]). destruct H.
Qed.
Lemma rich_ok x c : safe (rc_updated c) -> Forall safe (rc_css c) -> doc_ok (rich_env x) c rich_doc.
Proof.
  intros HU HC. constructor; [| | |exact HU|exact HC].
  - cbn [rich_doc rd_elements rich_env e_fmtv]. unfold para. ben; loc.
    + repeat (constructor; [repeat split; reflexivity|]). constructor.
    + intros _ _ items s t la body Eq. destruct items as [|i1 [|i2 [|i3 items]]]; cbn [app] in Eq; try discriminate Eq. injection Eq as _ _ _ _ <-. eexists _, _. split; [reflexivity|exact I].
  - cbn [rich_doc rd_notes]. ben; loc.
  - intros l [= <-]. repeat constructor.
Qed.
Theorem C55_example : forall x, exists out title attrs',
  sane (rich_env x) /\ doc_ok (rich_env x) (mkRconf true "2026" ["style.css"]) rich_doc /\ attrs_ok (e_fmtv (rich_env x)) [] /\
  render (rich_env x) 30 (mkRconf true "2026" ["style.css"]) rich_doc (Some []) = Ok (out, title, attrs').
Proof.
  intros x.
  assert (R : exists r, render (rich_env x) 30 (mkRconf true "2026" ["style.css"]) rich_doc (Some []) = Ok r) by (destruct x; eexists; vm_compute; reflexivity).
  destruct R as [[[o t] a] R]. exists o, t, a. split; [apply rich_sane|]. split; [apply rich_ok; [reflexivity|repeat constructor]|]. split; [|exact R].
  split; [intros v []|discriminate].
Qed.

(** ** where the output is malformed: each condition of [local] is needed *)
Definition plain_env : renv := rich_env false.
Definition page (l : list val) : rdoc := mkRdoc l None [].
Definition body (attrs : attributes) (l : list val) : result string :=
  do (p, a) <- render plain_env 30 (mkRconf false "2026" []) (page l) (Some attrs); Ok (fst p).
Ltac malformed := eexists; split; [vm_compute; reflexivity|]; rewrite wf_bal; vm_compute; discriminate.
(** the last term of a horizontal list has no description: its row is not closed *)
Theorem C55_horizontal_refuted : exists out, body [] [ListBlock "labeled_list" [("style", VStr "horizontal")] [LabeledListElement "::" [StringElement "a"] [] []]] = Ok out /\ ~ wf out.
Proof. malformed. Qed.
(** the roles of a literal block are written outside of the quotes *)
Theorem C55_literal_roles_refuted : exists out, body [] [DelimitedBlock "literal" [("roles", VRoles [VStr "r="])] [StringElement "x"]] = Ok out /\ ~ wf out.
Proof. malformed. Qed.
(** the reference "lt" to a predefined attribute is not escaped *)
Theorem C55_lt_refuted : exists out, body [] [para [PredefinedAttribute "lt"]] = Ok out /\ ~ wf out.
Proof. malformed. Qed.
(** a button without a label *)
Theorem C55_button_refuted : exists out, body [] [para [InlineButton []]] = Ok out /\ ~ wf out.
Proof. malformed. Qed.
(** a menu without items *)
Theorem C55_menu_refuted : exists out, body [] [para [InlineMenu []]] = Ok out /\ ~ wf out.
Proof. malformed. Qed.
(** a title with markup on an inline image *)
Theorem C55_image_title_refuted :
  exists out, body [] [para [InlineImage (Location "" (VStr "a.png")) [("title", VSlice [QuotedText "*" [StringElement "b"] []])]]] = Ok out /\ ~ wf out.
Proof. malformed. Qed.
(** the icon of an admonition without a caption, icons being shown as images *)
Theorem C55_icon_refuted :
  exists out, body [("icons", VStr "image")] [DelimitedBlock "example" [("style", VStr "NOTE")] [para [StringElement "n"]]] = Ok out /\ ~ wf out.
Proof. malformed. Qed.
(** a quote in the value of an attribute: the style of a list, the alternate text of an image *)
Theorem C55_quote_refuted : exists out, body [] [ListBlock "ordered_list" [("style", VStr "a""b")] [OrderedListElement "" [] []]] = Ok out /\ ~ wf out.
Proof. malformed. Qed.
Theorem C55_alt_refuted : exists out, body [] [para [InlineImage (Location "" (VStr "a.png")) [("alt", VStr "a""b")]]] = Ok out /\ ~ wf out.
Proof. malformed. Qed.
