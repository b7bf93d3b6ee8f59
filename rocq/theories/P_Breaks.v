(** C75: single-line comments, thematic breaks and admonitions, from the text to the HTML. *)
From Coq Require Import List String NArith ZArith Bool Lia.
From Verif Require Import GoBase GoLemmas Utf8 Types Attrs ListSpec Config Render Convert.
From Verif Require Import Peg PegGrammar PegDoc PegHost PegSym PegBlockSpec PegInlineSpec ConvertSpec P_PegRun P_PegBlocks P_PegPara P_PegDocs P_PegNormal P_Convert.
Import ListNotations.
Local Open Scope string_scope.
Local Open Scope list_scope.

(** what is a document where a header may be is one where it may not be *)
Lemma piece_later : forall alnum white header text v tail, piece alnum white header text v tail -> piece alnum white false text v tail.
Proof. intros alnum white header text v tail P. destruct P; econstructor; eauto; discriminate. Qed.
Lemma document_later : forall alnum white header text vs, document alnum white header text vs -> document alnum white false text vs.
Proof.
  induction 1 as [|header text v tail vs Ne P D IH]; [constructor|]. econstructor; [exact Ne|eapply piece_later; exact P|exact IH].
Qed.

Section Texts.
Variable X : Type.
Variable cls : string -> Peg.rune -> bool.
Variable low : Peg.rune -> Peg.rune.
Variable white : Peg.rune -> bool.
Variable other : string -> Peg.labels (PegHost.hv X) -> Peg.soft PegHost.gstore (option (list string)) -> option (Peg.value (PegHost.hv X) * bool).
Hypothesis U : unicode_ok (go_host X cls low white other).
Variable E : renv.
Variable setColumns : val -> list val -> result val.
Variable c : config.
Variable a : attributes.
Hypothesis Ea : c_attrs c = Some a.
Hypothesis Na : forall n, In n neutral_names -> mget a n = None.
Hypothesis Wr : c_wrap c = false.
(** the conversion of [text] gives [html] *)
Definition gives (text : list rune) (html : string) : Prop :=
  exists n0 a', forall n, n0 <= n -> convert X cls low white other E setColumns n c text = Ok (html, "", a').
Notation shown_all := (ConvertSpec.all_shown (cls "L") (cls "N") white (map fst (c_macros c)) (e_xhtml E) (e_toLower E)).

(** ** A comment adds nothing *)
Theorem C75_comment : forall l e tail vs hs, one_line l -> ~ starts (R "//") l -> no_colons l -> eol e tail ->
  match tail with 47%N :: _ | 61%N :: _ => False | _ => True end ->
  document (alnum cls) white true tail vs -> shown_all vs hs ->
  gives tail (String.concat "" hs) /\ gives (R "//" ++ l ++ e ++ tail) (String.concat "" hs).
Proof.
  intros l e tail vs hs Ol Ns Nc Ee St D Sh. split; [now apply (C69_converted X cls low white other U E setColumns c a _ vs)|].
  change (String.concat "" hs) with ("" ++ String.concat "" hs)%string.
  replace ("" ++ String.concat "" hs)%string with (String.concat "" ("" :: hs)) by (destruct hs; reflexivity).
  apply (C69_converted X cls low white other U E setColumns c a _ (SinglelineComment (encode_runes l) :: vs)); auto.
  - apply (doc_cons _ _ true (R "//" ++ l ++ e ++ tail) _ tail vs); [discriminate|apply piece_remark; auto|]. eapply document_later. exact D.
  - apply all_cons; [apply s_remark|exact Sh].
Qed.

(** ** A thematic break is a rule *)
Theorem C75_break : forall w ws e e' tail vs hs, In w thematic_breaks -> blanks ws -> eol e (e' ++ tail) -> eol e' tail ->
  document (alnum cls) white false tail vs -> shown_all vs hs ->
  gives (w ++ ws ++ e ++ e' ++ tail) ((if e_xhtml E then "<hr/>" else "<hr>") ++ LF ++ String.concat "" hs).
Proof.
  intros w ws e e' tail vs hs I B Ee Ee' D Sh.
  replace ((if e_xhtml E then "<hr/>" else "<hr>") ++ LF ++ String.concat "" hs)%string
    with (String.concat "" ((if e_xhtml E then "<hr/>" ++ LF else "<hr>" ++ LF)%string :: hs)) by (rewrite !concat_sconcat; destruct (e_xhtml E); reflexivity).
  apply (C69_converted X cls low white other U E setColumns c a _ (ThematicBreak :: vs)); auto.
  - apply (doc_cons _ _ true _ _ tail vs); [|now apply piece_break|exact D].
    intros Q. cbv [thematic_breaks In] in I. repeat (destruct I as [<-|I]; [discriminate Q|]). destruct I.
  - apply all_cons; [apply s_break|exact Sh].
Qed.

(** ** An admonition *)
Theorem C75_admonition : forall w k class caption l e t ls tail its hs vs hs',
  In (w, k) admonitions -> In (k, (class, caption)) admonition_captions -> e_toLower E k = class ->
  one_line l -> no_colons l -> (exists r, In r l /\ white r = false) -> eol e t -> continued white t ls tail ->
  characters (joined (l :: ls)) -> ordinary (cls "L") (cls "N") (macro_name (map fst (c_macros c))) None (joined (l :: ls)) its ->
  Forall2 written its hs -> String.concat "" hs <> "" ->
  document (alnum cls) white false tail vs -> shown_all vs hs' ->
  gives (w ++ l ++ e ++ t) (admonition_html class caption (String.concat "" hs) ++ String.concat "" hs').
Proof.
  intros w k class caption l e t ls tail its hs vs hs' Iw Ik Lw Ol Nc Bl Ee Co Ch Or Wt Ne D Sh.
  replace (admonition_html class caption (String.concat "" hs) ++ String.concat "" hs')%string
    with (String.concat "" (admonition_html class caption (String.concat "" hs) :: hs')) by (rewrite !concat_sconcat; reflexivity).
  apply (C69_converted X cls low white other U E setColumns c a _ (Paragraph [(AttrStyle, Types.VStr k)] (raw_lines (l :: ls)) :: vs)); auto.
  - apply (doc_cons _ _ true _ _ tail vs); [|now apply piece_admonition|exact D].
    intros Q. cbv [admonitions In] in Iw. repeat (destruct Iw as [Iw|Iw]; [injection Iw as <- <-; discriminate Q|]). destruct Iw.
  - apply all_cons; [|exact Sh]. apply (s_admonition _ _ _ _ _ _ k class caption (l :: ls) its hs); auto.
Qed.
End Texts.

(** * A document with all of them *)
Definition a_note : string :=
"// todo: R&D
Text

* * *

NOTE: Mind the gap,
R&D
".
Definition a_note_html : string :=
"<div class=""paragraph"">
<p>Text</p>
</div>
<hr>
<div class=""admonitionblock note"">
<table>
<tr>
<td class=""icon"">
<div class=""title"">Note</div>
</td>
<td class=""content"">
Mind the gap,
R&amp;D
</td>
</tr>
</table>
</div>
".
Theorem C75_run : html_written a_note = Ok a_note_html.
Proof. vm_compute. reflexivity. Qed.
(** the other admonitions, and breaks *)
Theorem C75_runs :
  Forall (fun x => match x with (w, (class, caption)) => html_written (w ++ ": x") = Ok (admonition_html class caption "x") end) admonition_captions /\
  Forall (fun w => html_written (w ++ LF) = Ok ("<hr>" ++ LF)%string) ["'''"; "***"; "* * *"; "---"; "- - -"; "___"; "_ _ _"].
Proof. split; repeat constructor; vm_compute; reflexivity. Qed.
(** the hypotheses hold of it *)
Theorem C75_hypotheses : exists a vs hs, c_attrs demo_config = Some a /\ (forall k, In k neutral_names -> mget a k = None) /\ c_wrap demo_config = false /\
  unicode_ok demo_go /\ document (alnum demo_cls) demo_white true (R a_note) vs /\ List.length vs = 5 /\
  ConvertSpec.all_shown (demo_cls "L") (demo_cls "N") demo_white (map fst (c_macros demo_config)) (e_xhtml demo_env) (e_toLower demo_env) vs hs /\ String.concat "" hs = a_note_html.
Proof.
  eexists _, [SinglelineComment (encode_runes (R " todo: R&D")); Paragraph [] (raw_lines [R "Text"]); BlankLine; ThematicBreak;
    Paragraph [(AttrStyle, Types.VStr "NOTE")] (raw_lines [R "Mind the gap,"; R "R&D"])], _.
  split; [reflexivity|]. split; [intros k I; cbn in I; repeat destruct I as [<-|I]; try reflexivity; destruct I|]. split; [reflexivity|]. split; [exact demo_go_unicode|].
  split; [|split; [reflexivity|split]].
  - refine (doc_cons _ _ true (R "//" ++ R " todo: R&D" ++ [10%N] ++ _) _ _ _ _ (piece_remark _ _ _ _ _ _ _ _ _ _ _) _);
      [discriminate|is_line|intros (q & Q); discriminate Q|apply no_colons_dec; reflexivity|lf|intros _; exact Logic.I|].
    refine (doc_cons _ _ false (R "Text" ++ [10%N] ++ _) _ _ _ _ (piece_para _ _ _ _ _ _ [] _ _ _ _) _).
    + discriminate.
    + split; [is_line|]. split; [apply no_colons_dec; reflexivity|]. split; [no_start|].
      eexists _, _. split; [reflexivity|]. split; [reflexivity|]. split; [reflexivity|].
      intros (y & z & u & Q & [->| ->] & _); discriminate Q.
    + lf.
    + refine (cont_blank _ [] [10%N] _ _ _ _); [constructor|discriminate|lf].
    + refine (doc_cons _ _ false ([] ++ [10%N] ++ _) _ _ _ _ (piece_blank _ _ _ _ _ _ _ _ _) _); [discriminate|constructor|discriminate|lf|].
      refine (doc_cons _ _ false (R "* * *" ++ [] ++ [10%N] ++ [10%N] ++ _) _ _ _ _ (piece_break _ _ _ _ _ _ _ _ _ _ _ _) _); [discriminate|cbn; tauto|constructor|lf|lf|].
      refine (doc_cons _ _ false (R "NOTE: " ++ R "Mind the gap," ++ [10%N] ++ R "R&D" ++ [10%N]) _ _ _ _ (piece_admonition _ _ _ _ "NOTE" _ _ _ [R "R&D"] [] _ _ _ _ _ _) _);
        [discriminate|cbn; tauto|is_line|apply no_colons_dec; reflexivity|exists 77%N; split; [now left|reflexivity]|lf| |constructor].
      refine (cont_line _ (R "R&D") [10%N] [] [] [] _ _ _); [|lf|constructor].
      split; [is_line|]. split; [exists 82%N; split; [now left|reflexivity]|]. cbn. intros Q. repeat destruct Q as [Q|Q]; try discriminate Q; auto.
  - apply all_cons; [apply s_remark|]. apply all_cons; [|apply all_cons; [apply s_blank|apply all_cons; [apply s_break|apply all_cons; [|apply all_nil]]]].
    + eapply (s_para _ _ _ _ _ _ _ _ "Text"%string); [repeat constructor| |].
      * match goal with |- ordinary _ _ _ _ ?t _ => let v := eval vm_compute in t in change t with v end. wd "Text"%string. apply ord_nil.
      * eexists. split; [repeat (apply Forall2_cons || apply Forall2_nil); apply w_char|].
        apply (trimmed_self 0 0); [vm_compute; reflexivity|intros u; discriminate|vm_compute; discriminate].
    + eapply (s_admonition _ _ _ _ _ _ "NOTE" "note" "Note" [R "Mind the gap,"; R "R&D"]); [cbn; tauto|reflexivity|repeat constructor| | |].
      * match goal with |- ordinary _ _ _ _ ?t _ => let v := eval vm_compute in t in change t with v end.
        wd "Mind"%string. sp. wd "the"%string. sp. wd "gap"%string. ch. ch. wd "R"%string. sc. wd "D"%string. apply ord_nil.
      * repeat (apply Forall2_cons || apply Forall2_nil); first [apply w_char|apply w_amp].
      * vm_compute. discriminate.
  - vm_compute. reflexivity.
Qed.

(** * A break that is not one *)
(** without an empty line after it, the line is text *)
Theorem C75_break_refuted : html_written "one

'''
two" = Ok (paragraph_html "one" ++ paragraph_html ("'''" ++ LF ++ "two"))%string.
Proof. vm_compute. reflexivity. Qed.
Print Assumptions C75_comment.
Print Assumptions C75_break.
Print Assumptions C75_admonition.
Print Assumptions C75_hypotheses.
