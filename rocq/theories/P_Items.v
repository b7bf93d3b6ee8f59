(** C78: labeled lists, lists of callouts, check marks. *)
From Coq Require Import List String Ascii NArith ZArith Bool Lia.
From Verif Require Import GoBase GoLemmas Types Attrs TocRender Templates Render FrameSpec P_Frames TagSpec P_Tags ItemSpec.
From Verif Require Tmpl ConvertSpec P_Convert P_ListHtml.
Import ListNotations.
Local Open Scope string_scope.
Local Open Scope list_scope.

Section Items.
Variables (E : renv) (k : nat).
Lemma inline_ok es st shown st1 : all_rendered E k es st shown st1 -> (forall u, shown <> u ++ " ")%string -> renderInlineElements (renderElement E k) es st = Ok (shown, st1).
Proof.
  induction 1 as [st|v l st h st1 t st2 R A IH]; intros N; [reflexivity|]. cbn [renderInlineElements]. unfold bindM. rewrite R, IH.
  - unfold ret. destruct l as [|w l]; [|reflexivity]. assert (t = "") as -> by (inversion A; reflexivity). rewrite sapp_nil_r in N. rewrite !sapp_nil_r.
    assert (trim_right_char " " h = h) as Q; [|destruct v; now rewrite ?Q].
    clear -N. induction h as [|d h IH]; [reflexivity|]. cbn [trim_right_char]. rewrite IH.
    + destruct h as [|e h]; [|reflexivity]. destruct (Ascii.eqb_spec d " ") as [->|]; [|reflexivity]. exfalso. now apply (N "").
    + intros u ->. now apply (N (String d u)).
  - intros u ->. apply (N (h ++ u)%string). now rewrite sapp_assoc.
Qed.
Lemma item_ok es st c st1 : item_rendered E k es st c st1 -> renderListElements (renderElement E k) es st = Ok (c, st1).
Proof.
  destruct 1 as [st|v l st h st1 t st2 R A]; [reflexivity|]. unfold renderListElements, bindM, inList. fold (deeper st). rewrite R. fold (back st1).
  rewrite (elements_ok _ _ _ _ _ _ A). reflexivity.
Qed.
Lemma dt_html t c (b : bool) st : exec E TLabeledListElement [(".Term", Tmpl.FS t); (".Content", Tmpl.FS c); (".Continuation", Tmpl.FB b)] st = Ok (definition_html (t, c), st).
Proof. eapply P_Convert.exec_ok; [unfold template; destruct (e_xhtml E); vm_compute; reflexivity|]. unfold definition_html. cbn [fst snd]. destruct c; cbn; flat. Qed.
Lemma qa_html t c (b : bool) st : exec E TQAndAListElement [(".Term", Tmpl.FS t); (".Content", Tmpl.FS c); (".Continuation", Tmpl.FB b)] st = Ok (question_html (t, c), st).
Proof. eapply P_Convert.exec_ok; [unfold template; destruct (e_xhtml E); vm_compute; reflexivity|]. unfold question_html. cbn [fst snd]. cbn; flat. Qed.
Lemma row_html t c (b : bool) st : exec E TLabeledListHorizontalElement [(".Term", Tmpl.FS t); (".Content", Tmpl.FS c); (".Continuation", Tmpl.FB b)] st = Ok (rows_html (e_xhtml E) b [(t, c)], st).
Proof. unfold rows_html. destruct (e_xhtml E) eqn:Ex; (eapply P_Convert.exec_ok; [unfold template; rewrite Ex; vm_compute; reflexivity|]); destruct c, b; cbn; flat. Qed.
Lemma concat_cons x l : String.concat "" (x :: l) = (x ++ String.concat "" l)%string.
Proof. rewrite !P_Convert.concat_sconcat. reflexivity. Qed.
Lemma rows_cons x b t c r : rows_html x b ((t, c) :: r) = (rows_html x b [(t, c)] ++ rows_html x (String.eqb c "") r)%string.
Proof. cbn [rows_html]. rewrite sapp_nil_r. destruct b, x; rewrite ?sapp_assoc; reflexivity. Qed.
Lemma terms_ok tn l st entries st1 (html : bool -> list (string * string) -> string) :
  (forall b, html b [] = "") -> (forall b t c r, html b ((t, c) :: r) = (html b [(t, c)] ++ html (String.eqb c "") r)%string) ->
  (forall t c b st, exec E tn [(".Term", Tmpl.FS t); (".Content", Tmpl.FS c); (".Continuation", Tmpl.FB b)] st = Ok (html b [(t, c)], st)) ->
  terms_rendered E k l st entries st1 -> forall b, renderLabeledItems E (renderElement E k) tn b l st = Ok (html b entries, st1).
Proof.
  intros H0 H1 X. induction 1 as [st|style term attrs es l st t st1 c st2 entries st3 At Nt Ic T IH]; intros b; [now rewrite H0|].
  cbn [renderLabeledItems]. unfold bindM at 1. unfold renderLabeledListItem. unfold bindM at 1. rewrite (inline_ok _ _ _ _ At Nt). unfold bindM at 1. rewrite (item_ok _ _ _ _ Ic).
  unfold bindM at 1. rewrite X. unfold ret at 1. cbn [fst snd]. unfold bindM. rewrite IH. unfold ret. now rewrite (H1 b t c entries).
Qed.
Ltac framed := eapply P_Convert.exec_ok; [unfold template; destruct (e_xhtml E); vm_compute; reflexivity|]; unfold framed_of, opening_of, class_of, title_line; emptiness; cbn; flat.
Lemma hd_html i t r c st :
  exec E TLabeledListHorizontal [(".ID", Tmpl.FS i); (".Title", Tmpl.FS t); (".Roles", Tmpl.FS r); (".Content", Tmpl.FS c)] st = Ok (framed_of i "hdlist" r t ("<table>" ++ LF ++ c ++ "</table>" ++ LF), st).
Proof. framed. Qed.
Lemma ql_html i t r c st :
  exec E TQAndAList [(".ID", Tmpl.FS i); (".Title", Tmpl.FS t); (".Roles", Tmpl.FS r); (".Content", Tmpl.FS c)] st = Ok (framed_of i "qlist qanda" r t ("<ol>" ++ LF ++ c ++ "</ol>" ++ LF), st).
Proof. framed. Qed.
(** C78, labeled lists *)
Theorem C78_labeled : forall attrs es style id roles title entries html st st1 st2,
  labeled_html (e_xhtml E) style id roles title entries = Some html ->
  text_attribute attrs "id" id -> role_attribute attrs roles -> (style <> "" /\ mget attrs "style" = Some (Types.VStr style) \/ style = "" /\ mget attrs "style" = None) ->
  terms_rendered E k es st entries st1 -> title_attribute (all_rendered E k) attrs st1 title st2 ->
  renderElement E (S k) (ListBlock "labeled_list" attrs es) st = Ok (html, st2).
Proof.
  intros attrs es style id roles title entries html st st1 st2 Hh Hi Hr Hs Ht Hti. pose proof (proj2 Hr) as Nr.
  cbn [renderElement renderElementWith renderList String.eqb Ascii.eqb Bool.eqb]. unfold renderLabeledList, getLabeledListTmpl, bindM, ret. unfold labeled_html in Hh.
  destruct (String.eqb_spec style "") as [->|N0].
  { destruct Hs as [[N _]|[_ ->]]; [congruence|]. injection Hh as <-. cbn [fst snd].
    erewrite usual_ok; [|eassumption|eassumption| |eassumption].
    2: { apply (terms_ok TLabeledListElement es st entries st1 (fun _ l => String.concat "" (map definition_html l))); [reflexivity| |intros; apply dt_html|exact Ht].
         intros b t c r. cbn [map]. rewrite concat_cons. reflexivity. }
    rewrite dl_html. now rewrite framed_ok. }
  destruct Hs as [[_ ->]|[Q _]]; [|congruence]. cbn [eq_str].
  destruct (String.eqb_spec style "qanda") as [->|N1].
  { injection Hh as <-. cbn [fst snd]. erewrite usual_ok; [|eassumption|eassumption| |eassumption].
    2: { apply (terms_ok TQAndAListElement es st entries st1 (fun _ l => String.concat "" (map question_html l))); [reflexivity| |intros; apply qa_html|exact Ht].
         intros b t c r. cbn [map]. rewrite concat_cons. reflexivity. }
    rewrite ql_html. now rewrite framed_ok. }
  destruct (String.eqb_spec style "horizontal") as [->|N2]; [|discriminate Hh].
  injection Hh as <-. cbn [fst snd]. erewrite usual_ok; [|eassumption|eassumption| |eassumption].
  2: { apply (terms_ok TLabeledListHorizontalElement es st entries st1 (rows_html (e_xhtml E))); [reflexivity|intros; apply rows_cons|intros; apply row_html|exact Ht]. }
  rewrite hd_html. now rewrite framed_ok.
Qed.
(** C78, lists of callouts *)
Theorem C78_callouts : forall attrs es id roles title cs st st1 st2, text_attribute attrs "id" id -> role_attribute attrs roles ->
  callouts_rendered E k es st cs st1 -> title_attribute (all_rendered E k) attrs st1 title st2 ->
  renderElement E (S k) (ListBlock "callout_list" attrs es) st = Ok (callouts_html id roles title cs, st2).
Proof.
  intros attrs es id roles title cs st st1 st2 Hi Hr Hc Ht. pose proof (proj2 Hr) as Nr.
  cbn [renderElement renderElementWith renderList String.eqb Ascii.eqb Bool.eqb]. unfold renderCalloutList.
  erewrite usual_ok; [|eassumption|eassumption| |eassumption].
  2: { clear Ht. assert (forall l st cs st1, callouts_rendered E k l st cs st1 -> renderCalloutItems E (renderElement E k) l st = Ok (String.concat "" (map (fun c => "<li>" ++ LF ++ c ++ "</li>" ++ LF) cs), st1)%string) as X; [|apply X; exact Hc].
    clear. induction 1 as [st|n attrs es l st c st1 cs st2 I C IH]; [reflexivity|]. cbn [renderCalloutItems]. unfold bindM. rewrite (item_ok _ _ _ _ I).
    erewrite P_Convert.exec_ok; [|unfold template; destruct (e_xhtml E); vm_compute; reflexivity|cbn -[itoa]; reflexivity]. rewrite IH. unfold ret. cbn [map]. rewrite concat_cons. flat. }
  rewrite co_html. unfold callouts_html. now rewrite framed_ok.
Qed.
(** C78, the paragraph of an item, with its check mark *)
Theorem C78_item : forall attrs es check mark raw lines texts st st1,
  (0 < r_list st)%Z -> In (check, mark) check_marks -> text_attribute attrs "checkstyle" check ->
  all_rendered E k es st raw st1 -> raw = String.concat LF lines -> lines <> [] -> Forall ConvertSpec.no_lf lines -> Forall2 ConvertSpec.stripped lines texts ->
  renderElement E (S k) (Paragraph attrs es) st = Ok ("<p>" ++ mark ++ String.concat LF texts ++ "</p>" ++ LF, st1)%string.
Proof.
  intros attrs es check mark raw lines texts st st1 Hl I Hc He -> Nl F S2. apply elements_ok in He.
  cbn [renderElement renderElementWith]. unfold renderParagraph. apply Z.ltb_lt in Hl. rewrite Hl, orb_true_r. unfold renderEmbeddedParagraph, bindM. rewrite He.
  rewrite (P_ListHtml.strip_lines _ _ Nl F S2).
  assert (renderCheckStyle (mget attrs "checkstyle") = mark) as ->.
  { cbv [check_marks In] in I. destruct Hc as [->|[-> ->]].
    - repeat (destruct I as [I|I]; [injection I as <- <-; reflexivity|]). destruct I.
    - destruct I as [I|I]; [injection I as <-; reflexivity|]. repeat (destruct I as [I|I]; [discriminate I|]). destruct I. }
  eapply P_Convert.exec_ok; [unfold template; destruct (e_xhtml E); vm_compute; reflexivity|]. cbn. flat.
Qed.
End Items.

(** * Instances *)
Definition in_a_list : rst := mkRst [] [] false 1 [].
Lemma last_app u p d : p <> "" -> last_char d (u ++ p) = last_char "x" p.
Proof. intros N. revert d. induction u as [|c u IH]; intros d; [destruct p; [congruence|reflexivity]|]. cbn [append last_char]. apply IH. Qed.
Lemma demo_stripped : ConvertSpec.stripped " b&lt;" "b&lt;".
Proof.
  exists [32%N]. split; [reflexivity|]. split; [repeat constructor|]. intros p u I. unfold ConvertSpec.white_space in I. cbn [In] in I.
  repeat (destruct I as [<-|I]; [split; intros Q; [discriminate Q|apply (f_equal (last_char "x")) in Q; rewrite last_app in Q by discriminate; vm_compute in Q; discriminate Q]|]). destruct I.
Qed.
Lemma demo_item : forall check mark, In (check, mark) check_marks ->
  renderElement P_Convert.demo_env 3 (Paragraph [("checkstyle", Types.VStr check)] [StringElement " b"; SpecialCharacter "<"]) in_a_list = Ok ("<p>" ++ mark ++ "b&lt;</p>" ++ LF, in_a_list)%string.
Proof.
  intros check mark I. refine (C78_item P_Convert.demo_env 2 [("checkstyle", Types.VStr check)] [StringElement " b"; SpecialCharacter "<"] check mark " b&lt;" [" b&lt;"] ["b&lt;"] in_a_list in_a_list _ I _ _ _ _ _ _);
    [reflexivity|left; reflexivity| |reflexivity|discriminate| |constructor; [exact demo_stripped|constructor]].
  - eapply (r_more _ _ _ _ _ " b" _ "&lt;"); [reflexivity|]. eapply (r_more _ _ _ _ _ "&lt;" _ ""); [reflexivity|constructor].
  - constructor; [|constructor]. cbn. repeat (split; [discriminate|]). exact Logic.I.
Qed.
Definition demo_terms : list val :=
  [LabeledListElement "::" [StringElement "A"] [] []; LabeledListElement "::" [StringElement "B"] [] [Paragraph [("checkstyle", Types.VStr "")] [StringElement " b"; SpecialCharacter "<"]]].
Lemma demo_terms_rendered : terms_rendered P_Convert.demo_env 3 demo_terms demo_state [("A", ""); ("B", "<p>b&lt;</p>" ++ LF)%string] demo_state.
Proof.
  eapply t_more; [eapply (r_more _ _ _ _ _ "A" _ ""); [reflexivity|constructor]|now apply no_blank_end|constructor|].
  eapply t_more; [eapply (r_more _ _ _ _ _ "B" _ ""); [reflexivity|constructor]|now apply no_blank_end| |constructor].
  eapply (i_some _ _ _ _ _ ("<p>b&lt;</p>" ++ LF)%string in_a_list ""); [exact (demo_item "" "" (or_introl eq_refl))|constructor].
Qed.
Example C78_hypotheses :
  renderElement P_Convert.demo_env 4 (ListBlock "labeled_list" [("id", Types.VStr "l")] demo_terms) demo_state =
    Ok ("<div id=""l"" class=""dlist"">" ++ LF ++ "<dl>" ++ LF ++ "<dt class=""hdlist1"">A</dt>" ++ LF ++ "<dt class=""hdlist1"">B</dt>" ++ LF ++ "<dd>" ++ LF ++ "<p>b&lt;</p>" ++ LF ++ "</dd>" ++ LF ++
        "</dl>" ++ LF ++ "</div>" ++ LF, demo_state)%string /\
  renderElement P_Convert.demo_env 4 (ListBlock "labeled_list" [("style", Types.VStr "horizontal")] demo_terms) demo_state =
    Ok ("<div class=""hdlist"">" ++ LF ++ "<table>" ++ LF ++ "<tr>" ++ LF ++ "<td class=""hdlist1"">" ++ LF ++ "A" ++ LF ++ "<br>" ++ LF ++ "B" ++ LF ++ "</td>" ++ LF ++ "<td class=""hdlist2"">" ++ LF ++
        "<p>b&lt;</p>" ++ LF ++ "</td>" ++ LF ++ "</tr>" ++ LF ++ "</table>" ++ LF ++ "</div>" ++ LF, demo_state)%string /\
  renderElement P_Convert.demo_env 4 (ListBlock "callout_list" [("id", Types.VStr "l")] [CalloutListElement 1 [] [Paragraph [("checkstyle", Types.VStr "")] [StringElement " b"; SpecialCharacter "<"]]]) demo_state =
    Ok (callouts_html "l" [] "" ["<p>b&lt;</p>" ++ LF], demo_state)%string.
Proof.
  split; [|split].
  - apply (C78_labeled P_Convert.demo_env 3 [("id", Types.VStr "l")] demo_terms "" "l" [] "" [("A", ""); ("B", "<p>b&lt;</p>" ++ LF)%string] _ demo_state demo_state demo_state);
      [reflexivity|left; reflexivity|split; [right; split; reflexivity|discriminate]|right; split; reflexivity|exact demo_terms_rendered|constructor; reflexivity].
  - apply (C78_labeled P_Convert.demo_env 3 [("style", Types.VStr "horizontal")] demo_terms "horizontal" "" [] "" [("A", ""); ("B", "<p>b&lt;</p>" ++ LF)%string] _ demo_state demo_state demo_state);
      [reflexivity|right; split; reflexivity|split; [right; split; reflexivity|discriminate]|left; split; [discriminate|reflexivity]|exact demo_terms_rendered|constructor; reflexivity].
  - apply (C78_callouts P_Convert.demo_env 3 [("id", Types.VStr "l")] _ "l" [] "" ["<p>b&lt;</p>" ++ LF]%string demo_state demo_state demo_state);
      [left; reflexivity|split; [right; split; reflexivity|discriminate]| |constructor; reflexivity].
    eapply c_more; [|constructor]. eapply (i_some _ _ _ _ _ ("<p>b&lt;</p>" ++ LF)%string in_a_list ""); [exact (demo_item "" "" (or_introl eq_refl))|constructor].
Qed.
(** a horizontal list whose last term has no content leaves its last row open *)
Example C78_horizontal_refuted : exists h, renderElement P_Convert.demo_env 4 (ListBlock "labeled_list" [("style", Types.VStr "horizontal")] [LabeledListElement "::" [StringElement "A"] [] []]) demo_state = Ok (h, demo_state) /\
  h = ("<div class=""hdlist"">" ++ LF ++ "<table>" ++ LF ++ "<tr>" ++ LF ++ "<td class=""hdlist1"">" ++ LF ++ "A" ++ LF ++ "</table>" ++ LF ++ "</div>" ++ LF)%string.
Proof. eexists. vm_compute. split; reflexivity. Qed.
Print Assumptions C78_labeled.
Print Assumptions C78_callouts.
Print Assumptions C78_item.
Print Assumptions C78_hypotheses.
