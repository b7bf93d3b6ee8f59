(** C76: the id, the roles and the title of a block are written on its frame. *)
From Coq Require Import List String Ascii NArith ZArith Bool Lia.
From Verif Require Import GoBase GoLemmas Types Attrs TocRender Templates Render FrameSpec.
From Verif Require Tmpl ConvertSpec P_Convert.
Import ListNotations.
Local Open Scope string_scope.
Local Open Scope list_scope.

Lemma escaped_ok s : htmlEscapeString s = escaped s.
Proof.
  induction s as [|c s IH]; [reflexivity|]. cbn [htmlEscapeString escaped]. rewrite IH. f_equal. unfold html_escape_byte, escaped_char.
  destruct c as [[] [] [] [] [] [] [] []]; reflexivity.
Qed.
Lemma escaped_nonempty c s : exists d t, escaped (String c s) = String d t.
Proof. cbn [escaped]. unfold escaped_char. repeat match goal with |- context[if ?b then _ else _] => destruct b end; cbn; eauto. Qed.
(** the fields of the templates *)
Lemma id_ok attrs id : text_attribute attrs "id" id -> renderElementID attrs = escaped id.
Proof. unfold renderElementID. intros [->|[-> ->]]; [apply escaped_ok|reflexivity]. Qed.
Lemma join_concat l : join " " l = String.concat " " l.
Proof. induction l as [|x [|y l] IH]; [reflexivity|reflexivity|]. cbn [join String.concat] in *. now rewrite IH. Qed.
Lemma roles_strings rec l st : renderRoles rec (map Types.VStr l) st = Ok (l, st).
Proof. induction l as [|x l IH]; [reflexivity|]. cbn [map renderRoles renderElementRole]. unfold bindM, ret. now rewrite IH. Qed.
Lemma roles_ok rec attrs roles st : role_attribute attrs roles -> renderElementRoles rec attrs st = Ok (String.concat " " roles, st).
Proof.
  unfold renderElementRoles. intros [[->|[-> ->]] _]; [|reflexivity]. unfold bindM. rewrite roles_strings. unfold ret. now rewrite join_concat.
Qed.
Definition class_of (base roles : string) : string := (base ++ (if String.eqb roles "" then "" else " " ++ roles))%string.
Lemma class_ok base roles : roles <> [""] -> String.concat " " (base :: roles) = class_of base (String.concat " " roles).
Proof.
  intros N. unfold class_of. destruct roles as [|r [|r' l]]; [cbn; now rewrite sapp_nil_r| |].
  - cbn [String.concat]. destruct (String.eqb_spec r "") as [->|_]; [now destruct N|reflexivity].
  - cbn [String.concat]. destruct (String.eqb_spec (r ++ " " ++ match l with [] => r' | _ :: _ => (r' ++ " " ++ String.concat " " l)%string end) "") as [Q|_]; [|reflexivity].
    destruct r; discriminate Q.
Qed.
Lemma elements_ok E k l st h st' : all_rendered E k l st h st' -> renderElements (renderElement E k) l st = Ok (h, st').
Proof.
  induction 1 as [st|v l st h st1 t st2 R A IH]; [reflexivity|]. cbn [renderElements]. unfold bindM. rewrite R, IH. reflexivity.
Qed.
Lemma title_ok E k attrs st t st' : title_attribute (all_rendered E k) attrs st t st' -> renderElementTitle (renderElement E k) attrs st = Ok (t, st').
Proof. unfold renderElementTitle. destruct 1 as [->|t ->|l t st' -> R]; [reflexivity|reflexivity|now apply elements_ok]. Qed.
Definition opening_of (id base roles : string) : string :=
  ("<div " ++ (if String.eqb id "" then "" else "id=""" ++ id ++ """ ") ++ "class=""" ++ class_of base roles ++ """>" ++ LF)%string.
Lemma opening_ok id base roles : roles <> [""] -> opening id base roles = opening_of (escaped id) base (String.concat " " roles).
Proof.
  intros N. unfold opening, opening_of. rewrite class_ok by exact N. destruct id as [|c s]; [reflexivity|].
  destruct (escaped_nonempty c s) as (d & t & Q). rewrite Q. reflexivity.
Qed.
Ltac flat := repeat (progress (rewrite ?sapp_assoc, ?sapp_nil_r; cbn [append])); try reflexivity.
Ltac emptiness := repeat match goal with |- context[String.eqb ?x ""] => is_var x; destruct x as [|?c ?x'] end; cbn [String.eqb].
Ltac rendered_by_template := eapply P_Convert.exec_ok; [unfold template; vm_compute; reflexivity|].

Section Frames.
Variables (E : renv) (k : nat).
Notation usually := (usual (renderElement E k)).
Lemma usual_ok attrs id roles t st st1 st2 c m K : text_attribute attrs "id" id -> role_attribute attrs roles ->
  m st = Ok (c, st1) -> title_attribute (all_rendered E k) attrs st1 t st2 ->
  usually attrs m K st = K [(".ID", Tmpl.FS (escaped id)); (".Title", Tmpl.FS t); (".Roles", Tmpl.FS (String.concat " " roles)); (".Content", Tmpl.FS c)] st2.
Proof.
  intros Hi Hr Hm Ht. unfold usual, bindM. rewrite Hm, (roles_ok _ _ _ _ Hr), (title_ok _ _ _ _ _ _ Ht), (id_ok _ _ Hi). reflexivity.
Qed.
Lemma mapS_ok f m st c st1 : m st = Ok (c, st1) -> mapS f m st = Ok (f c, st1).
Proof. unfold mapS, bindM, ret. now intros ->. Qed.

Lemma kept kind raw c : kept_content kind raw c -> c = if strips kind then trimLF raw else raw.
Proof. unfold kept_content. destruct (strips kind); [intros T; symmetry; now apply P_Convert.trimmed_ok|congruence]. Qed.
Lemma attribution_ok attrs author from : text_attribute attrs "quoteAuthor" author -> text_attribute attrs "quoteTitle" from -> (author = "" -> from = "") ->
  attribution_fields attrs = [(".Attribution.First", Tmpl.FS author); (".Attribution.Second", Tmpl.FS from)].
Proof.
  unfold attribution_fields, newAttribution, getAsString. intros [->|[-> ->]] [->|[-> ->]] N; try reflexivity. now rewrite (N eq_refl).
Qed.
Ltac in_frame Nr := unfold frame; rewrite (opening_ok _ _ _ Nr); unfold opening_of, class_of, title_line, content, attribution;
  repeat match goal with |- context[escaped ?x] => generalize (escaped x); intro end; repeat match goal with |- context[String.concat " " ?x] => generalize (String.concat " " x); intro end;
  emptiness.

(** C76, delimited blocks *)
Theorem C76_framed : forall kind attrs es id roles title label author from raw c st st1 st2 html,
  block_html (e_xhtml E) kind id roles title label author from c = Some html ->
  text_attribute attrs "id" id -> role_attribute attrs roles -> mget attrs "style" = None ->
  text_attribute attrs "quoteAuthor" author -> text_attribute attrs "quoteTitle" from -> (author = "" -> from = "") ->
  (kind = "example" -> mget attrs "caption" = Some (Types.VStr label) /\ contains label "{counter:example-number}" = false) ->
  all_rendered E k es (if inside kind then within st else st) raw st1 -> kept_content kind raw c -> title_attribute (all_rendered E k) attrs st1 title st2 ->
  exists st3, renderElement E (S k) (DelimitedBlock kind attrs es) st = Ok (html, st3) /\ left_in st2 st3 /\
    r_within st3 = (if inside kind then r_within st else r_within st2).
Proof.
  intros kind attrs es id roles title label author from raw c st st1 st2 html Hb Hi Hr Hs Ha Hf Naf Hc He Hk Ht.
  apply elements_ok in He. pose proof (proj2 Hr) as Nr. pose proof (attribution_ok _ _ _ Ha Hf Naf) as At.
  unfold block_html in Hb. cbn [find fst] in Hb.
  repeat match type of Hb with context[String.eqb ?x kind] => destruct (String.eqb_spec x kind) as [<-|_]; [injection Hb as <-|] end; [..|discriminate Hb];
  apply kept in Hk; cbn [strips inside existsb String.eqb Ascii.eqb Bool.eqb orb] in *; cbn [renderElement renderElementWith renderDelimitedBlock String.eqb Ascii.eqb Bool.eqb].

  (* listing *)
  - unfold renderListingBlock. rewrite Hs. unfold inBlock. fold (within st). erewrite usual_ok by (eauto using mapS_ok). rewrite <- Hk.
    erewrite P_Convert.exec_ok; [eexists; split; [reflexivity|]; split; [repeat split|reflexivity]|unfold template; destruct (e_xhtml E); vm_compute; reflexivity|].
    in_frame Nr; cbn; flat.
  (* fenced *)
  - unfold renderFencedBlock, inBlock. fold (within st). erewrite usual_ok by (eauto using mapS_ok). rewrite <- Hk.
    erewrite P_Convert.exec_ok; [eexists; split; [reflexivity|]; split; [repeat split|reflexivity]|unfold template; destruct (e_xhtml E); vm_compute; reflexivity|].
    in_frame Nr; cbn; flat.
  (* open *)
  - unfold renderOpenBlock. erewrite usual_ok by eauto. rewrite <- Hk.
    erewrite P_Convert.exec_ok; [eexists; split; [reflexivity|]; split; [repeat split|reflexivity]|unfold template; destruct (e_xhtml E); vm_compute; reflexivity|].
    in_frame Nr; cbn; flat.
  (* sidebar *)
  - unfold renderSidebarBlock. erewrite usual_ok by eauto. rewrite <- Hk.
    erewrite P_Convert.exec_ok; [eexists; split; [reflexivity|]; split; [repeat split|reflexivity]|unfold template; destruct (e_xhtml E); vm_compute; reflexivity|].
    in_frame Nr; cbn; flat.
  (* example *)
  - destruct (Hc eq_refl) as [Hl Nl]. unfold ahas, mhas. rewrite Hs. unfold renderExampleBlock, bindM. rewrite He, (roles_ok _ _ _ _ Hr). unfold renderCaption, bindM, getAttrs, getAsString. rewrite Hl, Nl.
    unfold ret at 1. rewrite (title_ok _ _ _ _ _ _ Ht), (id_ok _ _ Hi). rewrite <- Hk. cbn [fst snd].
    erewrite P_Convert.exec_ok; [eexists; split; [reflexivity|]; split; [repeat split|reflexivity]|unfold template; destruct (e_xhtml E); vm_compute; reflexivity|].
    in_frame Nr; cbn; flat.
  (* quote *)
  - unfold renderQuoteBlock. erewrite usual_ok by eauto. rewrite <- Hk, At. destruct (e_xhtml E) eqn:Ex;
    (erewrite P_Convert.exec_ok; [eexists; split; [reflexivity|]; split; [repeat split|reflexivity]|unfold template; rewrite Ex; vm_compute; reflexivity|]);
    in_frame Nr; cbn; flat.
  (* markdown-quote *)
  - unfold renderMarkdownQuoteBlock. erewrite usual_ok by (eauto using mapS_ok). rewrite <- Hk, At.
    erewrite P_Convert.exec_ok; [eexists; split; [reflexivity|]; split; [repeat split|reflexivity]|unfold template; destruct (e_xhtml E); vm_compute; reflexivity|].
    clear Hk. in_frame Nr; cbn; flat.
  (* verse *)
  - unfold renderVerseBlock, inBlock. unfold bindM at 1. rewrite (roles_ok _ _ _ _ Hr). unfold bindM. fold (within st). rewrite He, (title_ok _ _ _ _ _ _ Ht), (id_ok _ _ Hi), <- Hk, At.
    destruct (e_xhtml E) eqn:Ex;
    (erewrite P_Convert.exec_ok; [eexists; split; [reflexivity|]; split; [repeat split|reflexivity]|unfold template; rewrite Ex; vm_compute; reflexivity|]);
    in_frame Nr; cbn; flat.
Qed.

(** C76, paragraphs *)
Theorem C76_paragraph : forall attrs es id roles title raw c st st1 st2,
  text_attribute attrs "id" id -> role_attribute attrs roles -> mget attrs "style" = None -> hasOption attrs "hardbreaks" = false ->
  hasOption (r_attrs st) "hardbreaks" = false -> r_within st = false -> r_list st = 0%Z ->
  all_rendered E k es st raw st1 -> ConvertSpec.trimmed raw c -> title_attribute (all_rendered E k) attrs st1 title st2 ->
  renderElement E (S k) (Paragraph attrs es) st = Ok (paragraph_html id roles title c, st2).
Proof.
  intros attrs es id roles title raw c st st1 st2 Hi Hr Hs Ho Hh Hw Hl He Hk Ht. apply elements_ok in He. apply P_Convert.trimmed_ok in Hk. pose proof (proj2 Hr) as Nr.
  cbn [renderElement renderElementWith]. unfold renderParagraph. rewrite Hw, Hl, Hs. cbn [orb Z.ltb Z.compare]. unfold renderRegularParagraph.
  erewrite usual_ok with (st1 := st1) (c := c); [|eassumption|eassumption| |eassumption].
  2: { unfold mapS, renderParagraphElements, bindM, getAttrs. rewrite Ho, Hh, He. cbn [orb]. unfold ret. now rewrite Hk. }
  erewrite P_Convert.exec_ok; [reflexivity|unfold template; destruct (e_xhtml E); vm_compute; reflexivity|]. unfold paragraph_html. in_frame Nr; cbn; flat.
Qed.
(** C76, source blocks (of delimited blocks and of paragraphs) *)
Theorem C76_source : forall attrs es id roles title language nowrap raw c st st1 st2,
  text_attribute attrs "id" id -> role_attribute attrs roles -> mget attrs "style" = Some (Types.VStr "source") -> text_attribute attrs "language" language ->
  (if nowrap : bool then mget attrs "options" = Some (VOptions [Types.VStr "nowrap"]) else mget attrs "options" = None) ->
  mget (r_attrs st) "source-highlighter" = None ->
  all_rendered E k es (within st) raw st1 -> ConvertSpec.trimmed raw c ->
  title_attribute (all_rendered E k) attrs (mkRst (r_attrs st1) (r_counters st1) (r_within st) (r_list st1) (r_log st1)) title st2 ->
  renderElement E (S k) (DelimitedBlock "listing" attrs es) st = Ok (source_html id roles title language nowrap c, st2).
Proof.
  intros attrs es id roles title language nowrap raw c st st1 st2 Hi Hr Hs Hg Hn Hh He Hk Ht. apply elements_ok in He. apply P_Convert.trimmed_ok in Hk. pose proof (proj2 Hr) as Nr.
  cbn [renderElement renderElementWith renderDelimitedBlock String.eqb Ascii.eqb Bool.eqb]. unfold renderListingBlock. rewrite Hs. cbn [eq_str String.eqb Ascii.eqb Bool.eqb].
  unfold renderSourceBlock. unfold bindM at 1. unfold renderSourceBlockElements, inBlock, bindM at 1, getAttrs. fold (within st). cbn [r_attrs within].
  assert (getD E (r_attrs st) "source-highlighter" "" = "") as -> by (unfold getD, getAsStringD; now rewrite Hh).
  assert (getD E attrs "language" "" = language) as -> by (unfold getD, getAsStringD; destruct Hg as [->|[-> ->]]; reflexivity).
  cbn [String.eqb negb andb]. rewrite orb_true_r. unfold bindM at 1. rewrite He. unfold ret at 1. unfold bindM at 1. rewrite (roles_ok _ _ _ _ Hr).
  unfold bindM. rewrite (title_ok _ _ _ _ _ _ Ht), (id_ok _ _ Hi). cbn [fst snd]. rewrite Hk.
  destruct nowrap; rewrite Hn; cbn [existsb eq_str String.eqb Ascii.eqb Bool.eqb orb];
  (erewrite P_Convert.exec_ok; [reflexivity|unfold template; destruct (e_xhtml E); vm_compute; reflexivity|]); unfold source_html; in_frame Nr; cbn; flat.
Qed.
(** C76, admonition blocks *)
Theorem C76_admonition : forall attrs es id roles title style class caption c st st1 st2,
  In (style, (class, caption)) ConvertSpec.admonition_captions -> e_toLower E style = class -> e_toLower E class = class ->
  text_attribute attrs "id" id -> role_attribute attrs roles -> mget attrs "style" = Some (Types.VStr style) -> mget attrs "caption" = None ->
  mget (r_attrs st) "icons" = None -> mget (r_attrs st) (class ++ "-caption")%string = None ->
  all_rendered E k es st c st1 -> title_attribute (all_rendered E k) attrs st1 title st2 ->
  renderElement E (S k) (DelimitedBlock "example" attrs es) st = Ok (admonition_block_html id class roles title caption c, st2).
Proof.
  intros attrs es id roles title style class caption c st st1 st2 I Lw Lc Hi Hr Hs Hc Hic Hcc He Ht. apply elements_ok in He. pose proof (proj2 Hr) as Nr.
  cbn [renderElement renderElementWith renderDelimitedBlock String.eqb Ascii.eqb Bool.eqb]. unfold ahas, mhas. rewrite Hs. unfold renderAdmonitionBlock, getAsString. rewrite Hs. cbn [optS]. rewrite Lw, Lc.
  unfold bindM at 1, renderIcon, bindM at 1, getAttrs.
  assert (getD E (r_attrs st) "icons" "text" = "text") as -> by (unfold getD, getAsStringD; now rewrite Hic). cbn [String.eqb Ascii.eqb Bool.eqb orb].
  unfold bindM at 1, ret at 1.
  assert (getD E attrs "caption" (getD E (r_attrs st) (class ++ "-caption") (defaultIconClass (class ++ "-caption"))) = caption) as ->.
  { unfold getD, getAsStringD. rewrite Hc, Hcc. cbv [ConvertSpec.admonition_captions In] in I. repeat (destruct I as [I|I]; [injection I as <- <- <-; reflexivity|]). destruct I. }
  erewrite P_Convert.exec_ok; [|unfold template; destruct (e_xhtml E); vm_compute; reflexivity|cbn; reflexivity].
  erewrite usual_ok by eauto. cbn [app].
  erewrite P_Convert.exec_ok; [reflexivity|unfold template; destruct (e_xhtml E); vm_compute; reflexivity|].
  unfold admonition_block_html. clear Lw Lc Hcc I. in_frame Nr; cbn; flat.
Qed.


(** the templates of the lists *)
Definition framed_of (i base r t inner : string) : string := (opening_of i base r ++ title_line "" t ++ inner ++ "</div>" ++ LF)%string.
Lemma framed_ok id base roles t inner : roles <> [""] -> frame id base roles (title_line "" t ++ inner) = framed_of (escaped id) base (String.concat " " roles) t inner.
Proof. intros N. unfold frame, framed_of. rewrite opening_ok by exact N. now rewrite sapp_assoc. Qed.
Lemma framed_nothing base inner : frame "" base [] inner = framed_of "" base "" "" inner.
Proof. exact (framed_ok "" base [] "" inner ltac:(discriminate)). Qed.
Ltac by_template := intros; eapply P_Convert.exec_ok; [unfold template; destruct (e_xhtml E); vm_compute; reflexivity|]; unfold framed_of, opening_of, class_of, title_line; emptiness; cbn; flat.
Lemma ol_html i t r style ls c st :
  exec E TOrderedList [(".ID", Tmpl.FS i); (".Title", Tmpl.FS t); (".Roles", Tmpl.FS r); (".Style", Tmpl.FS style); (".ListStyle", Tmpl.FS ls); (".Start", Tmpl.FS "");
    (".Content", Tmpl.FS c); (".Reversed", Tmpl.FB false)] st =
  Ok (framed_of i ("olist " ++ style) r t ("<ol class=""" ++ style ++ """" ++ (if String.eqb ls "" then "" else " type=""" ++ ls ++ """") ++ ">" ++ LF ++ c ++ "</ol>" ++ LF), st).
Proof. by_template. Qed.
Lemma ul_html i t r (b : bool) c st :
  exec E TUnorderedList [(".ID", Tmpl.FS i); (".Title", Tmpl.FS t); (".Checklist", Tmpl.FB b); (".Content", Tmpl.FS c); (".Roles", Tmpl.FS r); (".Style", Tmpl.FS "")] st =
  Ok (framed_of i (if b then "ulist checklist" else "ulist") r t ((if b then "<ul class=""checklist"">" else "<ul>") ++ LF ++ c ++ "</ul>" ++ LF), st).
Proof. destruct b; by_template. Qed.
Lemma dl_html i t r c st :
  exec E TLabeledList [(".ID", Tmpl.FS i); (".Title", Tmpl.FS t); (".Roles", Tmpl.FS r); (".Content", Tmpl.FS c)] st = Ok (framed_of i "dlist" r t ("<dl>" ++ LF ++ c ++ "</dl>" ++ LF), st).
Proof. by_template. Qed.

Lemma co_html i t r c st :
  exec E TCalloutList [(".ID", Tmpl.FS i); (".Title", Tmpl.FS t); (".Roles", Tmpl.FS r); (".Content", Tmpl.FS c)] st = Ok (framed_of i "colist arabic" r t ("<ol>" ++ LF ++ c ++ "</ol>" ++ LF), st).
Proof. by_template. Qed.
(** C76, lists: the frame of the list without attributes is completed, its content is the same *)
Theorem C76_list : forall kind attrs es id roles title h0 st st1 st2,
  only_frame attrs -> text_attribute attrs "id" id -> role_attribute attrs roles ->
  renderElement E (S k) (ListBlock kind [] es) st = Ok (h0, st1) -> title_attribute (all_rendered E k) attrs st1 title st2 ->
  exists class inner, list_class kind class /\ h0 = frame "" class [] inner /\
    renderElement E (S k) (ListBlock kind attrs es) st = Ok (frame id class roles (title_line "" title ++ inner), st2).
Proof.
  intros kind attrs es id roles title h0 st st1 st2 Of Hi Hr Hz Ht. pose proof (proj2 Hr) as Nr.
  assert (forall key, In key ["style"; "start"; "options"; "reversed"] -> mget attrs key = None) as No.
  { intros key I. apply Of. intros J. cbn in I, J. repeat (destruct I as [<-|I]; [repeat destruct J as [J|J]; try discriminate J; exact J|]). destruct I. }
  pose proof (roles_ok (renderElement E k) _ _ st Hr) as _.
  cbn [renderElement renderElementWith] in *. unfold renderList in *.
  destruct (String.eqb_spec kind "ordered_list") as [->|_]; [|destruct (String.eqb_spec kind "unordered_list") as [->|_]; [|destruct (String.eqb_spec kind "labeled_list") as [->|_]; [|destruct (String.eqb_spec kind "callout_list") as [->|_]; [|discriminate Hz]]]].
  - unfold renderOrderedList in *. unfold bindM at 1 in Hz. unfold bindM at 1. destruct (renderOrderedItems E (renderElement E k) es st) as [[c st']| |]; [|discriminate Hz|discriminate Hz].
    unfold bindM in Hz. unfold bindM. rewrite (roles_ok _ _ _ _ Hr).
    change (renderElementRoles (renderElement E k) [] st') with (Ok ("", st') : result (string * rst)) in Hz. cbv iota beta in Hz.
    unfold getNumberingStyle, getAsString in *. rewrite (No "style") by (cbn; tauto). cbn [mget] in Hz. unfold lift in *.
    destruct (match es with [] => Panic "index out of range [0]" | OrderedListElement style _ _ :: _ => Ok style | _ => Err "unable to render ordered list style" end) as [style| |]; [|discriminate Hz|discriminate Hz].
    change (renderElementTitle (renderElement E k) [] st') with (Ok ("", st') : result (string * rst)) in Hz. cbv iota beta in Hz.
    change (getD E [] "start" "") with "" in Hz. change (hasOption [] "reversed") with false in Hz. change (renderElementID []) with "" in Hz. rewrite ol_html in Hz. injection Hz as <- <-.
    assert (getD E attrs "start" "" = "") as -> by (unfold getD, getAsStringD; rewrite (No "start") by (cbn; tauto); reflexivity).
    assert (hasOption attrs "reversed" = false) as -> by (unfold hasOption, AttrOptions, ahas, mhas; rewrite (No "options"), (No "reversed") by (cbn; tauto); reflexivity).
    rewrite (title_ok _ _ _ _ _ _ Ht), (id_ok _ _ Hi), ol_html. do 2 eexists. split; [right; left; split; [reflexivity|eexists; reflexivity]|]. split; [symmetry; apply framed_nothing|].
    now rewrite framed_ok.
  - unfold renderUnorderedList in *. unfold bindM at 1 in Hz. unfold bindM at 1.
    match type of Hz with match ?x with _ => _ end = _ => destruct x as [[b st0]| |]; [|discriminate Hz|discriminate Hz] end.
    unfold bindM at 1 in Hz. unfold bindM at 1. destruct (renderUnorderedItems E (renderElement E k) es st0) as [[c st']| |]; [|discriminate Hz|discriminate Hz].
    unfold bindM in Hz. unfold bindM. rewrite (roles_ok _ _ _ _ Hr).
    change (renderElementRoles (renderElement E k) [] st') with (Ok ("", st') : result (string * rst)) in Hz. cbv iota beta in Hz.
    change (renderElementTitle (renderElement E k) [] st') with (Ok ("", st') : result (string * rst)) in Hz. cbv iota beta in Hz.
    change (renderElementStyle []) with "" in Hz. change (renderElementID []) with "" in Hz. rewrite ul_html in Hz. injection Hz as <- <-.
    unfold renderElementStyle. rewrite (No "style") by (cbn; tauto). rewrite (title_ok _ _ _ _ _ _ Ht), (id_ok _ _ Hi), ul_html.
    exists (if b then "ulist checklist" else "ulist"). eexists. split; [left; split; [reflexivity|destruct b; [right|left]; reflexivity]|]. split; [symmetry; apply framed_nothing|]. now rewrite framed_ok.
  - unfold renderLabeledList, getLabeledListTmpl in *. rewrite (No "style") by (cbn; tauto). cbn [mget] in Hz. unfold bindM, ret in Hz. unfold bindM, ret. cbn [fst snd] in *.
    destruct (renderLabeledItems E (renderElement E k) TLabeledListElement false es st) as [[c st']| |] eqn:Ei; [|unfold usual, bindM in Hz; rewrite Ei in Hz; discriminate Hz|unfold usual, bindM in Hz; rewrite Ei in Hz; discriminate Hz].
    rewrite (usual_ok [] "" [] "" st st' st' c) in Hz; [|right; split; reflexivity|split; [right; split; reflexivity|discriminate]|exact Ei|constructor; reflexivity].
    cbn [escaped String.concat] in Hz. rewrite dl_html in Hz. injection Hz as <- <-. erewrite usual_ok by eauto. rewrite dl_html.
    do 2 eexists. split; [right; right; left; split; reflexivity|]. split; [symmetry; apply framed_nothing|]. now rewrite framed_ok.
  - unfold renderCalloutList in *.
    destruct (renderCalloutItems E (renderElement E k) es st) as [[c st']| |] eqn:Ei; [|unfold usual, bindM in Hz; rewrite Ei in Hz; discriminate Hz|unfold usual, bindM in Hz; rewrite Ei in Hz; discriminate Hz].
    rewrite (usual_ok [] "" [] "" st st' st' c) in Hz; [|right; split; reflexivity|split; [right; split; reflexivity|discriminate]|exact Ei|constructor; reflexivity].
    cbn [escaped String.concat] in Hz. rewrite co_html in Hz. injection Hz as <- <-. erewrite usual_ok by eauto. rewrite co_html.
    do 2 eexists. split; [right; right; right; split; reflexivity|]. split; [symmetry; apply framed_nothing|]. now rewrite framed_ok.
Qed.
End Frames.

(** * Instances *)
Definition demo_state : rst := mkRst [] [] false 0 [].
Definition demo_attrs : attributes := [("id", Types.VStr "a<b"); ("roles", VRoles [Types.VStr "red"; Types.VStr "big"]); ("title", VSlice [StringElement "The"; StringElement " text"])].
Definition demo_quote : attributes := demo_attrs ++ [("quoteAuthor", Types.VStr "Me"); ("quoteTitle", Types.VStr "Here")].
Lemma demo_title attrs : mget attrs "title" = mget demo_attrs "title" -> forall st, r_attrs st = [] -> title_attribute (all_rendered P_Convert.demo_env 3) attrs st "The text" st.
Proof.
  intros Q st Q0. eapply rich_title; [rewrite Q; reflexivity|]. eapply (r_more _ _ _ _ _ "The" _ " text"); [|eapply (r_more _ _ _ _ _ " text" _ ""); [|constructor]];
  cbn [renderElement renderElementWith]; unfold renderString, bindM, getAttrs, ret; rewrite Q0; reflexivity.
Qed.
Definition demo_items : list val := [UnorderedListElement "oneasterisk" "nocheck" [] [Paragraph [] [StringElement "x"]]].
Example C76_hypotheses :
  (exists st3, renderElement P_Convert.demo_env 4 (DelimitedBlock "quote" demo_quote [StringElement "x"]) demo_state =
    Ok ("<div id=""a&lt;b"" class=""quoteblock red big"">" ++ LF ++ "<div class=""title"">The text</div>" ++ LF ++ "<blockquote>" ++ LF ++ "x</blockquote>" ++ LF ++
        "<div class=""attribution"">" ++ LF ++ "&#8212; Me<br>" ++ LF ++ "<cite>Here</cite>" ++ LF ++ "</div>" ++ LF ++ "</div>" ++ LF, st3)%string) /\
  renderElement P_Convert.demo_env 4 (Paragraph demo_attrs [StringElement "x"]) demo_state =
    Ok ("<div id=""a&lt;b"" class=""paragraph red big"">" ++ LF ++ "<div class=""title"">The text</div>" ++ LF ++ "<p>x</p>" ++ LF ++ "</div>" ++ LF, demo_state)%string /\
  renderElement P_Convert.demo_env 4 (DelimitedBlock "example" (("style", Types.VStr "NOTE") :: demo_attrs) [StringElement "x"]) demo_state =
    Ok (admonition_block_html "a<b" "note" ["red"; "big"] "The text" "Note" "x", demo_state) /\
  (exists inner, renderElement P_Convert.demo_env 4 (ListBlock "unordered_list" demo_attrs demo_items) demo_state =
    Ok (frame "a<b" "ulist" ["red"; "big"] (title_line "" "The text" ++ inner), demo_state)).
Proof.
  assert (text_attribute demo_attrs "id" "a<b" /\ role_attribute demo_attrs ["red"; "big"]) as [Hi Hr] by (split; [left; reflexivity|split; [left; reflexivity|discriminate]]).
  assert (all_rendered P_Convert.demo_env 3 [StringElement "x"] demo_state "x" demo_state) as He by (eapply (r_more _ _ _ _ _ "x" _ ""); [reflexivity|constructor]).
  split; [|split; [|split]].
  - destruct (C76_framed P_Convert.demo_env 3 "quote" demo_quote [StringElement "x"] "a<b" ["red"; "big"] "The text" "" "Me" "Here" "x" "x" demo_state demo_state demo_state _ eq_refl) as (st3 & Q & _);
      [left; reflexivity|split; [left; reflexivity|discriminate]|reflexivity|left; reflexivity|left; reflexivity|discriminate|discriminate|exact He|reflexivity|now apply demo_title|].
    exists st3. exact Q.
  - exact (C76_paragraph P_Convert.demo_env 3 demo_attrs [StringElement "x"] "a<b" ["red"; "big"] "The text" "x" "x" demo_state demo_state demo_state Hi Hr eq_refl eq_refl eq_refl eq_refl eq_refl He
      ltac:(exists 0, 0; split; [reflexivity|split; [discriminate|intros [|? [|]]; discriminate]]) (demo_title demo_attrs eq_refl demo_state eq_refl)).
  - apply (C76_admonition P_Convert.demo_env 3 (("style", Types.VStr "NOTE") :: demo_attrs) [StringElement "x"] "a<b" ["red"; "big"] "The text" "NOTE" "note" "Note" "x" demo_state demo_state demo_state);
      [right; left; reflexivity|reflexivity|reflexivity|left; reflexivity|split; [left; reflexivity|discriminate]|reflexivity|reflexivity|reflexivity|reflexivity|exact He|now apply demo_title].
  - destruct (renderElement P_Convert.demo_env 4 (ListBlock "unordered_list" [] demo_items) demo_state) as [[h0 st1]| |] eqn:Q;
      [|vm_compute in Q; discriminate Q|vm_compute in Q; discriminate Q].
    assert (st1 = demo_state) as -> by (vm_compute in Q; injection Q as _ <-; reflexivity).
    destruct (C76_list P_Convert.demo_env 3 "unordered_list" demo_attrs demo_items "a<b" ["red"; "big"] "The text" h0 demo_state demo_state demo_state) as (class & inner & Lc & Q0 & Q1); auto.
    + intros key N. cbn in N. unfold demo_attrs. cbn [mget]. destruct (String.eqb_spec key "id") as [->|_]; [tauto|]. destruct (String.eqb_spec key "roles") as [->|_]; [tauto|]. destruct (String.eqb_spec key "title") as [->|_]; [tauto|reflexivity].
    + now apply demo_title.
    + assert (class = "ulist") as ->; [|now exists inner]. destruct Lc as [[_ [->| ->]]|[[D _]|[[D _]|[D _]]]]; try discriminate D; [reflexivity|]. vm_compute in Q. rewrite Q0 in Q. exfalso.
      injection Q as Q. vm_compute in Q. discriminate Q.
Qed.
Example C76_source_hypotheses : renderElement P_Convert.demo_env 4 (DelimitedBlock "listing" ([("style", Types.VStr "source"); ("language", Types.VStr "go")] ++ demo_attrs) [StringElement "x"]) demo_state =
  Ok (source_html "a<b" ["red"; "big"] "The text" "go" false "x", demo_state).
Proof.
  apply (C76_source P_Convert.demo_env 3 ([("style", Types.VStr "source"); ("language", Types.VStr "go")] ++ demo_attrs) [StringElement "x"] "a<b" ["red"; "big"] "The text" "go" false "x" "x" demo_state (within demo_state) demo_state);
    [left; reflexivity|split; [left; reflexivity|discriminate]|reflexivity|left; reflexivity|reflexivity|reflexivity| |exists 0, 0; split; [reflexivity|split; [discriminate|intros [|? [|]]; discriminate]]|now apply demo_title].
  eapply (r_more _ _ _ _ _ "x" _ ""); [reflexivity|constructor].
Qed.
(** not for literal blocks: the roles are written after the class, where they are attributes without value *)
Example C76_literal_refuted : renderElement P_Convert.demo_env 4 (DelimitedBlock "literal" [("roles", VRoles [Types.VStr "red"])] [StringElement "x"]) demo_state =
  Ok ("<div class=""literalblock"" red>" ++ LF ++ "<div class=""content"">" ++ LF ++ "<pre>x</pre>" ++ LF ++ "</div>" ++ LF ++ "</div>" ++ LF, demo_state)%string.
Proof. vm_compute. reflexivity. Qed.
(** ... and not for quotes and verses written as paragraphs: their roles are not written *)
Example C76_quote_paragraph_refuted : forall style, In style ["quote"; "verse"] ->
  exists html, renderElement P_Convert.demo_env 4 (Paragraph [("style", Types.VStr style); ("roles", VRoles [Types.VStr "red"])] [StringElement "x"]) demo_state = Ok (html, demo_state) /\
               renderElement P_Convert.demo_env 4 (Paragraph [("style", Types.VStr style)] [StringElement "x"]) demo_state = Ok (html, demo_state).
Proof. intros style [<-|[<-|[]]]; eexists; vm_compute; split; reflexivity. Qed.
Print Assumptions C76_framed.
Print Assumptions C76_paragraph.
Print Assumptions C76_source.
Print Assumptions C76_admonition.
Print Assumptions C76_list.
