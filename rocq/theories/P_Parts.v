(** C80: sections, preambles, icons and admonitions with icons. *)
From Coq Require Import List String Ascii NArith ZArith Bool Lia.
From Verif Require Import GoBase GoLemmas Types Attrs TocRender Templates Render FrameSpec P_Frames TagSpec P_Tags ItemSpec P_Items CellSpec P_TableHtml PartSpec.
From Verif Require Tmpl ConvertSpec P_Convert P_ListHtml.
Import ListNotations.
Local Open Scope string_scope.
Local Open Scope list_scope.

Section Nodes.
Variable low : string -> string.
Lemma bool_node f a b e x sa sb : Tmpl.field e f = Ok (Tmpl.FB x) -> Tmpl.exec_nodes low a e = Ok sa -> Tmpl.exec_nodes low b e = Ok sb ->
  Tmpl.exec_node low (Tmpl.NIf (Tmpl.CField f) a b) e = Ok (if x then sa else sb).
Proof.
  intros Hf Ha Hb. change (bind (Tmpl.eval e (Tmpl.CField f)) (fun t => if t then Tmpl.exec_nodes low a e else Tmpl.exec_nodes low b e) = Ok (if x then sa else sb)).
  cbn [Tmpl.eval]. rewrite Hf. cbn [bind Tmpl.truth]. destruct x; assumption.
Qed.
Lemma eq_node f m a b e n sa sb : Tmpl.field e f = Ok (Tmpl.FI n) -> Tmpl.exec_nodes low a e = Ok sa -> Tmpl.exec_nodes low b e = Ok sb ->
  Tmpl.exec_node low (Tmpl.NIf (Tmpl.CEq f m) a b) e = Ok (if Z.eqb n m then sa else sb).
Proof.
  intros Hf Ha Hb. change (bind (Tmpl.eval e (Tmpl.CEq f m)) (fun t => if t then Tmpl.exec_nodes low a e else Tmpl.exec_nodes low b e) = Ok (if Z.eqb n m then sa else sb)).
  cbn [Tmpl.eval]. rewrite Hf. cbn [bind]. destruct (Z.eqb n m); assumption.
Qed.
Lemma or2_node f g a b e x y sa sb : Tmpl.field e f = Ok (Tmpl.FS x) -> Tmpl.field e g = Ok (Tmpl.FS y) -> Tmpl.exec_nodes low a e = Ok sa -> Tmpl.exec_nodes low b e = Ok sb ->
  Tmpl.exec_node low (Tmpl.NIf (Tmpl.COr [f; g]) a b) e = Ok (if String.eqb x "" then if String.eqb y "" then sb else sa else sa).
Proof.
  intros Hf Hg Ha Hb. change (bind (Tmpl.eval e (Tmpl.COr [f; g])) (fun t => if t then Tmpl.exec_nodes low a e else Tmpl.exec_nodes low b e) = Ok (if String.eqb x "" then if String.eqb y "" then sb else sa else sa)).
  cbn [Tmpl.eval Tmpl.any_truth]. rewrite Hf. cbn [bind Tmpl.truth]. rewrite Hg. cbn [bind Tmpl.truth]. destruct (String.eqb x ""); cbn [negb bind]; [destruct (String.eqb y ""); cbn [negb bind]|]; assumption.
Qed.
Lemma or3_node f g h a b e x y z sa sb : Tmpl.field e f = Ok (Tmpl.FS x) -> Tmpl.field e g = Ok (Tmpl.FS y) -> Tmpl.field e h = Ok (Tmpl.FS z) -> Tmpl.exec_nodes low a e = Ok sa -> Tmpl.exec_nodes low b e = Ok sb ->
  Tmpl.exec_node low (Tmpl.NIf (Tmpl.COr [f; g; h]) a b) e = Ok (if String.eqb x "" then if String.eqb y "" then if String.eqb z "" then sb else sa else sa else sa).
Proof.
  intros Hf Hg Hh Ha Hb. change (bind (Tmpl.eval e (Tmpl.COr [f; g; h])) (fun t => if t then Tmpl.exec_nodes low a e else Tmpl.exec_nodes low b e) = Ok (if String.eqb x "" then if String.eqb y "" then if String.eqb z "" then sb else sa else sa else sa)).
  cbn [Tmpl.eval Tmpl.any_truth]. rewrite Hf. cbn [bind Tmpl.truth]. rewrite Hg. cbn [bind Tmpl.truth]. rewrite Hh. cbn [bind Tmpl.truth].
  destruct (String.eqb x ""); cbn [negb bind]; [destruct (String.eqb y ""); cbn [negb bind]; [destruct (String.eqb z ""); cbn [negb bind]|]|]; assumption.
Qed.
End Nodes.
Ltac nodes := lazymatch goal with
  | |- Tmpl.exec_nodes _ [] _ = _ => apply nodes_nil
  | |- Tmpl.exec_nodes _ (_ :: _) _ = _ => eapply nodes_cons; [node|nodes]
  end
with node := first [apply lit_node | eapply field_node; reflexivity | eapply int_node; reflexivity | eapply fn_node; [reflexivity|reflexivity] | eapply if_node; [reflexivity|nodes|nodes] | eapply ifint_node; [reflexivity|nodes|nodes]
  | eapply bool_node; [reflexivity|nodes|nodes] | eapply eq_node; [reflexivity|nodes|nodes] | eapply or2_node; [reflexivity|reflexivity|nodes|nodes] | eapply or3_node; [reflexivity|reflexivity|reflexivity|nodes|nodes]].
Ltac by_nodes := etransitivity; [nodes|apply f_equal; unfold LF; repeat (progress (rewrite ?sapp_assoc, ?sapp_nil_r; cbn [append]))].

Ltac in_frame Nr := unfold frame; rewrite (opening_ok _ _ _ Nr); unfold opening_of, class_of, title_line;
  repeat match goal with |- context[escaped ?x] => generalize (escaped x); intro end; repeat match goal with |- context[String.concat " " ?x] => generalize (String.concat " " x); intro end;
  emptiness.

Section Parts.
Variables (E : renv) (k : nat).
Lemma number_ok attrs n : number_of E attrs n -> optS (mget (e_numbers E) (optS (getAsString attrs "id"))) = n.
Proof.
  unfold getAsString. intros [(id & H & H0)|(H & H0 & ->)]; [rewrite H; cbn [optS]; now rewrite H0|]. destruct (mget attrs "id") as [[]|]; cbn [optS]; rewrite ?H0; try reflexivity. now rewrite H.
Qed.
(** C80, sections *)
Theorem C80_section : forall level attrs title es id roles number shown t c st st1 st2,
  text_attribute attrs "id" id -> role_attribute attrs roles -> number_of E attrs number ->
  all_rendered E k title st shown st1 -> (forall u, shown <> u ++ " ")%string -> ConvertSpec.stripped shown t -> all_rendered E k es st1 c st2 ->
  renderElement E (S k) (Section level attrs (Some title) es) st = Ok (part_html level (e_toLower E (escaped id)) roles number t c, st2).
Proof.
  intros level attrs title es id roles number shown t c st st1 st2 Hi Hr Hn Ht Nt Hs He. apply elements_ok in He. pose proof (proj2 Hr) as Nr.
  cbn [renderElement renderElementWith]. unfold renderSection. unfold bindM at 1, renderSectionTitle. unfold bindM at 1. rewrite (inline_ok _ _ _ _ _ _ Ht Nt), (number_ok _ _ Hn), (P_ListHtml.stripped_ok _ _ Hs), (id_ok _ _ Hi).
  erewrite P_Convert.exec_ok; [|unfold template; destruct (e_xhtml E); vm_compute; reflexivity|by_nodes; reflexivity].
  unfold bindM. rewrite He, (roles_ok _ _ _ _ Hr). unfold part_html. rewrite (class_ok _ _ Nr). unfold class_of, heading_html.
  eapply P_Convert.exec_ok; [unfold template; destruct (e_xhtml E); vm_compute; reflexivity|]. by_nodes.
  destruct (Z.eqb level 1), (String.eqb (String.concat " " roles) ""), (String.eqb number ""); flat.
Qed.
(** C80, preambles *)
Theorem C80_preamble : forall es c st st1, all_rendered E k es st c st1 -> renderElement E (S k) (Preamble es) st = Ok (preamble_html (e_hasHeader E) c, st1).
Proof.
  intros es c st st1 He. apply elements_ok in He. cbn [renderElement renderElementWith]. unfold renderPreamble, bindM. rewrite He. unfold ret.
  eapply P_Convert.exec_ok; [unfold template; destruct (e_xhtml E); vm_compute; reflexivity|]. by_nodes. unfold preamble_html. cbn [String.eqb]. destruct (e_hasHeader E); flat.
Qed.
(** C80, icons: [label] is the text of the icon, by default its name *)
Lemma icon_ok class attrs i label width height title size rotate flip st :
  icons_attribute (r_attrs st) i -> default_attribute attrs "alt" class label -> (i = Images -> label <> "") ->
  text_attribute attrs "width" width -> text_attribute attrs "height" height -> text_attribute attrs "title" title ->
  text_attribute attrs "size" size -> text_attribute attrs "rotate" rotate -> text_attribute attrs "flip" flip ->
  renderIcon E class attrs false st = Ok (icon_html (e_xhtml E) i class (e_iconpath E (r_attrs st) class) label width height title size rotate flip, st).
Proof.
  intros Hi Ha Nl Hw Hh Ht Hs Hro Hf. unfold renderIcon, bindM at 1, getAttrs. cbv zeta.
  rewrite (default_ok _ _ _ _ _ Ha), (getD_text _ _ _ _ Hw), (getD_text _ _ _ _ Hh), (getD_text _ _ _ _ Ht), (getD_text _ _ _ _ Hs), (getD_text _ _ _ _ Hro), (getD_text _ _ _ _ Hf).
  unfold bindM. generalize (e_iconpath E (r_attrs st) class). intros src. clear Ha Hw Hh Ht Hs Hro Hf.
  assert (getD E (r_attrs st) "icons" "text" = match i with Texts => "text" | Fonts => "font" | Images => "image" end \/ i = Images /\ getD E (r_attrs st) "icons" "text" = "") as Hm.
  { unfold getD, getAsStringD. destruct i; cbn in Hi; [destruct Hi as [->| ->]|rewrite Hi|destruct Hi as [->| ->]]; auto. }
  assert (forall t, (if String.eqb (getD E (r_attrs st) "icons" "text") "font" then ret TIconFont else if String.eqb (getD E (r_attrs st) "icons" "text") "text" then ret TIconText else
     if String.eqb (getD E (r_attrs st) "icons" "text") "image" || String.eqb (getD E (r_attrs st) "icons" "text") "" then ret TIconImage else fail t) st =
     Ok (match i with Texts => TIconText | Fonts => TIconFont | Images => TIconImage end, st)) as X.
  { intros t. destruct Hm as [->|[-> ->]]; [destruct i|]; reflexivity. }
  rewrite X. clear X. 
  destruct i.
  - eapply P_Convert.exec_ok; [unfold template; destruct (e_xhtml E); vm_compute; reflexivity|]. by_nodes. reflexivity.
  - eapply P_Convert.exec_ok; [unfold template; destruct (e_xhtml E); vm_compute; reflexivity|]. by_nodes. unfold icon_html, shape, optional, attr. 
    destruct (String.eqb size ""), (String.eqb rotate ""), (String.eqb flip ""), (String.eqb title ""); cbn [app String.concat]; flat.
  - specialize (Nl eq_refl). apply String.eqb_neq in Nl. unfold icon_html, shape, optional, attr. 
    destruct (e_xhtml E) eqn:Ex; (eapply P_Convert.exec_ok; [unfold template; rewrite Ex; vm_compute; reflexivity|]); by_nodes; rewrite Nl;
    (destruct (String.eqb size ""), (String.eqb rotate ""), (String.eqb flip ""), (String.eqb title ""), (String.eqb width ""), (String.eqb height ""); cbn [app String.concat append String.eqb Ascii.eqb Bool.eqb]; flat).
Qed.
Theorem C80_icon : forall class attrs i id role link window label width height title size rotate flip st,
  icons_attribute (r_attrs st) i -> text_attribute attrs "id" id -> text_attribute attrs "link" link -> text_attribute attrs "window" window ->
  (mget attrs "roles" = None /\ role = "" \/ exists l, mget attrs "roles" = Some (VRoles l) /\ role = e_fmtv E (VRoles l)) ->
  default_attribute attrs "alt" class label -> (i = Images -> label <> "") ->
  text_attribute attrs "width" width -> text_attribute attrs "height" height -> text_attribute attrs "title" title ->
  text_attribute attrs "size" size -> text_attribute attrs "rotate" rotate -> text_attribute attrs "flip" flip ->
  renderElement E (S k) (Icon class attrs) st =
  Ok (inline_icon_html id role link window (icon_html (e_xhtml E) i class (e_iconpath E (r_attrs st) class) label width height title size rotate flip), st).
Proof.
  intros class attrs i id role link window label width height title size rotate flip st Hic Hi Hl Hwi Hr Ha Nl Hw Hh Ht Hs Hro Hf.
  cbn [renderElement renderElementWith]. unfold renderInlineIcon, bindM. rewrite (icon_ok _ _ _ _ _ _ _ _ _ _ _ Hic Ha Nl Hw Hh Ht Hs Hro Hf).
  generalize (icon_html (e_xhtml E) i class (e_iconpath E (r_attrs st) class) label width height title size rotate flip). intros icon.
  rewrite (id_ok _ _ Hi), (getD_text _ _ _ _ Hl), (getD_text _ _ _ _ Hwi).
  assert (getD E attrs "roles" "" = role) as -> by (unfold getD, getAsStringD; destruct Hr as [[-> ->]|(l & -> & ->)]; reflexivity).
  assert (String.eqb (escaped id) "" = String.eqb id "") as Ei by (destruct id as [|c id']; [reflexivity|destruct (escaped_nonempty c id') as (d & t & ->); reflexivity]).
  eapply P_Convert.exec_ok; [unfold template; destruct (e_xhtml E); vm_compute; reflexivity|]. by_nodes. unfold inline_icon_html, linked, attr. rewrite Ei.
  destruct (String.eqb id ""), (String.eqb role ""), (String.eqb link ""), (String.eqb window ""); flat.
Qed.
(** C80, admonitions, with any kind of icons *)
Theorem C80_admonition : forall attrs es i id roles title style class caption c st st1 st2,
  In (style, (class, caption)) ConvertSpec.admonition_captions -> e_toLower E style = class -> e_toLower E class = class -> icons_attribute (r_attrs st) i ->
  text_attribute attrs "id" id -> role_attribute attrs roles -> mget attrs "style" = Some (Types.VStr style) ->
  Forall (fun name => mget attrs name = None) ["caption"; "width"; "height"; "size"; "rotate"; "flip"] -> mget (r_attrs st) (class ++ "-caption")%string = None ->
  all_rendered E k es st c st1 -> title_attribute (all_rendered E k) attrs st1 title st2 ->
  renderElement E (S k) (DelimitedBlock "example" attrs es) st = Ok (admonition_html id class roles title (admonition_icon_html (e_xhtml E) i class (e_iconpath E (r_attrs st) class) caption) c, st2).
Proof.
  intros attrs es i id roles title style class caption c st st1 st2 I Lw Lc Hic Hi Hr Hs Ho Hcc He Ht. apply elements_ok in He. pose proof (proj2 Hr) as Nr.
  cbn [renderElement renderElementWith renderDelimitedBlock String.eqb Ascii.eqb Bool.eqb]. unfold ahas, mhas. rewrite Hs. unfold renderAdmonitionBlock, getAsString. rewrite Hs. cbn [optS]. rewrite Lw, Lc.
  assert (renderIcon E class attrs true st = Ok (admonition_icon_html (e_xhtml E) i class (e_iconpath E (r_attrs st) class) caption, st)) as Q.
  { unfold renderIcon, bindM at 1, getAttrs. cbv zeta.
    assert (caption <> "") as Nc by (cbv [ConvertSpec.admonition_captions In] in I; repeat (destruct I as [I|I]; [injection I as <- <- <-; discriminate|]); destruct I).
    assert (getD E attrs "caption" (getD E (r_attrs st) (class ++ "-caption") (defaultIconClass (class ++ "-caption"))) = caption) as ->.
    { unfold getD, getAsStringD. rewrite (Forall_inv Ho), Hcc. cbv [ConvertSpec.admonition_captions In] in I. repeat (destruct I as [I|I]; [injection I as <- <- <-; reflexivity|]). destruct I. }
    assert (forall name, In name ["width"; "height"; "size"; "rotate"; "flip"] -> getD E attrs name "" = "") as G.
    { intros name In0. unfold getD, getAsStringD. rewrite Forall_forall in Ho. rewrite Ho; [reflexivity|now right]. }
    rewrite !G by (cbn; tauto). unfold bindM. generalize (e_iconpath E (r_attrs st) class). intros src. clear G Ho Hcc He Ht I.
    assert (getD E (r_attrs st) "icons" "text" = match i with Texts => "text" | Fonts => "font" | Images => "image" end \/ i = Images /\ getD E (r_attrs st) "icons" "text" = "") as Hm.
    { unfold getD, getAsStringD. destruct i; cbn in Hic; [destruct Hic as [->| ->]|rewrite Hic|destruct Hic as [->| ->]]; auto. }
    apply String.eqb_neq in Nc.
    assert (Hm' : (i = Images /\ (getD E (r_attrs st) "icons" "text" = "image" \/ getD E (r_attrs st) "icons" "text" = "")) \/ (i = Fonts /\ getD E (r_attrs st) "icons" "text" = "font") \/ (i = Texts /\ getD E (r_attrs st) "icons" "text" = "text")) by (destruct i, Hm as [|[]]; auto; discriminate).
    clear Hm. destruct Hm' as [[-> [->| ->]]|[[-> ->]|[-> ->]]]; cbn [String.eqb Ascii.eqb Bool.eqb orb]; unfold ret;
    (destruct (e_xhtml E) eqn:Ex; (eapply P_Convert.exec_ok; [unfold template; rewrite Ex; vm_compute; reflexivity|]); by_nodes; cbn [String.eqb]; rewrite ?Nc; unfold admonition_icon_html; flat). }
  unfold bindM. rewrite Q. clear Q. generalize (admonition_icon_html (e_xhtml E) i class (e_iconpath E (r_attrs st) class) caption). intros icon.
  erewrite usual_ok by eauto. cbn [app].
  erewrite P_Convert.exec_ok; [reflexivity|unfold template; destruct (e_xhtml E); vm_compute; reflexivity|].
  unfold admonition_html. clear Lw Lc Hcc I. in_frame Nr; cbn; flat.
Qed.
End Parts.

(** * Instances *)
Definition demo_part_env : renv := mkRenv false P_Convert.ascii_lower (fun _ => "[a b]") (fun _ => Ok []) (fun _ _ => "") (fun s => Ok s) (fun _ s => "icons/" ++ s ++ ".png")%string (fun _ => None) (fun _ => "") (fun _ _ _ s => Ok s) [] [("_A", "1.2")] true.
Definition with_fonts : rst := mkRst [("icons", Types.VStr "font")] [] false 0 [].
Definition with_images : rst := mkRst [("icons", Types.VStr "")] [] false 0 [].
Lemma one_part s st : renderElement demo_part_env 3 (StringElement s) st = Ok (s, st) -> all_rendered demo_part_env 3 [StringElement s] st s st.
Proof. intros H. rewrite <- (sapp_nil_r s) at 2. eapply r_more; [exact H|constructor]. Qed.
Lemma title_stripped : ConvertSpec.stripped " A" "A".
Proof.
  exists [32%N]. split; [reflexivity|]. split; [repeat constructor|]. intros p u I. unfold ConvertSpec.white_space in I. cbn [In] in I.
  repeat (destruct I as [<-|I]; [split; intros Q; [discriminate Q|apply (f_equal (last_char "x")) in Q; rewrite last_app in Q by discriminate; vm_compute in Q; discriminate Q]|]). destruct I.
Qed.
Definition demo_icon : attributes := [("id", Types.VStr "i"); ("link", Types.VStr "l"); ("size", Types.VStr "2x"); ("flip", Types.VStr "horizontal"); ("title", Types.VStr "T")].
Example C80_hypotheses :
  renderElement demo_part_env 4 (Section 1 [("id", Types.VStr "_A"); ("roles", VRoles [Types.VStr "r"])] (Some [StringElement " A"]) [StringElement "x"]) with_fonts =
    Ok ("<div class=""sect1 r"">" ++ LF ++ "<h2 id=""_a"">1.2. A</h2>" ++ LF ++ "<div class=""sectionbody"">" ++ LF ++ "x</div>" ++ LF ++ "</div>" ++ LF, with_fonts)%string /\
  renderElement demo_part_env 4 (Preamble [StringElement "x"]) with_fonts =
    Ok ("<div id=""preamble"">" ++ LF ++ "<div class=""sectionbody"">" ++ LF ++ "x</div>" ++ LF ++ "</div>" ++ LF, with_fonts)%string /\
  renderElement demo_part_env 4 (Icon "heart" demo_icon) with_fonts =
    Ok ("<span id=""i"" class=""icon""><a class=""image"" href=""l""><i class=""fa fa-heart fa-2x fa-flip-horizontal"" title=""T""></i></a></span>", with_fonts) /\
  renderElement demo_part_env 4 (Icon "heart" demo_icon) with_images =
    Ok ("<span id=""i"" class=""icon""><a class=""image"" href=""l""><img src=""icons/heart.png"" alt=""heart"" title=""T"" class=""fa-2x fa-flip-horizontal""></a></span>", with_images) /\
  renderElement demo_part_env 4 (DelimitedBlock "example" [("style", Types.VStr "NOTE"); ("title", Types.VStr "T")] [StringElement "x"]) with_fonts =
    Ok (admonition_html "" "note" [] "T" "<i class=""fa icon-note"" title=""Note""></i>" "x", with_fonts).
Proof.
  assert (text_attribute demo_icon "id" "i" /\ text_attribute demo_icon "link" "l" /\ text_attribute demo_icon "window" "" /\ text_attribute demo_icon "width" "" /\ text_attribute demo_icon "height" "" /\
    text_attribute demo_icon "title" "T" /\ text_attribute demo_icon "size" "2x" /\ text_attribute demo_icon "rotate" "" /\ text_attribute demo_icon "flip" "horizontal") as (A1 & A2 & A3 & A4 & A5 & A6 & A7 & A8 & A9).
  { split; [left; reflexivity|]. split; [left; reflexivity|]. split; [right; split; reflexivity|]. split; [right; split; reflexivity|]. split; [right; split; reflexivity|]. split; [left; reflexivity|].
    split; [left; reflexivity|]. split; [right; split; reflexivity|left; reflexivity]. }
  split; [|split; [|split; [|split]]].
  - apply (C80_section demo_part_env 3 1 [("id", Types.VStr "_A"); ("roles", VRoles [Types.VStr "r"])] [StringElement " A"] [StringElement "x"] "_A" ["r"] "1.2" " A" "A" "x" with_fonts with_fonts with_fonts);
      [left; reflexivity|split; [left; reflexivity|discriminate]|left; exists "_A"; split; reflexivity|apply one_part; reflexivity|now apply no_blank_end|exact title_stripped|apply one_part; reflexivity].
  - apply (C80_preamble demo_part_env 3 [StringElement "x"] "x"). apply one_part. reflexivity.
  - apply (C80_icon demo_part_env 3 "heart" demo_icon Fonts "i" "" "l" "" "heart" "" "" "T" "2x" "" "horizontal" with_fonts); try assumption; [reflexivity|left; split; reflexivity|right; split; reflexivity|discriminate].
  - apply (C80_icon demo_part_env 3 "heart" demo_icon Images "i" "" "l" "" "heart" "" "" "T" "2x" "" "horizontal" with_images); try assumption; [right; reflexivity|left; split; reflexivity|right; split; reflexivity|discriminate].
  - apply (C80_admonition demo_part_env 3 [("style", Types.VStr "NOTE"); ("title", Types.VStr "T")] [StringElement "x"] Fonts "" [] "T" "NOTE" "note" "Note" "x" with_fonts with_fonts with_fonts);
      [cbn; tauto|reflexivity|reflexivity|reflexivity|right; split; reflexivity|split; [right; split; reflexivity|discriminate]|reflexivity|repeat constructor|reflexivity|apply one_part; reflexivity|now apply text_title].
Qed.
(** an icon with an empty text is not well-formed when icons are images, and the roles of an icon are written as Go prints the list of them *)
Example C80_icon_refuted :
  renderElement demo_part_env 4 (Icon "heart" [("alt", Types.VStr "")]) with_images = Ok ("<span class=""icon""><img src=""icons/heart.png""""></span>", with_images) /\
  renderElement demo_part_env 4 (Icon "heart" [("roles", VRoles [Types.VStr "a"; Types.VStr "b"])]) with_fonts = Ok ("<span class=""icon [a b]""><i class=""fa fa-heart""></i></span>", with_fonts).
Proof. split; vm_compute; reflexivity. Qed.
Print Assumptions C80_section.
Print Assumptions C80_preamble.
Print Assumptions C80_icon.
Print Assumptions C80_admonition.
Print Assumptions C80_hypotheses.
Print Assumptions C80_icon_refuted.
