(** C77: the HTML of inline elements. *)
From Coq Require Import List String Ascii NArith ZArith Bool Lia.
From Verif Require Import GoBase GoLemmas Types Attrs TocRender Escape Footnotes Templates Render FrameSpec P_Frames TagSpec.
From Verif Require Tmpl ConvertSpec P_Convert.
Import ListNotations.
Local Open Scope string_scope.
Local Open Scope list_scope.

Lemma escaped_empty id : escaped id = "" -> id = "".
Proof. destruct id as [|c s]; [reflexivity|]. intros Q. destruct (escaped_nonempty c s) as (d & t & R). congruence. Qed.
Ltac flat := repeat (progress (rewrite ?sapp_assoc, ?sapp_nil_r; cbn [append])); try reflexivity.
Ltac all_fields := repeat match goal with |- context[escaped ?x] => generalize (escaped x); intro | |- context[String.concat " " ?x] => generalize (String.concat " " x); intro end;
  repeat match goal with |- context[String.eqb ?x ""] => is_var x; destruct x as [|?c ?x'] end; cbn [String.eqb].

(** running a template node by node *)
Section Nodes.
Variable low : string -> string.
Lemma nodes_nil e : Tmpl.exec_nodes low [] e = Ok "". Proof. reflexivity. Qed.
Lemma nodes_cons n ns e s t : Tmpl.exec_node low n e = Ok s -> Tmpl.exec_nodes low ns e = Ok t -> Tmpl.exec_nodes low (n :: ns) e = Ok (s ++ t)%string.
Proof. intros Hn Ht. cbn [Tmpl.exec_nodes]. rewrite Hn. cbn [bind]. rewrite Ht. reflexivity. Qed.
Lemma lit_node x e : Tmpl.exec_node low (Tmpl.NLit x) e = Ok x. Proof. reflexivity. Qed.
Lemma field_node f e x : Tmpl.field e f = Ok (Tmpl.FS x) -> Tmpl.exec_node low (Tmpl.NField f) e = Ok x.
Proof. intros Hf. cbn [Tmpl.exec_node]. rewrite Hf. reflexivity. Qed.
Lemma if_node f a b e x sa sb : Tmpl.field e f = Ok (Tmpl.FS x) -> Tmpl.exec_nodes low a e = Ok sa -> Tmpl.exec_nodes low b e = Ok sb ->
  Tmpl.exec_node low (Tmpl.NIf (Tmpl.CField f) a b) e = Ok (if String.eqb x "" then sb else sa).
Proof.
  intros Hf Ha Hb. change (bind (Tmpl.eval e (Tmpl.CField f)) (fun t => if t then Tmpl.exec_nodes low a e else Tmpl.exec_nodes low b e) = Ok (if String.eqb x "" then sb else sa)).
  cbn [Tmpl.eval]. rewrite Hf. cbn [bind Tmpl.truth]. destruct (String.eqb x ""); assumption.
Qed.
Lemma ne_node f a b e x sa sb : Tmpl.field e f = Ok (Tmpl.FS x) -> Tmpl.exec_nodes low a e = Ok sa -> Tmpl.exec_nodes low b e = Ok sb ->
  Tmpl.exec_node low (Tmpl.NIf (Tmpl.CNe f "") a b) e = Ok (if String.eqb x "" then sb else sa).
Proof.
  intros Hf Ha Hb. change (bind (Tmpl.eval e (Tmpl.CNe f "")) (fun t => if t then Tmpl.exec_nodes low a e else Tmpl.exec_nodes low b e) = Ok (if String.eqb x "" then sb else sa)).
  cbn [Tmpl.eval]. rewrite Hf. cbn [bind]. destruct (String.eqb x ""); assumption.
Qed.
End Nodes.
Ltac nodes := lazymatch goal with
  | |- Tmpl.exec_nodes _ [] _ = _ => apply nodes_nil
  | |- Tmpl.exec_nodes _ (_ :: _) _ = _ => eapply nodes_cons; [node|nodes]
  end
with node := first [apply lit_node | eapply field_node; reflexivity | eapply if_node; [reflexivity|nodes|nodes] | eapply ne_node; [reflexivity|nodes|nodes]].
Ltac by_nodes := etransitivity; [nodes|apply f_equal; unfold LF; repeat (progress (rewrite ?sapp_assoc, ?sapp_nil_r; cbn [append]))].

Section Tags.
Variables (E : renv) (k : nat).

(** C77, quoted text *)
Theorem C77_quoted : forall kind tag attrs es id roles c st st1,
  In (kind, tag) quote_tags -> text_attribute attrs "id" id -> role_attribute attrs roles -> all_rendered E k es st c st1 ->
  renderElement E (S k) (QuotedText kind es attrs) st = Ok (quoted_html tag id roles c, st1).
Proof.
  intros kind tag attrs es id roles c st st1 I Hi Hr He. apply elements_ok in He.
  cbn [renderElement renderElementWith]. unfold renderQuotedText, bindM. rewrite He, (roles_ok _ _ _ _ Hr), (id_ok _ _ Hi).
  cbv [quote_tags In] in I.
  repeat (destruct I as [I|I]; [injection I as <- <-; cbn [quotedTemplate existsb String.eqb Ascii.eqb Bool.eqb orb];
    (eapply P_Convert.exec_ok; [unfold template; destruct (e_xhtml E); vm_compute; reflexivity|]); unfold quoted_html, attr, tag_of; cbv zeta; cbn [String.eqb Ascii.eqb Bool.eqb andb]; all_fields; cbn; flat|]).
  destruct I.
Qed.
(** the text of an attribute *)
Lemma getD_text attrs name v : text_attribute attrs name v -> getD E attrs name "" = v.
Proof. unfold getD, getAsStringD. intros [->|[-> ->]]; reflexivity. Qed.
Lemma link_template id url class target b text st :
  exec E TLink [(".ID", Tmpl.FS id); (".URL", Tmpl.FS url); (".Text", Tmpl.FS text); (".Class", Tmpl.FS class); (".Target", Tmpl.FS target); (".NoOpener", Tmpl.FB b)] st =
  Ok ("<a" ++ attr "id" id ++ attr "href" url ++ attr "class" class ++ attr "target" target ++ (if b then " rel=""noopener""" else "") ++ ">" ++ text ++ "</a>", st)%string.
Proof. eapply P_Convert.exec_ok; [unfold template; destruct (e_xhtml E); vm_compute; reflexivity|]. unfold attr. all_fields; destruct b; cbn; flat. Qed.
(** C77, links with a text: a string, or elements (whose last blanks are dropped) *)
Theorem C77_link : forall attrs scheme path id roles target text shown st st1,
  text_attribute attrs "id" id -> role_attribute attrs roles -> text_attribute attrs "window" target ->
  (mget attrs "text" = Some (Types.VStr text) /\ shown = escapeString text /\ st1 = st \/
   exists es, mget attrs "text" = Some (VSlice es) /\ all_rendered E k es st shown st1 /\ (forall u, shown <> u ++ " ")%string) ->
  renderElement E (S k) (InlineLink attrs (Location scheme (Types.VStr path))) st =
  Ok (link_html id (escapeString (scheme ++ path)) roles target (String.eqb target "_blank" || hasOption attrs "noopener") shown, st1).
Proof.
  intros attrs scheme path id roles target text shown st st1 Hi Hr Hw Ht.
  cbn [renderElement renderElementWith]. unfold renderLink. rewrite (getD_text _ _ _ Hi), (getD_text _ _ _ Hw). unfold bindM. rewrite (roles_ok _ _ _ _ Hr).
  assert (forall es st shown st1, all_rendered E k es st shown st1 -> (forall u, shown <> u ++ " ")%string -> renderInlineElements (renderElement E k) es st = Ok (shown, st1)) as Il.
  { clear. intros es st shown st1. induction 1 as [st|v l st h st1 t st2 R A IH]; intros N; [reflexivity|]. cbn [renderInlineElements]. unfold bindM. rewrite R, IH.
    - unfold ret. destruct l as [|w l]; [|reflexivity]. assert (t = "") as -> by (inversion A; reflexivity). rewrite sapp_nil_r in N. rewrite !sapp_nil_r.
      assert (trim_right_char " " h = h) as Q; [|destruct v; now rewrite ?Q].
      clear -N. induction h as [|d h IH]; [reflexivity|]. cbn [trim_right_char]. rewrite IH.
      + destruct h as [|e h]; [|reflexivity]. destruct (Ascii.eqb_spec d " ") as [->|]; [|reflexivity]. exfalso. now apply (N "").
      + intros u ->. now apply (N (String d u)).
    - intros u ->. apply (N (h ++ u)%string). now rewrite sapp_assoc. }
  destruct Ht as [(-> & -> & ->)|(es & -> & Ae & Nt)]; unfold ret; [|rewrite (Il _ _ _ _ Ae Nt)]; cbn [fst snd]; rewrite link_template; unfold link_html, Locations.toString; cbn [Ids.stringify]; reflexivity.
Qed.
(** ... and without text: the target is the text *)
Theorem C77_link_bare : forall attrs scheme path id roles target st,
  text_attribute attrs "id" id -> role_attribute attrs roles -> text_attribute attrs "window" target -> mget attrs "text" = None -> (scheme = "mailto:" -> roles = []) ->
  renderElement E (S k) (InlineLink attrs (Location scheme (Types.VStr path))) st =
  Ok (link_html id (escapeString (scheme ++ path)) (if String.eqb scheme "mailto:" then [] else "bare" :: roles) target (String.eqb target "_blank" || hasOption attrs "noopener")
        (escapeString (if String.eqb scheme "mailto:" then path else scheme ++ path)), st).
Proof.
  intros attrs scheme path id roles target st Hi Hr Hw Ht Nm. pose proof (proj2 Hr) as Nr.
  cbn [renderElement renderElementWith]. unfold renderLink. rewrite (getD_text _ _ _ Hi), (getD_text _ _ _ Hw). unfold bindM. rewrite (roles_ok _ _ _ _ Hr), Ht. unfold ret. cbn [scheme_of fst snd].
  rewrite link_template. unfold link_html, Locations.toString, Ids.toDisplayString. cbn [Ids.stringify].
  destruct (String.eqb_spec scheme "mailto:") as [->|_]; [rewrite (Nm eq_refl); reflexivity|].
  do 5 f_equal. rewrite class_ok by exact Nr. unfold class_of. destruct (String.concat " " roles); reflexivity.
Qed.
(** C77, images *)
Lemma roles_img attrs float align roles st : text_attribute attrs "float" float -> text_attribute attrs "align" align -> (mget attrs "float" = Some (Types.VStr float) -> float <> "") ->
  (mget attrs "align" = Some (Types.VStr align) -> align <> "") -> role_attribute attrs roles ->
  renderImageRoles (renderElement E k) attrs st = Ok (String.concat " " (image_classes float align roles), st).
Proof.
  intros Hf Ha Nf Na [Hr _]. unfold renderImageRoles, bindM, image_classes.
  assert (match mget attrs "roles" with Some (VRoles l) => renderRoles (renderElement E k) l | _ => ret [] end st = Ok (roles, st)) as -> by (destruct Hr as [->|[-> ->]]; [apply roles_strings|reflexivity]).
  unfold ret. rewrite join_concat. unfold getAsString.
  destruct Hf as [Qf|[Qf ->]]; rewrite Qf; [destruct (String.eqb_spec float "") as [Z|_]; [now apply Nf in Qf|]|];
  (destruct Ha as [Qa|[Qa ->]]; rewrite Qa; [destruct (String.eqb_spec align "") as [Z|_]; [now apply Na in Qa|]|]); reflexivity.
Qed.
Theorem C77_inline_image : forall attrs loc float align roles link alt width height title st st1,
  text_attribute attrs "float" float -> text_attribute attrs "align" align -> (mget attrs "float" = Some (Types.VStr float) -> float <> "") ->
  (mget attrs "align" = Some (Types.VStr align) -> align <> "") -> role_attribute attrs roles -> image_classes float align roles <> [""] ->
  text_attribute attrs "link" link -> text_attribute attrs "width" width -> text_attribute attrs "height" height ->
  mget attrs "alt" = Some (Types.VStr alt) \/ (mget attrs "alt" = None /\ e_alt E (e_src E (r_attrs st) loc) = Ok alt) ->
  title_attribute (all_rendered E k) attrs st title st1 ->
  renderElement E (S k) (InlineImage loc attrs) st =
  Ok (inline_image_html (e_xhtml E) (image_classes float align roles) link (e_src E (r_attrs st) loc) alt width height title, st1).
Proof.
  intros attrs loc float align roles link alt width height title st st1 Hf Ha Nf Na Hr Nc Hl Hw Hh Hat Ht.
  cbn [renderElement renderElementWith]. unfold renderInlineImage. unfold bindM. rewrite (roles_img _ _ _ _ _ Hf Ha Nf Na Hr). unfold getAttrs.
  rewrite (getD_text _ _ _ Hl), (getD_text _ _ _ Hw), (getD_text _ _ _ Hh). unfold renderImageAlt, getAsString.
  assert (match match mget attrs "alt" with Some (Types.VStr s) => Some s | _ => None end with Some s => Ok s | None => e_alt E (e_src E (r_attrs st) loc) end = Ok alt) as -> by (destruct Hat as [->|[-> ->]]; reflexivity).
  unfold lift. rewrite (title_ok _ _ _ _ _ _ Ht). unfold inline_image_html. rewrite (class_ok _ _ Nc). unfold class_of, img_html, attr. generalize (e_src E (r_attrs st) loc). intros src.
  destruct (e_xhtml E) eqn:Ex; (eapply P_Convert.exec_ok; [unfold template; rewrite Ex; vm_compute; reflexivity|]); by_nodes; reflexivity.
Qed.

(** [label]: the caption of the image itself; an image without caption is numbered, see C46 *)
Theorem C77_image_block : forall attrs loc id float align roles link alt width height label title st st1,
  text_attribute attrs "id" id ->
  text_attribute attrs "float" float -> text_attribute attrs "align" align -> (mget attrs "float" = Some (Types.VStr float) -> float <> "") ->
  (mget attrs "align" = Some (Types.VStr align) -> align <> "") -> role_attribute attrs roles -> image_classes float align roles <> [""] ->
  text_attribute attrs "link" link -> text_attribute attrs "width" width -> text_attribute attrs "height" height ->
  title_attribute (all_rendered E k) attrs st title st1 ->
  (title <> "" -> mget attrs "caption" = Some (Types.VStr label) /\ contains label "{counter:figure-number}" = false) ->
  mget attrs "alt" = Some (Types.VStr alt) \/ (mget attrs "alt" = None /\ e_alt E (e_src E (r_attrs st1) loc) = Ok alt) ->
  renderElement E (S k) (ImageBlock loc attrs) st =
  Ok (block_image_html (e_xhtml E) id (image_classes float align roles) link (e_src E (r_attrs st1) loc) alt width height label title, st1).
Proof.
  intros attrs loc id float align roles link alt width height label title st st1 Hi Hf Ha Nf Na Hr Nc Hl Hw Hh Ht Hc Hat.
  cbn [renderElement renderElementWith]. unfold renderImageBlock. unfold bindM. rewrite (title_ok _ _ _ _ _ _ Ht).
  assert (exists lb n, (if String.eqb title "" then ret ("", 0%Z) else renderCaption attrs "figure-caption" "imageCounter" "{counter:figure-number}") st1 = Ok ((lb, n), st1) /\ (title <> "" -> lb = label)) as (lb & n & -> & El).
  { destruct (String.eqb_spec title "") as [->|Nt]; [exists "", 0%Z; split; [reflexivity|congruence]|]. destruct (Hc Nt) as [Hl' Nl]. exists label, 0%Z. split; [|reflexivity].
    unfold renderCaption, bindM, getAttrs, getAsString. rewrite Hl', Nl. reflexivity. }
  rewrite (roles_img _ _ _ _ _ Hf Ha Nf Na Hr). unfold getAttrs.
  rewrite (getD_text _ _ _ Hl), (getD_text _ _ _ Hw), (getD_text _ _ _ Hh). unfold renderImageAlt, getAsString.
  assert (match match mget attrs "alt" with Some (Types.VStr s) => Some s | _ => None end with Some s => Ok s | None => e_alt E (e_src E (r_attrs st1) loc) end = Ok alt) as -> by (destruct Hat as [->|[-> ->]]; reflexivity).
  unfold lift. rewrite (id_ok _ _ Hi). cbn [fst snd]. unfold block_image_html, frame. rewrite (opening_ok _ _ _ Nc). unfold opening_of, class_of, img_html, attr, title_line, content. generalize (e_src E (r_attrs st1) loc). intros src.
  clear Hl Hw Hh Ht Hc Hat Hf Ha Nf Na Nc Hr Hi.
  destruct (e_xhtml E) eqn:Ex; (eapply P_Convert.exec_ok; [unfold template; rewrite Ex; vm_compute; reflexivity|]); by_nodes; (generalize (escaped id); intros [|ci ei]); cbn [String.eqb];
  (destruct title as [|ct title]; [|rewrite El by discriminate]; cbn [String.eqb]; repeat (progress (rewrite ?sapp_assoc, ?sapp_nil_r; cbn [append])); reflexivity).
Qed.
(** C77, menus *)
Definition below_html (class item : string) : string := ("&#160;<b class=""caret"">&#8250;</b> <b class=""" ++ class ++ """>" ++ item ++ "</b>")%string.
Definition menu_body : list Tmpl.node :=
  [Tmpl.NIf (Tmpl.CEq "$index" 0) [Tmpl.NLit "<b class=""menu"">"; Tmpl.NField "$element"; Tmpl.NLit "</b>"]
     [Tmpl.NIf (Tmpl.CLast ".Path" "$index") [Tmpl.NLit "&#160;<b class=""caret"">&#8250;</b> <b class=""menuitem"">"; Tmpl.NField "$element"; Tmpl.NLit "</b>"]
        [Tmpl.NLit "&#160;<b class=""caret"">&#8250;</b> <b class=""submenu"">"; Tmpl.NField "$element"; Tmpl.NLit "</b>"]]].
Lemma menu_items (elts : list (list (string * string))) items l n : (0 < n)%nat -> (n + S (List.length items) = List.length elts)%nat ->
  Tmpl.exec_range (e_toLower E) "$index" "$element" menu_body [(".Path", Tmpl.FL elts)] (map (fun s => [("", s)]) (items ++ [l])) n =
  Ok (String.concat "" (map (below_html "submenu") items) ++ below_html "menuitem" l)%string.
Proof.
  revert n. induction items as [|x items IH]; intros n Hn Hl.
  - cbn [app map Tmpl.exec_range].
    assert (Tmpl.exec_nodes (e_toLower E) menu_body (Tmpl.bind_elt "$index" "$element" n [("", l)] [(".Path", Tmpl.FL elts)]) = Ok (below_html "menuitem" l)) as ->; [|cbn [bind]; now rewrite sapp_nil_r].
    unfold menu_body. cbn -[Z.of_nat Z.eqb Z.sub below_html]. destruct (Z.eqb_spec (Z.of_nat n) 0) as [Q|_]; [lia|].
    destruct (Z.eqb_spec (Z.of_nat n) (Z.of_nat (List.length elts) - 1)) as [_|Q]; [|cbn [List.length] in Hl; lia]. cbn [bind]. unfold below_html. flat.
  - cbn [app map Tmpl.exec_range].
    assert (Tmpl.exec_nodes (e_toLower E) menu_body (Tmpl.bind_elt "$index" "$element" n [("", x)] [(".Path", Tmpl.FL elts)]) = Ok (below_html "submenu" x)) as ->.
    { unfold menu_body. cbn -[Z.of_nat Z.eqb Z.sub below_html]. destruct (Z.eqb_spec (Z.of_nat n) 0) as [Q|_]; [lia|].
      destruct (Z.eqb_spec (Z.of_nat n) (Z.of_nat (List.length elts) - 1)) as [Q|_]; [cbn [List.length] in Hl; lia|]. cbn [bind]. unfold below_html. flat. }
    cbn [bind]. rewrite IH by (cbn [List.length] in Hl; lia). cbn [bind]. f_equal. rewrite !P_Convert.concat_sconcat. unfold sconcat. cbn [fold_right map]. now rewrite sapp_assoc.
Qed.
Theorem C77_menu : forall path st, path <> [] -> renderElement E (S k) (InlineMenu path) st = Ok (menu_html path, st).
Proof.
  intros path st Ne. cbn [renderElement renderElementWith]. destruct path as [|a below]; [congruence|]. destruct below as [|z below _] using rev_ind.
  - eapply P_Convert.exec_ok; [unfold template; destruct (e_xhtml E); vm_compute; reflexivity|]. cbn. flat.
  - set (elts := map (fun s => [("", s)]) (a :: below ++ [z])).
    assert (List.length elts = List.length below + 2)%nat as Le by (unfold elts; rewrite map_length; cbn [List.length]; rewrite app_length; cbn; lia).
    assert (Tmpl.exec_range (e_toLower E) "$index" "$element" menu_body [(".Path", Tmpl.FL elts)] elts 0 =
      Ok ("<b class=""menu"">" ++ a ++ "</b>" ++ String.concat "" (map (below_html "submenu") below) ++ below_html "menuitem" z)%string) as R.
    { unfold elts at 2. cbn [map Tmpl.exec_range]. rewrite menu_items by lia. cbn -[below_html String.concat]. flat. }
    assert (menu_html (a :: below ++ [z]) = ("<span class=""menuseq""><b class=""menu"">" ++ a ++ "</b>" ++ String.concat "" (map (below_html "submenu") below) ++ below_html "menuitem" z ++ "</span>")%string) as ->.
    { unfold menu_html. destruct (below ++ [z]) as [|y l] eqn:Q; [destruct below; discriminate Q|]. rewrite <- Q. rewrite removelast_last, last_last. unfold below_html. flat. }
    eapply P_Convert.exec_ok; [unfold template; destruct (e_xhtml E); vm_compute; reflexivity|].
    cbn [Tmpl.exec_nodes Tmpl.exec_node Tmpl.eval Tmpl.field mget String.eqb Ascii.eqb Bool.eqb bind]. rewrite Le.
    destruct (Z.eqb_spec (Z.of_nat (List.length below + 2)) 1) as [Q|_]; [lia|].
    assert (Tmpl.truth (Tmpl.FL elts) = true) as -> by reflexivity.
    match goal with |- context[(fix range (l : list (list (string * string))) (k0 : nat) {struct l} : result string := _) elts 0] => idtac end.
    match goal with |- context[?g elts 0] => assert (forall l n, g l n = Tmpl.exec_range (e_toLower E) "$index" "$element" menu_body [(".Path", Tmpl.FL elts)] l n) as G by
      (clear; induction l as [|elt l IH]; intros n; [reflexivity|]; cbn [Tmpl.exec_range]; rewrite <- IH; reflexivity) end.
    rewrite G, R. cbn [bind]. flat.
Qed.
(** C77, footnotes *)
Theorem C77_footnote : forall n name, (0 <= n)%Z -> forall st,
  renderElement E (S k) (FootnoteReference n (Types.VStr name) false) st = Ok (footnote_html (itoa n) name, st) /\
  renderElement E (S k) (FootnoteReference n (Types.VStr name) true) st = Ok (footnote_again_html (itoa n), st) /\
  renderElement E (S k) (FootnoteReference InvalidFootnoteReference (Types.VStr name) false) st = Ok (footnote_unknown_html name, st).
Proof.
  intros n name Hn st. cbn [renderElement renderElementWith]. unfold renderFootnoteReference, InvalidFootnoteReference. destruct (Z.eqb_spec n (-1)) as [Q|_]; [lia|].
  cbn [negb andb ref_str Z.eqb Pos.eqb]. repeat split; (eapply P_Convert.exec_ok; [unfold template; destruct (e_xhtml E); vm_compute; reflexivity|]);
  unfold footnote_html, footnote_again_html, footnote_unknown_html; [destruct name|..]; cbn -[itoa]; flat.
Qed.
(** C77, cross references inside of the document *)
Theorem C77_xref : forall id label st,
  renderElement E (S k) (InternalCrossReference (Types.VStr id) (Types.VStr label)) st = Ok ("<a href=""#" ++ e_toLower E id ++ """>" ++ label ++ "</a>", st)%string /\
  (mget (e_refs E) id = None ->
   renderElement E (S k) (InternalCrossReference (Types.VStr id) Types.VNil) st = Ok ("<a href=""#" ++ e_toLower E id ++ """>[" ++ id ++ "]</a>", st)%string) /\
  (forall l h st1, mget (e_refs E) id = Some (VSlice l) -> Forall (fun v => match v with InlineLink _ _ => False | _ => True end) l -> all_rendered E k l st h st1 ->
   renderElement E (S k) (InternalCrossReference (Types.VStr id) Types.VNil) st = Ok ("<a href=""#" ++ e_toLower E id ++ """>" ++ h ++ "</a>", st1)%string).
Proof.
  intros id label st. cbn [renderElement renderElementWith]. unfold renderInternalCrossReference, renderRefLabel, bindM, ret.
  assert (forall l st, exec E TInternalCrossReference [(".Href", Tmpl.FS id); (".Label", Tmpl.FS l)] st = Ok ("<a href=""#" ++ e_toLower E id ++ """>" ++ l ++ "</a>", st)%string) as X.
  { intros l st'. eapply P_Convert.exec_ok; [unfold template; destruct (e_xhtml E); vm_compute; reflexivity|]. cbn. flat. }
  repeat split.
  - apply X.
  - intros ->. rewrite X. flat.
  - intros l h st1 -> F A. assert (renderLabel E (renderElement E k) l st = Ok (h, st1)) as ->; [|apply X].
    induction A as [st|v l st h st1 t st2 R A IH]; [reflexivity|]. inversion F as [|? ? Hv Fl]; subst. cbn [renderLabel].
    assert ((match v with InlineLink _ _ => lift (renderPlainText E v) | _ => renderElement E k v end) st = Ok (h, st1)) as Q by (destruct v; try exact R; destruct Hv).
    unfold bindM at 1. rewrite Q. unfold bindM, ret. rewrite (IH Fl). reflexivity.
Qed.
(** C77, buttons *)
Theorem C77_button : forall attrs label st, mget attrs "label" = Some (Types.VStr label) ->
  renderElement E (S k) (InlineButton attrs) st = Ok ("<b class=""button"">" ++ label ++ "</b>", st)%string.
Proof.
  intros attrs label st Hl. cbn [renderElement renderElementWith]. unfold renderInlineButton. rewrite Hl.
  eapply P_Convert.exec_ok; [unfold template; destruct (e_xhtml E); vm_compute; reflexivity|]. cbn. flat.
Qed.
End Tags.

(** * Instances *)
Definition a_link : attributes := [("id", Types.VStr "here"); ("roles", VRoles [Types.VStr "red"; Types.VStr "big"]); ("text", VSlice [StringElement "a "; QuotedText "*" [StringElement "b"] []]); ("window", Types.VStr "_blank")].
Definition an_image : attributes := [("id", Types.VStr "i"); ("roles", VRoles [Types.VStr "red"]); ("float", Types.VStr "left"); ("alt", Types.VStr "An image"); ("width", Types.VStr "10"); ("link", Types.VStr "x.html");
  ("title", Types.VStr "The image"); ("caption", Types.VStr "Figure A. ")].
Fixpoint last_char (d : ascii) (s : string) : ascii := match s with "" => d | String c s' => last_char c s' end.
Lemma no_blank_end s : last_char "x" s <> " "%char -> forall u, s <> (u ++ " ")%string.
Proof. intros N u ->. apply N. clear N. generalize "x"%char. induction u as [|c u IH]; intros d; [reflexivity|]. cbn [append last_char]. apply IH. Qed.
Notation demo := P_Convert.demo_env.
Lemma demo_ab : all_rendered demo 3 [StringElement "a "; QuotedText "*" [StringElement "b"] []] demo_state "a <strong>b</strong>" demo_state.
Proof.
  eapply (r_more _ _ _ _ _ "a " _ "<strong>b</strong>"); [reflexivity|]. eapply (r_more _ _ _ _ _ "<strong>b</strong>" _ ""); [|constructor].
  apply (C77_quoted demo 2 "*" "strong" [] [StringElement "b"] "" [] "b" demo_state demo_state); [now left|right; split; reflexivity|split; [right; split; reflexivity|discriminate]|].
  eapply (r_more _ _ _ _ _ "b" _ ""); [reflexivity|constructor].
Qed.
Example C77_hypotheses :
  renderElement demo 4 (InlineLink a_link (Location "https://" (Types.VStr "x.org?a&b"))) demo_state =
    Ok ("<a id=""here"" href=""https://x.org?a&amp;b"" class=""red big"" target=""_blank"" rel=""noopener"">a <strong>b</strong></a>", demo_state) /\
  renderElement demo 4 (InlineLink [("roles", VRoles [Types.VStr "red"])] (Location "https://" (Types.VStr "x.org"))) demo_state =
    Ok ("<a href=""https://x.org"" class=""bare red"">https://x.org</a>", demo_state) /\
  renderElement demo 4 (QuotedText "#" [StringElement "a "; QuotedText "*" [StringElement "b"] []] [("roles", VRoles [Types.VStr "red"])]) demo_state =
    Ok ("<span class=""red"">a <strong>b</strong></span>", demo_state) /\
  renderElement demo 4 (InlineImage (Location "" (Types.VStr "i.png")) an_image) demo_state =
    Ok ("<span class=""image left red""><a class=""image"" href=""x.html""><img src="""" alt=""An image"" width=""10"" title=""The image""></a></span>", demo_state) /\
  renderElement demo 4 (ImageBlock (Location "" (Types.VStr "i.png")) an_image) demo_state =
    Ok ("<div id=""i"" class=""imageblock left red"">" ++ LF ++ "<div class=""content"">" ++ LF ++ "<a class=""image"" href=""x.html""><img src="""" alt=""An image"" width=""10""></a>" ++ LF ++ "</div>" ++ LF ++
        "<div class=""title"">Figure A. The image</div>" ++ LF ++ "</div>" ++ LF, demo_state)%string /\
  renderElement demo 4 (InlineMenu ["File"; "Open"; "Recent"]) demo_state =
    Ok ("<span class=""menuseq""><b class=""menu"">File</b>&#160;<b class=""caret"">&#8250;</b> <b class=""submenu"">Open</b>&#160;<b class=""caret"">&#8250;</b> <b class=""menuitem"">Recent</b></span>", demo_state).
Proof.
  split; [|split; [|split; [|split; [|split]]]].
  - apply (C77_link demo 3 a_link "https://" "x.org?a&b" "here" ["red"; "big"] "_blank" "" "a <strong>b</strong>" demo_state demo_state); [left; reflexivity|split; [left; reflexivity|discriminate]|left; reflexivity|].
    right. eexists. split; [reflexivity|]. split; [exact demo_ab|]. now apply no_blank_end.
  - apply (C77_link_bare demo 3 [("roles", VRoles [Types.VStr "red"])] "https://" "x.org" "" ["red"] "" demo_state); [right; split; reflexivity|split; [left; reflexivity|discriminate]|right; split; reflexivity|reflexivity|discriminate].
  - apply (C77_quoted demo 3 "#" "mark" [("roles", VRoles [Types.VStr "red"])] _ "" ["red"] "a <strong>b</strong>" demo_state demo_state); [cbn; tauto|right; split; reflexivity|split; [left; reflexivity|discriminate]|exact demo_ab].
  - apply (C77_inline_image demo 3 an_image (Location "" (Types.VStr "i.png")) "left" "" ["red"] "x.html" "An image" "10" "" "The image" demo_state demo_state);
      try (left; reflexivity); try (right; split; reflexivity); try discriminate; [split; [left; reflexivity|discriminate]|apply text_title; reflexivity].
  - apply (C77_image_block demo 3 an_image (Location "" (Types.VStr "i.png")) "i" "left" "" ["red"] "x.html" "An image" "10" "" "Figure A. " "The image" demo_state demo_state);
      try (left; reflexivity); try (right; split; reflexivity); try discriminate; [split; [left; reflexivity|discriminate]|apply text_title; reflexivity|intros _; split; reflexivity].
  - apply (C77_menu demo 3 ["File"; "Open"; "Recent"] demo_state). discriminate.
Qed.
(** not for mail addresses with roles and without text: the class begins with a blank *)
Example C77_mailto_refuted : renderElement demo 4 (InlineLink [("roles", VRoles [Types.VStr "red"])] (Location "mailto:" (Types.VStr "me@x.org"))) demo_state =
  Ok ("<a href=""mailto:me@x.org"" class="" red"">me@x.org</a>", demo_state).
Proof. vm_compute. reflexivity. Qed.
(** ids of links are written as they are, those of other elements are escaped *)
Example C77_link_id_refuted : exists h, renderElement demo 4 (InlineLink [("id", Types.VStr "a""b"); ("text", Types.VStr "t")] (Location "https://" (Types.VStr "x.org"))) demo_state = Ok (h, demo_state) /\
  h = "<a id=""a""b"" href=""https://x.org"">t</a>".
Proof. eexists. vm_compute. split; reflexivity. Qed.
Print Assumptions C77_quoted.
Print Assumptions C77_link.
Print Assumptions C77_link_bare.
Print Assumptions C77_inline_image.
Print Assumptions C77_image_block.
Print Assumptions C77_menu.
Print Assumptions C77_footnote.
Print Assumptions C77_xref.
Print Assumptions C77_button.
Print Assumptions C77_hypotheses.
