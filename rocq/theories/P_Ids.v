(** Properties C30, C31: generated ids and natural cross references.

    [is_letter], [is_number] (Unicode classes) and [fmtv] (fmt's default format) are arbitrary. *)
From Verif Require Import GoBase GoLemmas Types Attrs Utf8 Ids Toc Context Aggregate SecSpec IdsSpec
  AggLemmas AggDoc IdsAlpha IdsShown IdsTail XrefLemmas XrefSpec XrefGen P_Sections.

(** ** C30: alphabet and shape of generated ids *)

(** The id generated from any title begins with the prefix; apart from the prefix it is the
    UTF-8 encoding of letters, digits and the separator.  (When the text already begins with the
    prefix, the prefix is not repeated: the whole id then is made of these characters.) *)
Theorem C30_id_alphabet :
  forall is_letter is_number fmtv title prefix sep, simple_sep sep ->
  let id := idFromElements is_letter is_number fmtv title prefix sep in
  has_prefix id prefix = true /\
  exists rs, (id = (prefix ++ encode_runes rs)%string \/ id = encode_runes rs) /\
    Forall (fun r => is_letter r = true \/ is_number r = true \/ In r (runes sep)) rs.
Proof.
  intros L N F title prefix sep HS id.
  destruct (idFromElements_alphabet L N F title prefix sep HS) as [H1 (rs & H2 & H3)].
  split; [exact H1|]. exists rs. split; [exact H3|].
  eapply Forall_impl; [|exact H2]. intros r [H|H]; [|now right; right].
  unfold is_alnum in H. apply orb_prop in H. tauto.
Qed.
Print Assumptions C30_id_alphabet.

(** The id of a title that is plain text: its words (runs of letters and digits, separated by
    spaces, dots and hyphens), joined by the separator - see [slug] in IdsSpec - with the prefix
    in front unless it is already there. *)
Theorem C30_plain_title :
  forall is_letter is_number fmtv s prefix sep, simple_sep sep ->
  (forall r, In r (runes sep) -> is_letter r = false /\ is_number r = false) ->
  let alnum r := is_letter r || is_number r in
  let body := slug alnum sep (runes (trim_left_char " " s)) in
  idFromElements is_letter is_number fmtv [StringElement s] prefix sep =
  if has_prefix body prefix then body else (prefix ++ body)%string.
Proof.
  intros L N F s prefix sep HS HN alnum body.
  apply (plain_title_id L N F s prefix sep). split; [exact HS|].
  apply Forall_forall. intros r Hr. unfold is_alnum. destruct (HN r Hr) as [-> ->]. reflexivity.
Qed.
Print Assumptions C30_plain_title.

(** Without the separators, and the prefix put in front, the id is made of exactly the letters and digits that the title shows, in
    order: for every title. *)
Theorem C30_letters :
  forall is_letter is_number fmtv title prefix sep, simple_sep sep ->
  let alnum r := is_letter r || is_number r in
  (forall r, In r (runes sep) -> alnum r = false) -> alnum 32%N = false ->
  exists body, idFromElements is_letter is_number fmtv title prefix sep = (if has_prefix body prefix then body else (prefix ++ body)%string) /\
    strip sep body = encode_runes (filter alnum (flat_map (shown fmtv) title)).
Proof.
  intros L N F title prefix sep HS alnum HN B. eexists. split; [reflexivity|]. apply (strip_id L N F B). split; assumption.
Qed.
Print Assumptions C30_letters.

(** The id does not end with the separator, if the last part of the title that counts has a letter or a digit. *)
Theorem C30_no_trailing_separator :
  forall is_letter is_number fmtv pre e rest prefix c, (N_of_ascii c < 128)%N ->
  let alnum r := is_letter r || is_number r in
  alnum (N_of_ascii c) = false -> alnum 32%N = false ->
  lettered alnum fmtv e -> Forall ignored rest ->
  forall t, idFromElements is_letter is_number fmtv (pre ++ e :: rest) prefix (String c "") <> (t ++ String c "")%string.
Proof.
  intros L N F pre e rest prefix c HC alnum HN B LE IG t. unfold idFromElements.
  pose proof (id_end L N F B c HC HN pre e rest LE IG) as H. pose proof (id_nonempty L N F B c HC HN pre e rest LE IG) as H0.
  destruct (has_prefix _ prefix); [apply H|]. intros E. apply app_last_inv in E; [|exact H0]. destruct E as (x & E & _). now apply (H x).
Qed.
Print Assumptions C30_no_trailing_separator.
Theorem C30_letters_example :
  let title := [StringElement "A "; QuotedText "*" [StringElement "b-"; Icon "tip" []] []; Symbol "(C)"; StringElement ", c"; BlankLine] in
  idFromElements ascii_letter ascii_number no_fmt title "_" "_" = "_A_b_tip_c" /\
  filter (fun r => ascii_letter r || ascii_number r) (flat_map (shown no_fmt) title) = runes "Abtipc" /\
  lettered (fun r => ascii_letter r || ascii_number r) no_fmt (StringElement ", c") /\ Forall ignored [BlankLine] /\ ascii_letter 32 || ascii_number 32 = false.
Proof. repeat split; try (vm_compute; reflexivity); repeat constructor. Qed.

(** of a plain title it does not, in any case *)
Theorem C30_plain_no_trailing_separator :
  forall is_letter is_number fmtv s prefix c, (N_of_ascii c < 128)%N ->
  is_letter (N_of_ascii c) = false -> is_number (N_of_ascii c) = false ->
  forall t, idFromElements is_letter is_number fmtv [StringElement s] prefix (String c "")
            = (prefix ++ t ++ String c "")%string -> False.
Proof.
  intros L N F s prefix c HC HL HN t E.
  revert E. apply (plain_no_trailing L N F s prefix c t HC).
  unfold is_alnum. now rewrite HL, HN.
Qed.
Print Assumptions C30_plain_no_trailing_separator.

Theorem C30_example :
  idFromElements ascii_letter ascii_number no_fmt [StringElement "  Hello, big--wide world. 2!"] "_" "_"
  = "_Hello_big_wide_world_2" /\
  slug (fun r => ascii_letter r || ascii_number r) "_" (runes "Hello, big--wide world. 2!")
  = "Hello_big_wide_world_2" /\ simple_sep "_".
Proof. repeat split; try (vm_compute; reflexivity). right. exists "_"%char. split; [vm_compute|]; reflexivity. Qed.

(** Full claim, "no separator at the end", fails for titles with quoted text that has no letters:
    the title "a `-` `-` `-`". *)
Theorem C30_no_trailing_separator_refuted :
  exists title, idFromElements ascii_letter ascii_number no_fmt title "_" "_" = "_a__".
Proof.
  pose (q := QuotedText "`" [StringElement "-"] []).
  exists [StringElement "a "; q; StringElement " "; q; StringElement " "; q].
  vm_compute. reflexivity.
Qed.
Print Assumptions C30_no_trailing_separator_refuted.

(** ** C31: natural cross references *)

(** Exactly, for every document with a section that has no explicit id: the section gets the id generated from its title with the
    prefix and separator declared before it (with a number if it is taken); every cross reference <<s>> of the document, [s] having a
    space, is resolved to the id generated from [s] with the prefix and separator in force at the end of the document; references
    without a space are left alone.  So the reference points to the section just when these two ids are the same. *)
Theorem C31_cross_references :
  forall is_letter is_number fmtv given fs doc pre l a t x post,
    NoDup (mkeys given) -> Forall shallow (goods fs) ->
    aggregate is_letter is_number fmtv (newContextAttributes given) fs = Some doc ->
    goods fs = pre ++ Section l a (Some t) x :: post ->
    mget a "id" = None ->
    let id_of els t := idFromElements is_letter is_number fmtv t (id_setting fmtv given els "idprefix") (id_setting fmtv given els "idseparator") in
    id_of pre t <> "" ->
    exists els' pre' post' id,
      Forall2 same_but_id (goods fs) els' /\
      map forget_xrefs (flat_map flat (d_elements doc)) = map forget_xrefs els' /\
      els' = pre' ++ Section l (mset a "id" (VStr id)) (Some t) x :: post' /\
      List.length pre' = List.length pre /\
      first_free (id_of pre t) (mkeys (registered fmtv pre')) id /\
      exists f, flat_map xref_ids (d_elements doc) = map f (flat_map xref_ids (goods fs)) /\
                (forall s, f (VStr s) = VStr (if contains s " " then id_of (goods fs) [StringElement s] else s)) /\
                (forall els, f (VSlice els) = VStr (id_of (goods fs) els)).
Proof. intros L N F given fs doc pre l a t x post ND SH A G HA id_of HB. exact (natural_xref_gen L N F given fs doc pre l a t x post ND SH A G HA HB). Qed.
Print Assumptions C31_cross_references.
(** prefix declared, section, prefix declared again and separator reset: the reference uses the last values *)
Theorem C31_settings_example :
  let els := [AttributeDeclaration "idprefix" (VStr "x-"); sec 1 "Some Title"; AttributeDeclaration "idprefix" (VStr "y-"); AttributeReset "idseparator"] in
  id_setting no_fmt [("idseparator", VStr "+")] (firstn 1 els) "idprefix" = "x-" /\ id_setting no_fmt [("idseparator", VStr "+")] els "idprefix" = "y-" /\
  id_setting no_fmt [("idseparator", VStr "+")] els "idseparator" = "+" /\
  option_map (fun d => (flat_map titled_id (flat_map flat (d_elements d)), flat_map xref_ids (d_elements d)))
    (aggregate ascii_letter ascii_number no_fmt (newContextAttributes [("idseparator", VStr "+")])
       [Frag (els ++ [Paragraph [] [InternalCrossReference (VStr "Some Title") VNil]])])
  = Some (["x-Some+Title"], [VStr "y-Some+Title"]).
Proof. vm_compute. auto. Qed.

(** A document with a section titled [s] (plain text with a space, no explicit id) that does not
    redefine idprefix / idseparator: every cross reference <<s>> of the document is resolved to
    the id generated from the title, which is the id of that section if nothing before it took
    it; references without a space are left alone. *)
Theorem C31_natural_cross_reference :
  forall is_letter is_number fmtv c fs doc pre l a s x post,
    Forall shallow (goods fs) ->
    Forall (fun e => ~ touches "idprefix" e /\ ~ touches "idseparator" e) (goods fs) ->
    aggregate is_letter is_number fmtv c fs = Some doc ->
    goods fs = pre ++ Section l a (Some [StringElement s]) x :: post ->
    contains s " " = true ->
    mget a "id" = None ->
    let base := baseID is_letter is_number fmtv (callAttributes c) a (Some [StringElement s]) in
    base <> "" ->
    exists els' pre' post' id,
      Forall2 same_but_id (goods fs) els' /\
      map forget_xrefs (flat_map flat (d_elements doc)) = map forget_xrefs els' /\
      els' = pre' ++ Section l (mset a "id" (VStr id)) (Some [StringElement s]) x :: post' /\
      List.length pre' = List.length pre /\
      (~ In base (mkeys (registered fmtv pre')) -> id = base) /\
      exists f, flat_map xref_ids (d_elements doc) = map f (flat_map xref_ids (goods fs)) /\
                f (VStr s) = VStr base /\
                forall s', contains s' " " = false -> f (VStr s') = VStr s'.
Proof. exact natural_xref_doc. Qed.
Print Assumptions C31_natural_cross_reference.

Definition xdoc : list fragment :=
  [Frag [Paragraph [] [StringElement "see "; InternalCrossReference (VStr "Some Title") VNil];
         sec 1 "Some Title"];
   Frag [Paragraph [] [InternalCrossReference (VStr "other") VNil]]].
Theorem C31_example :
  option_map (fun d => (flat_map titled_id (flat_map flat (d_elements d)),
                        flat_map xref_ids (d_elements d))) (agg xdoc)
  = Some (["_Some_Title"], [VStr "_Some_Title"; VStr "other"]).
Proof. vm_compute. reflexivity. Qed.
Theorem C31_example_hyp :
  Forall shallow (goods xdoc) /\
  Forall (fun e => ~ touches "idprefix" e /\ ~ touches "idseparator" e) (goods xdoc) /\
  contains "Some Title" " " = true /\
  baseID ascii_letter ascii_number no_fmt (callAttributes (newContextAttributes [])) []
    (Some [StringElement "Some Title"]) = "_Some_Title".
Proof. repeat split; repeat constructor; cbn; tauto. Qed.

(** The hypotheses are needed.  (1) When idprefix is redeclared after the section, the reference
    uses the new prefix and points nowhere. *)
Theorem C31_prefix_redeclared_refuted :
  exists fs doc, agg fs = Some doc /\
    flat_map titled_id (flat_map flat (d_elements doc)) = ["_Some_Title"] /\
    flat_map xref_ids (d_elements doc) = [VStr "x-Some_Title"].
Proof.
  eexists [Frag [sec 1 "Some Title"; AttributeDeclaration "idprefix" (VStr "x-");
          Paragraph [] [InternalCrossReference (VStr "Some Title") VNil]]], _.
  vm_compute. repeat split; reflexivity.
Qed.
Print Assumptions C31_prefix_redeclared_refuted.

(** (2) A title with a symbol: "foo -- bar" is parsed as foo, the symbol " -- ", bar, which gives
    the id _foobar, whereas the reference <<foo -- bar>> points to _foo_bar. *)
Theorem C31_symbol_in_title_refuted :
  exists fs doc, agg fs = Some doc /\
    flat_map titled_id (flat_map flat (d_elements doc)) = ["_foobar"] /\
    flat_map xref_ids (d_elements doc) = [VStr "_foo_bar"].
Proof.
  eexists [Frag [Section 1 [] (Some [StringElement "foo"; Symbol " -- "; StringElement "bar"]) [];
          Paragraph [] [InternalCrossReference (VStr "foo -- bar") VNil]]], _.
  vm_compute. repeat split; reflexivity.
Qed.
Print Assumptions C31_symbol_in_title_refuted.
