(** C40: validation of manpages. *)
From Verif Require Import GoBase GoLemmas Types Attrs AttrLemmas Aggregate Config ConfigSpec Authors AuthorsSpec AuthorsLemmas P_Authors RenderAttrs Validator XrefSpec.

(** The shape of a manpage: a header first, then a section of level 1 with the title "name" (in any case) holding one element, then
    a section of level 1 titled "synopsis". *)
Definition titled (toLower : string -> string) (t : string) (e : val) (content : list val) : Prop :=
  exists a c, e = Section 1 a (Some [StringElement c]) content /\ toLower c = t.
Definition manpage_shape (toLower : string -> string) (els : list val) : Prop :=
  exists t a hs n x s ss rest, els = DocumentHeader t a hs :: n :: s :: rest /\
    titled toLower "name" n [x] /\ titled toLower "synopsis" s ss.

(** The declarations at the start of the document: those at its very beginning or, failing these, those of its header (blank lines
    and front matter may come before it). *)
Fixpoint at_start (els : list val) : list val :=
  match els with
  | (AttributeDeclaration _ _ | AttributeReset _) as e :: r => e :: at_start r
  | _ => []
  end.
Fixpoint of_header (els : list val) : list val :=
  match els with
  | DocumentHeader _ _ hs :: _ => hs
  | (BlankLine | FrontMatter _) :: r => of_header r
  | _ => []
  end.
Definition start_declarations (els : list val) : list val := of_header els ++ at_start els.

Section C40.
  Variable toLower : string -> string.
  Variable fmtv : val -> string.

  Lemma isSection_titled t e es : isSection toLower t e = Some es <-> titled toLower t e es.
  Proof.
    unfold isSection, titled. split.
    - destruct e; try discriminate. destruct (Z.eqb_spec level 1) as [->|]; [|discriminate]. cbn [andb].
      unfold withTitle. destruct title as [[|[] [|]]|]; try discriminate.
      destruct (String.eqb_spec (toLower content) t) as [E|]; [|discriminate]. intros [= <-]. eauto.
    - intros (a & c & -> & E). cbn. rewrite E, String.eqb_refl. reflexivity.
  Qed.

  Lemma header_first els h i : docHeader els = Some (h, i) -> forall e0 r, bodyElements els = e0 :: r ->
    (exists es, isSection toLower "name" e0 = Some es) -> els = h :: e0 :: r.
  Proof.
    unfold docHeader. intros H e0 r B [es S]. destruct els as [|x l]; [discriminate|].
    cbn in H, B. destruct x; try discriminate; try (injection H as <- <-); try (injection B as <- <-; discriminate S).
    now rewrite B.
  Qed.

  Lemma docHeader_is : forall els i h j, docHeader_from els i = Some (h, j) -> exists tt aa ll, h = DocumentHeader tt aa ll.
  Proof.
    induction els as [|e r IH]; intros i h j H; [discriminate|]. cbn in H.
    destruct e; try discriminate; try (eapply IH; exact H). injection H as <- <-. eauto.
  Qed.

  (** Validation accepts exactly the documents of that shape. *)
  Theorem C40_validate_exact : forall els, validateManpage toLower els = Ok [] <-> manpage_shape toLower els.
  Proof.
    intros els. unfold validateManpage, manpage_shape. split.
    - destruct (bodyElements els) as [|e0 r] eqn:B; [discriminate|].
      destruct (isSection toLower "name" e0) as [nels|] eqn:S.
      2:{ intros H. destruct (docHeader els); discriminate H. }
      destruct (Nat.eqb_spec (List.length nels) 1) as [L|]; cbn [negb].
      2:{ intros H. destruct (docHeader els); discriminate H. }
      destruct nels as [|x [|]]; try discriminate L. cbn [nth_error]. destruct r as [|e1 r]; [discriminate|].
      destruct (isSection toLower "synopsis" e1) as [ss|] eqn:S2.
      2:{ intros H. destruct (docHeader els); discriminate H. }
      destruct (docHeader els) as [[h i]|] eqn:D; [|discriminate]. intros _.
      pose proof (header_first _ _ _ D _ _ B (ex_intro _ _ S)) as ->.
      assert (H : exists tt aa ll, h = DocumentHeader tt aa ll) by (eapply docHeader_is; exact D).
      destruct H as (tt & aa & ll & ->). exists tt, aa, ll, e0, x, e1, ss, r. split; [reflexivity|]. split; now apply isSection_titled.
    - intros (t & a & hs & n & x & s & ss & rest & -> & N & S). cbn.
      apply isSection_titled in N, S. rewrite N, S. reflexivity.
  Qed.

  (** It panics exactly when, after the header, there is nothing, or only a proper "name" section. *)
  Theorem C40_panics_exact : forall els, (exists m, validateManpage toLower els = Panic m) <->
    (bodyElements els = [] \/ exists n x, bodyElements els = [n] /\ titled toLower "name" n [x]).
  Proof.
    intros els. unfold validateManpage. split.
    - intros [m H]. destruct (bodyElements els) as [|e0 r]; [now left|]. right.
      destruct (isSection toLower "name" e0) as [nels|] eqn:S; [|discriminate].
      destruct (Nat.eqb_spec (List.length nels) 1) as [L|]; cbn [negb] in H; [|discriminate].
      destruct nels as [|x [|]]; try discriminate L. destruct r as [|e1 r].
      + exists e0, x. split; [reflexivity|]. now apply isSection_titled.
      + cbn [nth_error] in H. destruct (isSection toLower "synopsis" e1); discriminate.
    - intros [->|(n & x & -> & T)]; [eauto|]. apply isSection_titled in T. rewrite T. cbn. eauto.
  Qed.

  (** in all other cases it gives a list of problems *)
  Theorem C40_no_error : forall els m, validateManpage toLower els <> Err m.
  Proof.
    intros els m. unfold validateManpage. destruct (bodyElements els) as [|e0 r]; [discriminate|].
    destruct (isSection toLower "name" e0) as [nels|]; [|discriminate].
    destruct (negb _); [discriminate|]. destruct (nth_error _ 1); [|discriminate].
    destruct (isSection _ _ _); discriminate.
  Qed.

  Definition declares_doctype (e : val) : Prop :=
    match e with AttributeDeclaration n _ | AttributeReset n => n = "doctype" | _ => False end.
  (** nowhere in the header or before it *)
  Definition no_doctype (els : list val) : Prop :=
    (forall e, In e els -> ~ declares_doctype e) /\
    (forall t a hs e, In (DocumentHeader t a hs) els -> In e hs -> ~ declares_doctype e).

  Lemma declare_doctype a e : ~ declares_doctype e -> mget (declare a e) "doctype" = mget a "doctype".
  Proof.
    intros N. destruct e; try reflexivity; cbn in *.
    - now rewrite mget_mset_neq.
    - rewrite mget_mdel. destruct (String.eqb_spec name "doctype"); congruence.
  Qed.
  Lemma fold_declare_doctype hs : (forall e, In e hs -> ~ declares_doctype e) -> forall a, mget (fold_left declare hs a) "doctype" = mget a "doctype".
  Proof.
    induction hs as [|e r IH]; intros N a; [reflexivity|]. cbn. rewrite IH by (intros; apply N; now right).
    apply declare_doctype, N. now left.
  Qed.
  Lemma leading_doctype els : (forall e, In e els -> ~ declares_doctype e) -> forall a, mget (leadingDecls els a) "doctype" = mget a "doctype".
  Proof.
    induction els as [|e r IH]; intros N a; [reflexivity|]. cbn [leadingDecls].
    destruct e; try reflexivity; rewrite IH by (intros; apply N; now right); apply declare_doctype, N; now left.
  Qed.
  Lemma docHeader_from_In : forall els i h j, docHeader_from els i = Some (h, j) -> In h els.
  Proof.
    induction els as [|e r IH]; intros i h j H; [discriminate|]. cbn in H.
    destruct e; try discriminate; try (right; eapply IH; exact H). injection H as <- <-. now left.
  Qed.
  Lemma set_nonempty_keys m k s x : In x (mkeys (set_nonempty m k s)) -> In x (mkeys m) \/ x = k.
  Proof.
    unfold set_nonempty. destruct (String.eqb s ""); [now left|]. intros H. apply mkeys_mset in H. cbn in H.
    destruct H as [->|H]; auto.
  Qed.
  Lemma expand_keys : forall l i m m', expand_loop l i m = Ok m' -> forall x, In x (mkeys m') -> In x (mkeys m) \/ exists b j, In b bases /\ x = key b j.
  Proof.
    induction l as [|a r IH]; intros i m m' H x Hx; [injection H as <-; now left|]. cbn in H.
    destruct (au_name a) as [n|]; [|discriminate]. apply (IH _ _ _ H) in Hx. destruct Hx as [Hx|Hx]; [|now right].
    apply set_nonempty_keys in Hx; destruct Hx as [Hx|Hx]; [|right; exists "email", i; cbn; tauto].
    apply set_nonempty_keys in Hx; destruct Hx as [Hx|Hx]; [|right; exists "lastname", i; cbn; tauto].
    apply set_nonempty_keys in Hx; destruct Hx as [Hx|Hx]; [|right; exists "middlename", i; cbn; tauto].
    apply mkeys_mset in Hx; destruct Hx as [<-|Hx]; [right; exists "firstname", i; cbn; tauto|].
    apply mkeys_mset in Hx; destruct Hx as [<-|Hx]; [right; exists "authorinitials", i; cbn; tauto|].
    apply mkeys_mset in Hx; destruct Hx as [<-|Hx]; [right; exists "author", i; cbn; tauto|]. now left.
  Qed.
  Lemma expand_no_doctype l m : expandAuthors l = Ok m -> ~ In "doctype" (mkeys m).
  Proof.
    intros H I. apply (expand_keys _ _ _ _ H) in I. destruct I as [[E|[]]|(b & j & B & E)]; [discriminate|].
    cbn in B. destruct B as [<-|[<-|[<-|[<-|[<-|[<-|[]]]]]]]; destruct j; discriminate.
  Qed.
  Lemma revision_no_doctype r : ~ In "doctype" (mkeys (expandRevision r)).
  Proof.
    unfold expandRevision. intros H.
    repeat (apply set_nonempty_keys in H; destruct H as [H|H]; [|discriminate]). destruct H as [H|[]]. discriminate.
  Qed.

  Lemma renderAttrs_doctype els a b : no_doctype els -> renderAttrs els (Some a) = Ok b -> mget b "doctype" = mget a "doctype".
  Proof.
    intros [N1 N2] H. unfold renderAttrs, newContextAttrs in H.
    destruct (expandHeader els (labels a)) as [c| |] eqn:E; try discriminate. injection H as <-.
    rewrite (leading_doctype els N1).
    assert (Hc : mget (headerDecls els c) "doctype" = mget c "doctype").
    { unfold headerDecls. destruct (docHeader els) as [[h i]|] eqn:D; [|reflexivity]. apply docHeader_from_In in D.
      destruct h; try reflexivity. apply fold_declare_doctype. intros e. eapply N2; eauto. }
    rewrite Hc. clear Hc.
    assert (L : mget (labels a) "doctype" = mget a "doctype") by (unfold labels; now rewrite !mget_mset).
    rewrite <- L. unfold expandHeader in E. destruct (docHeader els) as [[h i]|]; [|now injection E as <-].
    destruct h; try (now injection E as <-).
    destruct (headerAuthors elements) as [au| |]; try discriminate. cbn [bind] in E.
    assert (A : forall r x, ~ In "doctype" (mkeys r) -> mget (aaddall x r) "doctype" = mget x "doctype").
    { intros r x NI. apply mget_aaddall_other; auto; discriminate. }
    destruct au as [l|].
    - destruct (expandAuthors l) as [m| |] eqn:X; try discriminate. cbn [bind] in E. injection E as <-.
      destruct (headerRevision elements); rewrite ?A; auto using revision_no_doctype; eapply expand_no_doctype; eauto.
    - cbn [bind] in E. injection E as <-. destruct (headerRevision elements); rewrite ?A; auto using revision_no_doctype.
  Qed.

  Lemma declare_after a e : mget (declare a e) "doctype" = after_decl "doctype" (mget a "doctype") e.
  Proof. destruct e; try reflexivity; cbn [declare after_decl]; rewrite ?mget_mset, ?mget_mdel; reflexivity. Qed.
  Lemma fold_declare_after hs : forall a, mget (fold_left declare hs a) "doctype" = fold_left (after_decl "doctype") hs (mget a "doctype").
  Proof. induction hs as [|e r IH]; intros a; [reflexivity|]. cbn [fold_left]. now rewrite IH, declare_after. Qed.
  Lemma leading_after els : forall a, mget (leadingDecls els a) "doctype" = fold_left (after_decl "doctype") (at_start els) (mget a "doctype").
  Proof. induction els as [|e r IH]; intros a; [reflexivity|]. destruct e; try reflexivity; cbn [leadingDecls at_start fold_left]; now rewrite IH, declare_after. Qed.
  Lemma header_after els a : mget (headerDecls els a) "doctype" = fold_left (after_decl "doctype") (of_header els) (mget a "doctype").
  Proof.
    unfold headerDecls, docHeader. generalize 0%nat as i. induction els as [|e r IH]; intros i; [reflexivity|].
    destruct e; try reflexivity; cbn [docHeader_from of_header]; try apply IH. apply fold_declare_after.
  Qed.
  Lemma expandHeader_doctype els a c : expandHeader els (labels a) = Ok c -> mget c "doctype" = mget a "doctype".
  Proof.
    intros E. assert (L : mget (labels a) "doctype" = mget a "doctype") by (unfold labels; now rewrite !mget_mset).
    rewrite <- L. unfold expandHeader in E. destruct (docHeader els) as [[h i]|]; [|now injection E as <-].
    destruct h; try (now injection E as <-).
    destruct (headerAuthors elements) as [au| |]; try discriminate. cbn [bind] in E.
    assert (A : forall r x, ~ In "doctype" (mkeys r) -> mget (aaddall x r) "doctype" = mget x "doctype").
    { intros r x NI. apply mget_aaddall_other; auto; discriminate. }
    destruct au as [l|].
    - destruct (expandAuthors l) as [m| |] eqn:X; try discriminate. cbn [bind] in E. injection E as <-.
      destruct (headerRevision elements); rewrite ?A; auto using revision_no_doctype; eapply expand_no_doctype; eauto.
    - cbn [bind] in E. injection E as <-. destruct (headerRevision elements); rewrite ?A; auto using revision_no_doctype.
  Qed.
  Lemma renderAttrs_after els a b : renderAttrs els (Some a) = Ok b ->
    mget b "doctype" = fold_left (after_decl "doctype") (start_declarations els) (mget a "doctype").
  Proof.
    intros H. unfold renderAttrs, newContextAttrs in H. destruct (expandHeader els (labels a)) as [c| |] eqn:E; try discriminate. injection H as <-.
    unfold start_declarations. rewrite fold_left_app, leading_after, header_after. now rewrite (expandHeader_doctype _ _ _ E).
  Qed.

  (** The type that a document is rendered as.  A document that the configuration says is a manpage and that does not have the shape of
      one becomes an article; after that, the declarations at the start of the document decide. *)
  Theorem C40_rendered_as : forall els a c dt, c_attrs c = Some a -> renderDoctype toLower fmtv els c = Ok dt ->
    exists v, dt = text_or fmtv (fold_left (after_decl "doctype") (start_declarations els) v) "article" /\
      (text_or fmtv (mget a "doctype") "article" = "manpage" /\ ~ manpage_shape toLower els -> v = Some (VStr "article")) /\
      (text_or fmtv (mget a "doctype") "article" <> "manpage" \/ manpage_shape toLower els -> v = mget a "doctype").
  Proof.
    intros els a c dt A H. unfold renderDoctype, validateInto, attrs_of in H. rewrite A in H.
    change AttrDocType with "doctype" in *. unfold validate in H.
    assert (T : forall b d, getAsStringD fmtv b "doctype" d = text_or fmtv (mget b "doctype") d).
    { intros b d. unfold getAsStringD, text_or. destruct (mget b "doctype") as [[]|]; reflexivity. }
    rewrite !T in H. set (d := text_or fmtv (mget a "doctype") "article") in *.
    destruct (String.eqb_spec d "manpage") as [D|D].
    - pose proof (C40_validate_exact els) as V.
      destruct (validateManpage toLower els) as [ps| |] eqn:E; try discriminate. cbn [bind] in H.
      destruct ps as [|p ps].
      + cbn [bind] in H. rewrite ?A in H. destruct (renderAttrs els (Some a)) as [b| |] eqn:R; try discriminate.
        injection H as <-. exists (mget a "doctype"). rewrite <- (renderAttrs_after _ _ _ R), T. split; [reflexivity|]. split; [|reflexivity].
        intros [_ N]. exfalso. apply N, V. reflexivity.
      + cbn [bind] in H. unfold put_attr in H. rewrite ?A in H. cbn [bind c_attrs with_attrs] in H.
        destruct (renderAttrs els _) as [b| |] eqn:R; try discriminate. injection H as <-.
        exists (Some (VStr "article")). split.
        * rewrite T, (renderAttrs_after _ _ _ R), mget_mset_eq. reflexivity.
        * split; [reflexivity|]. intros [X|X]; [congruence|]. apply V in X. discriminate.
    - cbn [bind] in H. rewrite ?A in H. destruct (renderAttrs els (Some a)) as [b| |] eqn:R; try discriminate. injection H as <-.
      exists (mget a "doctype"). rewrite <- (renderAttrs_after _ _ _ R), T. split; [reflexivity|]. split; [|reflexivity]. intros [X _]. congruence.
  Qed.

  (** If the document itself does not declare its type: a document that the configuration says is a manpage is rendered as a
      manpage if it has the shape of one, and as an article otherwise.  What is not a manpage is rendered as it is. *)
  Theorem C40_rendered_as_undeclared : forall els a c dt, c_attrs c = Some a -> no_doctype els ->
    renderDoctype toLower fmtv els c = Ok dt ->
    (getAsStringD fmtv a "doctype" "article" = "manpage" -> (manpage_shape toLower els /\ dt = "manpage") \/ (~ manpage_shape toLower els /\ dt = "article")) /\
    (getAsStringD fmtv a "doctype" "article" <> "manpage" -> dt = getAsStringD fmtv a "doctype" "article").
  Proof.
    intros els a c dt A N H. unfold renderDoctype, validateInto, attrs_of in H. rewrite A in H.
    change AttrDocType with "doctype" in *. unfold validate in H.
    set (d := getAsStringD fmtv a "doctype" "article") in *.
    assert (G : forall b b', renderAttrs els (Some b) = Ok b' -> getAsStringD fmtv b' "doctype" "article" = getAsStringD fmtv b "doctype" "article").
    { intros b b' R. unfold getAsStringD. now rewrite (renderAttrs_doctype _ _ _ N R). }
    split; intros D.
    - rewrite D in H. change (String.eqb "manpage" "manpage") with true in H. cbv iota in H.
      pose proof (C40_validate_exact els) as V.
      destruct (validateManpage toLower els) as [ps| |] eqn:E; try discriminate. cbn [bind] in H.
      destruct ps as [|p ps].
      + left. split; [now apply V|]. cbn [bind] in H. rewrite ?A in H. destruct (renderAttrs els (Some a)) as [b| |] eqn:R; try discriminate.
        injection H as <-. rewrite (G _ _ R). exact D.
      + right. split. { intros M. apply V in M. discriminate. }
        cbn [bind] in H. unfold put_attr in H. rewrite ?A in H. cbn [bind c_attrs with_attrs] in H.
        destruct (renderAttrs els _) as [b| |] eqn:R; try discriminate. injection H as <-. rewrite (G _ _ R).
        unfold getAsStringD. now rewrite mget_mset_eq.
    - destruct (String.eqb_spec d "manpage"); [congruence|]. cbn [bind] in H. rewrite ?A in H.
      destruct (renderAttrs els (Some a)) as [b| |] eqn:R; try discriminate. injection H as <-. apply (G _ _ R).
  Qed.

  (** A document of that shape whose "name" section holds a paragraph can be split for rendering ... *)
  Theorem C40_split : forall els, manpage_shape toLower els -> (forall l a t x r, nth_error els 1 = Some (Section l a t (x :: r)) -> exists pa pes, x = Paragraph pa pes) ->
    exists title p rest, splitManpage els = Ok (title, p, rest).
  Proof.
    intros els (t & a & hs & n & x & s & ss & rest & -> & (na & nc & -> & _) & _) P.
    destruct (P _ _ _ _ _ eq_refl) as (pa & pes & ->). cbn. eauto.
  Qed.

  (** ... but the check does not look at what the section contains: anything else than a paragraph is accepted, and the rendering
      then panics. *)
  Theorem C40_name_content_refuted : toLower "NAME" = "name" -> toLower "SYNOPSIS" = "synopsis" -> forall x, (forall a es, x <> Paragraph a es) ->
    let els := [DocumentHeader None [] []; Section 1 [] (Some [StringElement "NAME"]) [x]; Section 1 [] (Some [StringElement "SYNOPSIS"]) []] in
    validateManpage toLower els = Ok [] /\ splitManpage els = Panic "interface conversion".
  Proof.
    intros E1 E2 x N els. split.
    - apply C40_validate_exact. do 8 eexists. split; [reflexivity|]. split; eexists _, _; eauto.
    - subst els. cbn. destruct x; try reflexivity. exfalso. eapply N. reflexivity.
  Qed.
  (** The check is only made when the configuration asks for a manpage; a document that declares to be one is rendered as one
      without any check. *)
  Theorem C40_declared_in_document_refuted : forall c a, c_attrs c = Some a -> mget a "doctype" = None ->
    let els := [DocumentHeader None [] [AttributeDeclaration "doctype" (VStr "manpage")]; Paragraph [] [StringElement "text"]] in
    validateInto toLower fmtv els c = Ok c /\ renderDoctype toLower fmtv els c = Ok "manpage" /\ splitManpage els = Panic "interface conversion".
  Proof.
    intros c a A D els.
    assert (V : validateInto toLower fmtv els c = Ok c).
    { unfold validateInto, attrs_of. rewrite A. unfold getAsStringD. change AttrDocType with "doctype". rewrite D. reflexivity. }
    split; [exact V|]. split; [|reflexivity]. unfold renderDoctype. rewrite V. cbn [bind]. rewrite A.
    subst els. unfold renderAttrs, newContextAttrs, expandHeader. cbn [docHeader docHeader_from].
    cbn [headerAuthors authors_loop]. change (String.eqb "doctype" AttrAuthors) with false. change (String.eqb "doctype" AttrEmail) with false. change (String.eqb "doctype" AttrAuthor) with false.
    cbn [bind headerRevision leadingDecls headerDecls docHeader docHeader_from fold_left declare].
    unfold headerDecls. cbn [docHeader docHeader_from fold_left declare]. unfold getAsStringD. change AttrDocType with "doctype". now rewrite mget_mset_eq.
  Qed.
  (** Likewise the change of an invalid manpage to an article is undone by such a declaration. *)
  Theorem C40_downgrade_undone_refuted : forall c a, c_attrs c = Some a -> mget a "doctype" = Some (VStr "manpage") ->
    let els := [DocumentHeader None [] [AttributeDeclaration "doctype" (VStr "manpage")]; Paragraph [] [StringElement "text"]] in
    validateManpage toLower els = Ok ["manpage document is missing the 'Name' section"] /\ renderDoctype toLower fmtv els c = Ok "manpage".
  Proof.
    intros c a A D els. split; [reflexivity|].
    assert (V : validateInto toLower fmtv els c = Ok (with_attrs c (Some (mset a "doctype" (VStr "article"))))).
    { unfold validateInto, attrs_of. rewrite A. unfold getAsStringD. change AttrDocType with "doctype". rewrite D. cbn. unfold put_attr. now rewrite A. }
    unfold renderDoctype. rewrite V. cbn [bind c_attrs with_attrs].
    subst els. unfold renderAttrs, newContextAttrs, expandHeader. cbn [docHeader docHeader_from].
    cbn [headerAuthors authors_loop]. change (String.eqb "doctype" AttrAuthors) with false. change (String.eqb "doctype" AttrEmail) with false. change (String.eqb "doctype" AttrAuthor) with false.
    cbn [bind headerRevision leadingDecls headerDecls docHeader docHeader_from fold_left declare].
    unfold headerDecls. cbn [docHeader docHeader_from fold_left declare]. unfold getAsStringD. change AttrDocType with "doctype". now rewrite mget_mset_eq.
  Qed.
  (** Front matter before the header makes every manpage invalid. *)
  Theorem C40_front_matter_refuted : forall fm els, exists p ps, validateManpage toLower (FrontMatter fm :: els) = Ok (p :: ps).
  Proof. intros fm els. unfold validateManpage. cbn. destruct (match docHeader_from _ _ with Some _ => _ | None => _ end); cbn; eauto. Qed.
  (** A manpage without any content after its header makes the conversion panic. *)
  Theorem C40_empty_refuted : forall t a hs, validateManpage toLower [DocumentHeader t a hs] = Panic "index out of range [0]".
  Proof. reflexivity. Qed.
End C40.

Print Assumptions C40_rendered_as.
Definition lower_ascii (s : string) : string :=
  string_of_list_ascii (map (fun c => let n := N_of_ascii c in if ((65 <=? n) && (n <=? 90))%N then ascii_of_N (n + 32) else c) (list_ascii_of_string s)).
Definition C40_doc : list val :=
  [DocumentHeader (Some [StringElement "cmd(1)"]) [] [AttributeDeclaration "authors" (VAuthors [mkAuthor (Some (mkFullName "Ada" "" "L")) ""])];
   Section 1 [] (Some [StringElement "Name"]) [Paragraph [] [StringElement "cmd - does it"]];
   Section 1 [] (Some [StringElement "SYNOPSIS"]) [Paragraph [] [StringElement "cmd"]]].
Theorem C40_case : manpage_shape lower_ascii C40_doc /\ no_doctype C40_doc /\
  renderDoctype lower_ascii (fun _ => "") C40_doc (mkConfig "" (Some [("doctype", VStr "manpage")]) "" false [] "html5" []) = Ok "manpage" /\
  renderDoctype lower_ascii (fun _ => "") [Paragraph [] []] (mkConfig "" (Some [("doctype", VStr "manpage")]) "" false [] "html5" []) = Ok "article".
Proof.
  split; [|split].
  - do 8 eexists. split; [reflexivity|]. split; eexists _, _; split; reflexivity.
  - split.
    + intros e [<-|[<-|[<-|[]]]]; intros [].
    + intros t a hs e [E|[E|[E|[]]]]; try discriminate. injection E as <- <- <-. intros [<-|[]]; discriminate.
  - split; vm_compute; reflexivity.
Qed.
