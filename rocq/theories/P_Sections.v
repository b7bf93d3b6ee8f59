(** Properties C01-C05, C36, C37: sections, their ids, the table of contents, the section tree,
    failing fragments, the preamble and the document title.

    [is_letter], [is_number] (Unicode classes) and [fmtv] (fmt's default format) are arbitrary.
    [goods fs]: the elements of the fragments of [fs] that carry no error, in order.
    The parser hands over sections without contents ([shallow], see NewSection,
    types.go:2447-2455). *)
From Verif Require Import GoBase Types Attrs Utf8 Ids Toc Context Aggregate SecSpec
  AggLemmas AggDoc Preamble.

(** ** C01: section ids are unique *)

(** No two titled sections of a document have the same (non-empty) id, and all these ids are
    registered as link targets. *)
Theorem C01_section_ids_unique :
  forall is_letter is_number fmtv c fs doc,
    Forall shallow (goods fs) ->
    aggregate is_letter is_number fmtv c fs = Some doc ->
    NoDup (flat_map titled_id (flat_map flat (d_elements doc))) /\
    incl (flat_map titled_id (flat_map flat (d_elements doc))) (mkeys (d_refs doc)).
Proof. exact aggregate_ids. Qed.
Print Assumptions C01_section_ids_unique.

(** The id of every section is the first of base, base_2, base_3, ... that is not taken by what
    precedes it in the document ([registered pre']); nothing else of the section changes. *)
Theorem C01_id_is_first_free :
  forall is_letter is_number fmtv c fs doc,
    Forall shallow (goods fs) ->
    aggregate is_letter is_number fmtv c fs = Some doc ->
    exists els', Forall2 same_but_id (goods fs) els' /\
      map forget_xrefs (flat_map flat (d_elements doc)) = map forget_xrefs els' /\
      forall pre' l a' t x post', els' = pre' ++ Section l a' t x :: post' ->
      exists pre a post c' id,
        goods fs = pre ++ Section l a t x :: post /\
        Forall2 same_but_id pre pre' /\
        a' = mset a "id" (VStr id) /\
        first_free (baseID is_letter is_number fmtv (callAttributes c') a t)
          (mkeys (registered fmtv pre')) id.
Proof. exact aggregate_id_first_free. Qed.
Print Assumptions C01_id_is_first_free.

(** "the first free one" determines the id *)
Theorem C01_first_free_unique :
  forall b taken id1 id2, first_free b taken id1 -> first_free b taken id2 -> id1 = id2.
Proof. exact IdsLemmas.first_free_unique. Qed.
Print Assumptions C01_first_free_unique.

(** ASCII letters and digits, enough for the examples *)
Definition ascii_letter (r : N) : bool :=
  ((65 <=? r) && (r <=? 90) || (97 <=? r) && (r <=? 122))%N.
Definition ascii_number (r : N) : bool := ((48 <=? r) && (r <=? 57))%N.
Definition no_fmt (_ : val) : string := "".
Definition agg := aggregate ascii_letter ascii_number no_fmt (newContextAttributes []).
Definition sec (l : Z) (title : string) : val := Section l [] (Some [StringElement title]) [].
Definition par (s : string) : val := Paragraph [] [StringElement s].

Theorem C01_example :
  option_map (fun d => flat_map titled_id (flat_map flat (d_elements d)))
    (agg [Frag [sec 1 "Foo bar"; par "x"; sec 2 "Foo bar"]; Frag [sec 1 "Foo bar"; sec 1 "Baz"]])
  = Some ["_Foo_bar"; "_Foo_bar_2"; "_Foo_bar_3"; "_Baz"].
Proof. vm_compute. reflexivity. Qed.
Theorem C01_example_hyp :
  Forall shallow (goods [Frag [sec 1 "Foo bar"; par "x"; sec 2 "Foo bar"];
                         Frag [sec 1 "Foo bar"; sec 1 "Baz"]]).
Proof. repeat constructor. Qed.

(** ** C02: the table of contents lists every eligible section once, in document order *)

(** [toc_expected] (SecSpec) lists the sections whose level is at most the toclevels in force. *)
Theorem C02_toc_complete_in_order :
  forall is_letter is_number fmtv c fs doc,
    Forall shallow (goods fs) ->
    aggregate is_letter is_number fmtv c fs = Some doc ->
    exists els', Forall2 same_but_id (goods fs) els' /\
      map forget_xrefs (flat_map flat (d_elements doc)) = map forget_xrefs els' /\
      flat_map toc_entries (match d_toc doc with Some t => toc_sections t | None => [] end) =
      toc_expected (mget (immutableAttrs c) "toclevels") (cgetAsInt c "toclevels" 2) els'.
Proof. exact aggregate_toc. Qed.
Print Assumptions C02_toc_complete_in_order.

Theorem C02_example :
  option_map (fun d => match d_toc d with
                       | Some t => flat_map toc_entries (toc_sections t) | None => [] end)
    (agg [Frag [sec 1 "a"; sec 2 "b"; sec 3 "c"; AttributeDeclaration "toclevels" (VStr "3");
                sec 3 "d"; sec 1 "e"]])
  = Some [("_a", 1%Z); ("_b", 2%Z); ("_d", 3%Z); ("_e", 1%Z)].
Proof. vm_compute. reflexivity. Qed.

(** ** C03: nesting of the table of contents *)

(** The table of contents of a document is well nested, each entry below a smaller level, exactly when its levels are [returning]:
    an entry is deeper than the one before, or it returns to the level of an entry that is still open.  Then the parent of every
    entry is the closest entry before it that has a smaller level. *)
Theorem C03_toc_nesting :
  forall is_letter is_number fmtv c fs doc t,
    aggregate is_letter is_number fmtv c fs = Some doc -> d_toc doc = Some t ->
    (Forall toc_deeper (toc_sections t) <-> returning (map snd (flat_map toc_entries (toc_sections t)))) /\
    (returning (map snd (flat_map toc_entries (toc_sections t))) ->
     forall j p, nth_error (forest_parents None 0 (toc_sections t)) j = Some p ->
       closest_smaller (map snd (flat_map toc_entries (toc_sections t))) j p).
Proof. exact aggregate_toc_nesting. Qed.
Print Assumptions C03_toc_nesting.
Theorem C03_example : exists doc t,
  agg [Frag [sec 1 "a"; sec 2 "b"; sec 2 "c"; sec 1 "d"; sec 2 "e"]] = Some doc /\ d_toc doc = Some t /\
  map snd (flat_map toc_entries (toc_sections t)) = [1; 2; 2; 1; 2]%Z /\ forest_parents None 0 (toc_sections t) = [None; Some 0; Some 0; None; Some 3] /\
  Forall toc_deeper (toc_sections t).
Proof.
  eexists _, _. split; [vm_compute; reflexivity|]. split; [vm_compute; reflexivity|]. split; [reflexivity|]. split; [reflexivity|].
  repeat first [apply Forall_cons | apply Forall_nil | apply toc_deeper_intro | apply conj | reflexivity].
Qed.

(** Other sequences exist: with section levels 2, 1 the second is put inside the first; with levels 1, 3, 2 also. *)
Theorem C03_toc_nesting_refuted :
  exists fs doc t, Forall shallow (goods fs) /\ agg fs = Some doc /\ d_toc doc = Some t /\
    ~ Forall toc_deeper (toc_sections t).
Proof.
  exists [Frag [sec 2 "a"; sec 1 "b"]]. eexists _, _. split; [repeat constructor|].
  split; [vm_compute; reflexivity|]. split; [vm_compute; reflexivity|].
  intros H. inversion H as [|x l H1 H2]; subst. inversion H1 as [? ? ? H3]; subst.
  inversion H3 as [|? ? [H4 _] _]; subst. vm_compute in H4. discriminate.
Qed.
Print Assumptions C03_toc_nesting_refuted.

Theorem C03_toc_nesting_refuted_skipped_level :
  exists fs doc t, Forall shallow (goods fs) /\
    child_levels (goods fs) = [1; 3; 2]%Z /\
    aggregate ascii_letter ascii_number no_fmt
      (newContextAttributes [("toclevels", VInt 3)]) fs = Some doc /\ d_toc doc = Some t /\
    ~ Forall toc_deeper (toc_sections t).
Proof.
  exists [Frag [sec 1 "a"; sec 3 "b"; sec 2 "c"]]. eexists _, _. split; [repeat constructor|].
  split; [reflexivity|].
  split; [vm_compute; reflexivity|]. split; [vm_compute; reflexivity|].
  intros H. inversion H as [|x l H1 H2]; subst. inversion H1 as [? ? ? H3]; subst.
  inversion H3 as [|? ? [_ H4] _]; subst. inversion H4 as [? ? ? H5]; subst.
  inversion H5 as [|? ? [H6 _] _]; subst. vm_compute in H6. discriminate.
Qed.
Print Assumptions C03_toc_nesting_refuted_skipped_level.

(** Documents in which no section skips a level downwards or rises above the first one (and without a toclevels declaration in
    the middle): every entry is exactly one level below its parent. *)
Theorem C03_regular_documents :
  forall is_letter is_number fmtv c fs doc first rest,
    Forall shallow (goods fs) ->
    Forall no_toclevels (goods fs) ->
    child_levels (goods fs) = first :: rest -> no_skip first first rest ->
    aggregate is_letter is_number fmtv c fs = Some doc ->
    Forall (toc_levels first) (match d_toc doc with Some t => toc_sections t | None => [] end).
Proof. exact aggregate_toc_levels. Qed.
Print Assumptions C03_regular_documents.

Theorem C03_example_hyp :
  let fs := [Frag [sec 1 "a"; sec 2 "b"; sec 3 "c"; sec 2 "d"; sec 1 "e"]] in
  Forall shallow (goods fs) /\ Forall no_toclevels (goods fs) /\
  child_levels (goods fs) = [1; 2; 3; 2; 1]%Z /\ no_skip 1 1 [2; 3; 2; 1]%Z.
Proof. cbn. repeat split; try (repeat constructor); lia. Qed.

(** ** C04: the section tree *)

(** Flattening the tree gives back the elements in order (section ids and cross reference
    targets apart); the tree is well nested ([document_ok]); and it is the only such tree. *)
Theorem C04_section_tree :
  forall is_letter is_number fmtv c fs doc,
    Forall shallow (goods fs) ->
    aggregate is_letter is_number fmtv c fs = Some doc ->
    exists els', Forall2 same_but_id (goods fs) els' /\
      map forget_xrefs (flat_map flat (d_elements doc)) = map forget_xrefs els' /\
      document_ok (d_elements doc) /\
      forall tree, document_ok tree ->
        map forget_xrefs (flat_map flat tree) = map forget_xrefs els' ->
        map forget_xrefs tree = map forget_xrefs (d_elements doc).
Proof. exact aggregate_tree. Qed.
Print Assumptions C04_section_tree.

Theorem C04_aggregation_total :
  forall is_letter is_number fmtv c fs, aggregate is_letter is_number fmtv c fs <> None.
Proof. exact aggregate_total. Qed.
Print Assumptions C04_aggregation_total.

Theorem C04_example :
  option_map d_elements (agg [Frag [par "p"; sec 1 "a"; par "q"; sec 3 "b"; sec 2 "c"; par "r"];
                              Frag [sec 1 "d"]])
  = Some [par "p";
          Section 1 [("id", VStr "_a")] (Some [StringElement "a"])
            [par "q"; Section 3 [("id", VStr "_b")] (Some [StringElement "b"]) [];
             Section 2 [("id", VStr "_c")] (Some [StringElement "c"]) [par "r"]];
          Section 1 [("id", VStr "_d")] (Some [StringElement "d"]) []].
Proof. vm_compute. reflexivity. Qed.

(** ** C05: a failing fragment is reported *)

(** Full claim: [In (ErrFrag m) fs -> aggregation fails].  It is false: the fragment is logged
    and dropped. *)
Theorem C05_error_reported_refuted :
  exists fs m doc, In (ErrFrag m) fs /\ agg fs = Some doc /\
    d_elements doc = [par "before"; par "after"].
Proof.
  exists [Frag [par "before"]; ErrFrag "invalid"; Frag [par "after"]], "invalid".
  eexists. split; [cbn; auto|]. split; vm_compute; reflexivity.
Qed.
Print Assumptions C05_error_reported_refuted.

(** In fact errors never make a difference: the result is that of the document without the
    failing fragments. *)
Theorem C05_errors_are_dropped :
  forall is_letter is_number fmtv c fs,
    aggregate is_letter is_number fmtv c fs =
    aggregate is_letter is_number fmtv c (filter (fun f => negb (is_error f)) fs).
Proof. exact aggregate_drops_errors. Qed.
Print Assumptions C05_errors_are_dropped.

(** ** C36: the preamble *)

(** Front matter, header, content [pre] and the first section: [pre] is wrapped as a whole if
    it has any substance, and everything else stays as it is. *)
Theorem C36_preamble :
  forall front t a h pre l sa st se rest,
    front_matter_only front ->
    forallb before_section pre = true ->
    insertPreamble (front ++ DocumentHeader (Some t) a h :: pre ++ Section l sa st se :: rest) =
    Ok (if existsb substantial pre
        then front ++ DocumentHeader (Some t) a h :: Preamble pre :: Section l sa st se :: rest
        else front ++ DocumentHeader (Some t) a h :: pre ++ Section l sa st se :: rest).
Proof. exact insertPreamble_spec. Qed.
Print Assumptions C36_preamble.

Theorem C36_no_preamble_without_section :
  forall els, Forall (fun e => is_section e = false) els -> insertPreamble els = Ok els.
Proof. exact insertPreamble_no_section. Qed.
Print Assumptions C36_no_preamble_without_section.

Theorem C36_no_preamble_without_title :
  forall els, (forall t a h i, docHeader els <> Some (DocumentHeader (Some t) a h, i)) ->
    insertPreamble els = Ok els.
Proof. exact insertPreamble_no_header. Qed.
Print Assumptions C36_no_preamble_without_title.

Theorem C36_example :
  insertPreamble [FrontMatter []; DocumentHeader (Some [StringElement "T"]) [] [];
                  AttributeDeclaration "x" (VStr "1"); par "p"; sec 1 "a"; par "q"]
  = Ok [FrontMatter []; DocumentHeader (Some [StringElement "T"]) [] [];
        Preamble [AttributeDeclaration "x" (VStr "1"); par "p"]; sec 1 "a"; par "q"].
Proof. vm_compute. reflexivity. Qed.

(** Without the hypothesis that nothing but front matter precedes the header the claim fails: a blank
    line there makes the first section disappear (the filter stage removes blank lines before). *)
Theorem C36_blank_line_before_header :
  insertPreamble [BlankLine; DocumentHeader (Some [StringElement "T"]) [] []; par "p"; sec 1 "a"]
  = Ok [VNil; DocumentHeader (Some [StringElement "T"]) [] []; Preamble [BlankLine; par "p"]].
Proof. vm_compute. reflexivity. Qed.

(** ** C37: the title is never lost *)

(** Full claim: if some element of the document is a header, [docHeader] finds it.  False when
    an attribute declaration precedes the header (the grammar allows it,
    document_processing_parse_fragments.go:99-106): no title in the metadata, and the body does not
    contain the header either. *)
Theorem C37_title_kept_refuted :
  exists els h, In h els /\ h = DocumentHeader (Some [StringElement "T"]) [] [] /\
    docHeader els = None /\ ~ In h (bodyElements els).
Proof.
  exists [AttributeDeclaration "x" (VStr "1"); DocumentHeader (Some [StringElement "T"]) [] []; par "p"].
  eexists. split; [right; left; reflexivity|]. split; [reflexivity|]. split; [reflexivity|].
  cbn. intros [H|[H|[]]]; discriminate.
Qed.
Print Assumptions C37_title_kept_refuted.

(** Exactly: the header is found if and only if nothing but front matter and blank lines stands before it. *)
Theorem C37_header_found : forall els h i,
  docHeader els = Some (h, i) <->
  exists pre post t a l, els = pre ++ h :: post /\ h = DocumentHeader t a l /\ i = List.length pre /\
    Forall (fun e => match e with BlankLine | FrontMatter _ => True | _ => False end) pre.
Proof.
  assert (G : forall els h n i, docHeader_from els n = Some (h, i) <->
    exists pre post t a l, els = pre ++ h :: post /\ h = DocumentHeader t a l /\ i = (n + List.length pre)%nat /\
      Forall (fun e => match e with BlankLine | FrontMatter _ => True | _ => False end) pre).
  { induction els as [|e els IH]; intros h n i.
    - split; [discriminate|]. intros (pre & post & t & a & l & E & _). destruct pre; discriminate.
    - split.
      + intros H. cbn [docHeader_from] in H. destruct e; try discriminate.
        all: try (apply IH in H; destruct H as (pre & post & t & a & l & -> & E & -> & F);
          match goal with |- exists pre0 post0 t0 a0 l0, ?x :: _ = _ /\ _ => exists (x :: pre), post, t, a, l end; repeat split; auto; cbn; lia).
        injection H as <- <-. exists [], els. repeat eexists; cbn; auto.
      + intros (pre & post & t & a & l & E & -> & -> & F). destruct pre as [|x pre].
        * cbn in E. injection E as -> ->. cbn. now rewrite Nat.add_0_r.
        * cbn in E. injection E as -> ->. inversion F as [|? ? X F']; subst. cbn [docHeader_from].
          assert (Q : docHeader_from (pre ++ DocumentHeader t a l :: post) (S n) = Some (DocumentHeader t a l, (S n + List.length pre)%nat)).
          { apply IH. exists pre, post. repeat eexists. exact F'. }
          destruct x; try (now destruct X); rewrite Q; cbn [List.length]; do 2 f_equal; lia. }
  intros els h i. unfold docHeader. rewrite G. reflexivity.
Qed.
Print Assumptions C37_header_found.

(** For a document as the grammar reads it (front matter or none, attribute declarations, the header, then elements that are not a
    header): the title is found, before and after the preamble is inserted, if and only if there is no attribute declaration before it;
    otherwise it is neither in the metadata nor in the body. *)
Theorem C37_title_kept : forall front decls t a h rest,
  front_matter_only front ->
  Forall (fun e => match e with AttributeDeclaration _ _ => True | _ => False end) decls ->
  forallb (fun v => match v with DocumentHeader _ _ _ | FrontMatter _ => false | _ => true end) rest = true ->
  let doc := front ++ decls ++ DocumentHeader (Some t) a h :: rest in
  (decls = [] -> docHeader doc = Some (DocumentHeader (Some t) a h, List.length front) /\
     exists rest', insertPreamble doc = Ok (front ++ DocumentHeader (Some t) a h :: rest') /\
       docHeader (front ++ DocumentHeader (Some t) a h :: rest') = Some (DocumentHeader (Some t) a h, List.length front)) /\
  (decls <> [] -> docHeader doc = None /\ insertPreamble doc = Ok doc /\ ~ In (DocumentHeader (Some t) a h) (bodyElements doc)).
Proof.
  intros front decls t a h rest F D R doc. split.
  - intros ->. unfold doc. cbn [app]. split; [exact (docHeader_front front (Some t) a h rest F)|].
    destruct (insertPreamble_header_kept front t a h rest F R) as [r E]. exists r. split; [exact E|exact (docHeader_front front (Some t) a h r F)].
  - intros N. assert (H : docHeader doc = None).
    { unfold doc. destruct decls as [|d ds]; [now destruct N|]. inversion D as [|? ? X _]; subst. destruct d; try (now destruct X).
      destruct F as [->|[fa ->]]; reflexivity. }
    split; [exact H|]. split; [apply insertPreamble_no_header; intros; rewrite H; discriminate|].
    assert (B : bodyElements doc = front ++ decls ++ rest).
    { unfold doc. assert (Q : bodyElements (decls ++ DocumentHeader (Some t) a h :: rest) = decls ++ rest).
      { clear N H. induction D as [|d ds X D IH]; [reflexivity|]. destruct d; try (now destruct X). cbn. now rewrite IH. }
      destruct F as [->|[fa ->]]; cbn; [exact Q|now rewrite Q]. }
    rewrite B. intros I. apply in_app_iff in I. destruct I as [I|I]; [destruct F as [->|[fa ->]]; [exact I|destruct I as [I|[]]; discriminate]|].
    apply in_app_iff in I. destruct I as [I|I].
    + rewrite Forall_forall in D. exact (D _ I).
    + rewrite forallb_forall in R. apply R in I. discriminate.
Qed.
Print Assumptions C37_title_kept.
Theorem C37_example_hyp :
  front_matter_only [FrontMatter []] /\
  forallb (fun v => match v with DocumentHeader _ _ _ | FrontMatter _ => false | _ => true end)
    [par "p"; sec 1 "a"] = true.
Proof. split; [right; eauto|reflexivity]. Qed.
