(** Model of pkg/parser/document_processing_aggregate.go: the last stage of the pipeline,
    which builds the section tree, resolves section ids and cross references, and collects the
    table of contents and the element references. *)
From Verif Require Import GoBase Types Attrs Utf8 Ids Toc Context.

(** types.go:62-66 DocumentFragment (positions are only used in log messages) *)
Inductive fragment : Type :=
| Frag (elements : list val)
| ErrFrag (msg : string).

Section Agg.
  Variable is_letter is_number : N -> bool.
  Variable fmtv : val -> string.

  (** the common part of the Reference methods (types.go:1816-1822, 2399-2405, ...):
      [if id != "" && title != nil { refs[id] = title }] *)
  Definition refTitle (attrs : attributes) (refs : gomap val) : gomap val :=
    let id := getAsStringD fmtv attrs AttrID "" in
    match mget attrs AttrTitle with
    | None | Some VNil => refs
    | Some title => if String.eqb id "" then refs else mset refs id title
    end.

  (** the Referencable implementations: Section 2567-2572, List 868-880,
      CalloutListElement 1076-1088, OrderedListElement 1197-1209, UnorderedListElement
      1339-1351, LabeledListElement 1616-1637, Paragraph 1816-1822, ImageBlock 2050-2056,
      DelimitedBlock 2399-2411, Table 3879-3911 of types.go *)
  Fixpoint reference (e : val) (refs : gomap val) {struct e} : gomap val :=
    let fix visit (l : list val) (refs : gomap val) {struct l} : gomap val :=
      match l with
      | [] => refs
      | x :: r => visit r (reference x refs)
      end in
    let fix visit_cells (l : list val) (refs : gomap val) {struct l} : gomap val :=
      match l with
      | [] => refs
      | TableCell _ els :: r => visit_cells r (visit els refs)
      | _ :: r => visit_cells r refs
      end in
    let fix visit_rows (l : list val) (refs : gomap val) {struct l} : gomap val :=
      match l with
      | [] => refs
      | TableRow cells :: r => visit_rows r (visit_cells cells refs)
      | _ :: r => visit_rows r refs
      end in
    match e with
    | Section _ _ _ _ => sectionReference fmtv e refs
    | ListBlock _ attrs els => visit els (refTitle attrs refs)
    | CalloutListElement _ attrs els => visit els (refTitle attrs refs)
    | OrderedListElement _ attrs els => visit els (refTitle attrs refs)
    | UnorderedListElement _ _ attrs els => visit els (refTitle attrs refs)
    | LabeledListElement _ term attrs els =>
        let refs1 := refTitle attrs refs in
        let refs2 := match term with
                     | InlineLink lattrs _ :: rest =>
                         let id := getAsStringD fmtv lattrs AttrID "" in
                         if String.eqb id "" then refs1 else mset refs1 id (VSlice rest)
                     | _ => refs1
                     end in
        visit els refs2
    | Paragraph attrs _ => refTitle attrs refs
    | ImageBlock _ attrs =>
        let id := getAsStringD fmtv attrs AttrID "" in
        let title := getAsStringD fmtv attrs AttrTitle "" in
        if String.eqb id "" || String.eqb title "" then refs else mset refs id (VStr title)
    | DelimitedBlock _ attrs els => visit els (refTitle attrs refs)
    | Table attrs header rows footer =>
        let refs1 := refTitle attrs refs in
        let refs2 := match header with TableRow cells => visit_cells cells refs1 | _ => refs1 end in
        let refs3 := visit_rows rows refs2 in
        match footer with TableRow cells => visit_cells cells refs3 | _ => refs3 end
    | _ => refs
    end.

  (** *** the tree builder: document_processing_aggregate.go:130-139 aggregator
      The Go aggregator is a slice [doc, s1, ..., sn] of nodes under construction; all elements
      are appended to its last node.  Here [ag_root] are the finished elements of the document
      and [ag_open] the open sections, outermost first; the contents of an inner open section
      are attached to the enclosing one when it is closed (in Go the pointer is attached
      when it is opened: the resulting tree is the same because nothing is appended to an outer
      node while an inner one is open). *)
  Record osec := mkOsec { os_level : Z; os_attrs : attributes; os_title : option (list val);
                          os_elements : list val }.
  Record aggregator := mkAgg { ag_root : list val; ag_open : list osec }.

  Fixpoint nest (l : list osec) : list val :=
    match l with
    | [] => []
    | o :: r => [Section (os_level o) (os_attrs o) (os_title o) (os_elements o ++ nest r)]
    end.

  (** the finished document *)
  Definition agDoc (a : aggregator) : list val := ag_root a ++ nest (ag_open a).

  Definition os_add (o : osec) (els : list val) : osec :=
    mkOsec (os_level o) (os_attrs o) (os_title o) (os_elements o ++ els).

  Fixpoint add_last (l : list osec) (els : list val) : list osec :=
    match l with
    | [] => []
    | [o] => [os_add o els]
    | o :: r => o :: add_last r els
    end.

  (** document_processing_aggregate.go:141-143 aggregator.appendElement: add to the last node of the slice *)
  Definition ag_add (a : aggregator) (els : list val) : aggregator :=
    match ag_open a with
    | [] => mkAgg (ag_root a ++ els) []
    | o => mkAgg (ag_root a) (add_last o els)
    end.

  (** document_processing_aggregate.go:162-173 aggregator.indexOfParent: position of the first open
      section whose level is >= the given one ([None]: not found).  Index 0 of the Go slice is
      the document itself, hence the position here is the Go result. *)
  Fixpoint indexOfParent (l : list osec) (level : Z) (i : nat) : option nat :=
    match l with
    | [] => None
    | o :: r => if (level <=? os_level o)%Z then Some i else indexOfParent r level (S i)
    end.

  (** document_processing_aggregate.go:145-157 aggregator.appendSection *)
  Definition appendSection (a : aggregator) (s : osec) : aggregator :=
    let a1 :=
      match indexOfParent (ag_open a) (os_level s) 0 with
      | Some i => ag_add (mkAgg (ag_root a) (firstn i (ag_open a))) (nest (skipn i (ag_open a)))
      | None => a
      end in
    mkAgg (ag_root a1) (ag_open a1 ++ [s]).

  (** document_processing_aggregate.go:132-139 aggregator.append *)
  Definition agAppend (a : aggregator) (e : val) : aggregator :=
    match e with
    | Section lvl attrs title els => appendSection a (mkOsec lvl attrs title els)
    | _ => ag_add a [e]
    end.

  (** *** the main loop: document_processing_aggregate.go:26-109 aggregate *)
  Record aggstate := mkAS { as_ctx : ctxattrs; as_refs : gomap val; as_toc : toc;
                            as_tree : aggregator }.

  Definition setToclevels (c : ctxattrs) (name : string) (t : toc) : toc :=
    if String.eqb name AttrTableOfContentsLevels
    then mkToc (cgetAsInt c AttrTableOfContentsLevels 2) (toc_sections t)
    else t.

  (** effects of the elements of a DocumentHeader (inner loop of aggregate) *)
  Fixpoint headerEffects (els : list val) (c : ctxattrs) (t : toc) : ctxattrs * toc :=
    match els with
    | [] => (c, t)
    | AttributeDeclaration name v :: r =>
        let c' := cset c name v in headerEffects r c' (setToclevels c' name t)
    | AttributeReset name :: r => headerEffects r (cunset c name) t
    | _ :: r => headerEffects r c t
    end.

  (** ID of the ToC entry: GetAsStringWithDefault(AttrID, "") in types.go:236-268 TableOfContents.Add *)
  Definition sectionTocID (e : val) : string :=
    match e with Section _ a _ _ => getAsStringD fmtv a AttrID "" | _ => "" end.

  (** body of the loop over the elements of a fragment; [None] is out of fuel in the id search,
      which never happens ([resolve_terminates]) *)
  Definition aggElement (st : aggstate) (e : val) : option aggstate :=
    let finish (c : ctxattrs) (t : toc) (e : val) : option aggstate :=
      Some (mkAS c (reference e (as_refs st)) t (agAppend (as_tree st) e)) in
    match e with
    | AttributeDeclaration name v =>
        let c := cset (as_ctx st) name v in finish c (setToclevels c name (as_toc st)) e
    | FrontMatter attrs => finish (csetAll (as_ctx st) attrs) (as_toc st) e
    | DocumentHeader _ _ els =>
        let (c, t) := headerEffects els (as_ctx st) (as_toc st) in finish c t e
    | AttributeReset name => finish (cunset (as_ctx st) name) (as_toc st) e
    | Section lvl _ _ _ =>
        match sectionResolveID is_letter is_number fmtv (callAttributes (as_ctx st))
                (as_refs st) e with
        | Some e' => finish (as_ctx st) (tocAdd (as_toc st) (sectionTocID e') lvl) e'
        | None => None
        end
    | _ => finish (as_ctx st) (as_toc st) e
    end.

  Fixpoint aggElements (st : aggstate) (els : list val) : option aggstate :=
    match els with
    | [] => Some st
    | e :: r => match aggElement st e with Some st' => aggElements st' r | None => None end
    end.

  (** loop over the stream: a fragment with an error is logged and skipped *)
  Fixpoint aggFragments (st : aggstate) (fs : list fragment) : option aggstate :=
    match fs with
    | [] => Some st
    | ErrFrag _ :: r => aggFragments st r
    | Frag els :: r =>
        match aggElements st els with Some st' => aggFragments st' r | None => None end
    end.

  Definition aggInit (c : ctxattrs) : aggstate :=
    mkAS c [] (newToc (cgetAsInt c AttrTableOfContentsLevels 2)) (mkAgg [] []).

  (** document_processing_aggregate.go:111-128 resolveCrossReferences on one element.  It recurses
      through the types implementing WithElements (GetElements): Table gives its body rows only
      (types.go:3780-3786). [xrefResolveID] cannot fail on the ids it is applied to, see
      [xrefResolve_total]. *)
  Definition resolveXref (docattrs : attributes) (id : val) : val :=
    match xrefResolveID is_letter is_number fmtv docattrs id with Ok v => v | _ => id end.

  Fixpoint resolveCrossReferences (docattrs : attributes) (e : val) {struct e} : val :=
    let rec := map (resolveCrossReferences docattrs) in
    match e with
    | InternalCrossReference id label => InternalCrossReference (resolveXref docattrs id) label
    | DocumentHeader t a els => DocumentHeader t a (rec els)
    | ListBlock k a els => ListBlock k a (rec els)
    | ListElements els => ListElements (rec els)
    | CalloutListElement r a els => CalloutListElement r a (rec els)
    | OrderedListElement s a els => OrderedListElement s a (rec els)
    | UnorderedListElement b c a els => UnorderedListElement b c a (rec els)
    | LabeledListElement s t a els => LabeledListElement s t a (rec els)
    | Paragraph a els => Paragraph a (rec els)
    | DelimitedBlock k a els => DelimitedBlock k a (rec els)
    | Section l a t els => Section l a t (rec els)
    | QuotedText k els a => QuotedText k (rec els) a
    | Table a h rows f => Table a h (rec rows) f
    | TableRow cells => TableRow (rec cells)
    | TableCell f els => TableCell f (rec els)
    | _ => e
    end.

  (** types.go:92-97 Document (footnotes are added after aggregation, document_processing.go) *)
  Record document := mkDoc { d_elements : list val; d_refs : gomap val; d_toc : option toc }.

  (** document_processing_aggregate.go:26-109 aggregate *)
  Definition aggregate (c : ctxattrs) (fs : list fragment) : option document :=
    match aggFragments (aggInit c) fs with
    | None => None
    | Some st =>
        let els := agDoc (as_tree st) in
        let els' := match as_refs st with
                    | [] => els
                    | _ => map (resolveCrossReferences (callAttributes (as_ctx st))) els
                    end in
        Some (mkDoc els' (as_refs st)
                (match toc_sections (as_toc st) with [] => None | _ => Some (as_toc st) end))
    end.
End Agg.

(** *** preamble *)

(** types.go:111-126 Document.Header: the header and its position *)
Fixpoint docHeader_from (els : list val) (i : nat) : option (val * nat) :=
  match els with
  | [] => None
  | e :: r =>
      match e with
      | DocumentHeader _ _ _ => Some (e, i)
      | BlankLine | FrontMatter _ => docHeader_from r (S i)
      | _ => None
      end
  end.
Definition docHeader (els : list val) : option (val * nat) := docHeader_from els 0.

(** types.go:101-106 Document.FrontMatter: the first element if it is a FrontMatter; a panic (index
    out of range) on a document without elements *)
Definition docFrontMatter (els : list val) : result (option val) :=
  match els with
  | [] => Panic "index out of range"
  | FrontMatter a :: _ => Ok (Some (FrontMatter a))
  | _ :: _ => Ok None
  end.

(** types.go:129-142 Document.BodyElements *)
Fixpoint bodyElements (els : list val) : list val :=
  match els with
  | [] => []
  | DocumentHeader _ _ _ :: r => r
  | e :: r => e :: bodyElements r
  end.

(** types.go:720-730 Preamble.HasContent *)
Definition hasContent (els : list val) : bool :=
  existsb (fun e => match e with
                    | BlankLine | AttributeDeclaration _ _ | AttributeReset _ => false
                    | _ => true end) els.

(** document_processing_aggregate.go:203-222 newPreamble, the loop: elements before the first section,
    [None] if there is no section *)
Fixpoint preambleElements (els : list val) : option (list val) :=
  match els with
  | [] => None
  | Section _ _ _ _ :: _ => Some []
  | DocumentHeader _ _ _ :: r | FrontMatter _ :: r => preambleElements r
  | e :: r => match preambleElements r with Some p => Some (e :: p) | None => None end
  end.

(** document_processing_aggregate.go:203-222 newPreamble *)
Definition newPreamble (els : list val) : option (list val) :=
  match docHeader els with
  | Some (DocumentHeader (Some _) _ _, _) => preambleElements els
  | _ => None
  end.

Definition upd {A} (l : list A) (i : nat) (x : A) : list A :=
  firstn i l ++ [x] ++ skipn (S i) l.

(** Go's [copy(dst[at:], src)]: overwrites as many places as both have; an out-of-range [at]
    panics *)
Definition copy_at {A} (dst : list A) (at_ : nat) (src : list A) : option (list A) :=
  if (List.length dst <? at_)%nat then None
  else let n := Nat.min (List.length dst - at_) (List.length src) in
       Some (firstn at_ dst ++ firstn n src ++ skipn (at_ + n) dst).

(** document_processing_aggregate.go:175-201 insertPreamble.  [VNil] fills the freshly allocated slice.
    An index out of range is a panic. *)
Definition insertPreamble (els : list val) : result (list val) :=
  match newPreamble els with
  | None => Ok els
  | Some p =>
      if negb (hasContent p) then Ok els
      else
        let n := (List.length els - List.length p + 1)%nat in
        let fresh := repeat VNil n in
        match docFrontMatter els with
        | Ok fm =>
            let fresh1 := match fm with Some f => upd fresh 0 f | None => fresh end in
            match docHeader els with
            | Some (h, offset) =>
                if (n <=? 1 + offset)%nat then Panic "index out of range"
                else
                  let fresh2 := upd (upd fresh1 offset h) (1 + offset) (Preamble p) in
                  if (List.length els <? 1 + List.length p + offset)%nat
                  then Panic "slice bounds out of range"
                  else match copy_at fresh2 (2 + offset)
                               (skipn (1 + List.length p + offset) els) with
                       | Some r => Ok r
                       | None => Panic "slice bounds out of range"
                       end
            | None =>
                match copy_at (upd fresh1 0 (Preamble p)) 1 (skipn (List.length p) els) with
                | Some r => Ok r
                | None => Panic "slice bounds out of range"
                end
            end
        | Err m => Err m
        | Panic m => Panic m
        end
  end.
