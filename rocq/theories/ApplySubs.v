(** Model of the rest of pkg/parser/document_processing_apply_substitutions.go (what Refs.v does not
    have) and of pkg/parser/document_processing_refine_fragments.go.

    Simplifications: elements are values, so a function that changes an element in place returns the
    new one; when the substitutions of a fragment fail, the context is left as it was before that
    fragment (in Go the changes made before the failure stay); attributes are visited in the order of
    the list (in Go, of the map).  A panic in a stage ends the program. *)
From Verif Require Import GoBase Types Attrs Context Utf8 Merge Elements Subs Refs Authors Footnotes.
Local Open Scope list_scope.

(** context.go:12-19 ParseContext: the fields that change.  [ac_exp]: what the options of the context
    say about experimental macros *)
Record actx := mkActx { ac_attrs : ctxattrs; ac_counters : counters; ac_exp : option bool }.

Definition AttrXRefLabel := "xrefLabel".
Definition AttrInlineLinkText := "text".
Definition AttrCols := "cols".
Definition AttrExperimental := "experimental".
Definition AttrQuoteAuthor := "quoteAuthor".

(** document_processing_apply_substitutions.go:689-734 serializePlainText, the loop on the elements of
    a slice or of a passthrough *)
Fixpoint plain_elements (content : val) : result string :=
  let fix loop (l : list val) : result string :=
    match l with
    | [] => Ok EmptyString
    | e :: r =>
        do s <- match e with
                | VSlice _ | InlinePassthrough _ _ => plain_elements e
                | RawLine s | StringElement s | SpecialCharacter s => Ok s
                | _ => Err "unexpected type of content to serialize as plain text"
                end;
        do t <- loop r; Ok (s ++ t)%string
    end in
  match content with
  | VSlice l | InlinePassthrough _ l => loop l
  | _ => Err "unexpected type of content to serialize as plain text"
  end.
(** document_processing_apply_substitutions.go:689-734 serializePlainText *)
Definition serializePlainText (content : val) : result string :=
  match content with
  | VStr s => Ok s
  | VSlice _ => plain_elements content
  | _ => Err "unexpected type of content to serialize as plain text"
  end.

Section Apply.
(** sgml.RenderPlainText, render_plain_text.go:14-22 *)
Variable plain : list val -> result string.
Variable fmtv : val -> string.
(** parseWithSubstitutions, document_processing_apply_substitutions.go:606-652.  First argument:
    [Some exp] when the options of the context are passed (user macros, experimental macros), [None]
    when they are not; then the entry point, the content and the substitutions *)
Variable pws : option (option bool) -> string -> val -> list string -> result (list val).
(** ParseReader of a line with the entry point MarkdownQuoteAttribution ([None]: error, or not a string) *)
Variable attribution : string -> option string.
(** types.go:3837-3863 SetColumnDefinitions (see Tables.v) *)
Variable setColumns : val -> list val -> result val.

(** document_processing_apply_substitutions.go:407-430 applySubstitutionsOnSlice.  The second parsing
    does not get the options of the context *)
Definition onSlice (c : actx) (es : list val) (subs : list string) : result (actx * list val) :=
  match es with
  | [] => Ok (c, [])
  | _ =>
      let (phase1, phase2) := sub_split subs in
      do parsed <- pws (Some (ac_exp c)) "NormalGroup" (VSlice es) phase1;
      if sub_contains phase1 AttributeRefs
      then do r <- replaceRefs plain (fun es' sub => pws None "NormalGroup" (VSlice es') sub) (ac_attrs c) phase2 (ac_counters c) parsed;
           Ok (mkActx (ac_attrs c) (fst r) (ac_exp c), snd r)
      else Ok (c, parsed)
  end.

(** document_processing_apply_substitutions.go:264-305 reparseAttributes.  [nested]: opts holds the entry
    point of the enclosing element, which then comes last *)
Definition reparse_attr (c : actx) (nested : bool) (kv : string * val) : result (string * val) :=
  let (k, v) := kv in
  let entry e := if nested then "NormalGroup" else e in
  if String.eqb k AttrTitle || String.eqb k AttrXRefLabel then
    do subs <- sub_append attributeSubstitutions Macros;
    do v' <- pws (Some (ac_exp c)) (entry "AttributeStructuredValue") v subs; Ok (k, Reduce (VSlice v'))
  else if String.eqb k AttrInlineLinkText then
    do v' <- pws (Some (ac_exp c)) (entry "AttributeStructuredValue") v attributeSubstitutions; Ok (k, Reduce (VSlice v'))
  else if String.eqb k AttrCols then
    do s <- serializePlainText v;
    do v' <- pws (Some (ac_exp c)) (entry "TableColumnsAttribute") (VStr s) attributeSubstitutions; Ok (k, Reduce (VSlice v'))
  else Ok (k, v).
Definition reparseAttributes (c : actx) (nested : bool) (a : attributes) : result attributes := mapM (reparse_attr c nested) a.

(** 345-353 then 264-305: the attributes of an element *)
Definition attributesOf (c : actx) (nested : bool) (a : attributes) : result attributes :=
  do a1 <- refs_attrs plain (ac_attrs c) a; reparseAttributes c nested a1.

(** document_processing_apply_substitutions.go:307-343 reparseInlineAttributes, the attributes of one
    element; the substitutions are shared and lose Macros at the first link text *)
Fixpoint inline_attrs (c : actx) (subs : list string) (a : attributes) : result (list string * attributes) :=
  match a with
  | [] => Ok (subs, [])
  | (k, v) :: r =>
      do sv <- (if String.eqb k AttrTitle || String.eqb k AttrXRefLabel then
                  do v' <- pws (Some (ac_exp c)) "AttributeStructuredValue" v subs; Ok (subs, Reduce (VSlice v'))
                else if String.eqb k AttrInlineLinkText then
                  do subs' <- sub_remove subs Macros;
                  do v' <- pws (Some (ac_exp c)) "AttributeStructuredValue" v subs'; Ok (subs', Reduce (VSlice v'))
                else Ok (subs, v));
      do sr <- inline_attrs c (fst sv) r; Ok (fst sr, (k, snd sv) :: snd sr)
  end.
(** the types.WithAttributes *)
Definition with_attributes (v : val) : bool :=
  match getElements v with Some _ => true | None => match getLocation v with Some _ => true | None => false end end.
(** document_processing_apply_substitutions.go:307-343 reparseInlineAttributes; [fuel] bounds the nesting *)
Fixpoint reparseInline (fuel : nat) (c : actx) (subs : list string) (v : val) : result (list string * val) :=
  match fuel with
  | O => Panic "model: out of fuel"
  | S f =>
      let loop := fix loop (subs : list string) (l : list val) : result (list string * list val) :=
        match l with
        | [] => Ok (subs, [])
        | e :: r => do se <- (if with_attributes e then reparseInline f c subs e else Ok (subs, e));
                    do sr <- loop (fst se) r; Ok (fst sr, snd se :: snd sr)
        end in
      do sa <- inline_attrs c subs (getAttributes v);
      let v1 := withAttrs v (snd sa) in
      match getElements v1 with
      | Some es => do ses <- loop (fst sa) es; Ok (fst ses, set_elements v1 (snd ses))
      | None => Ok (fst sa, v1)
      end
  end.
(** the loop of applySubstitutionsOnWithElements, document_processing_apply_substitutions.go:249-256 *)
Fixpoint reparseInlines (c : actx) (subs : list string) (l : list val) : result (list val) :=
  match l with
  | [] => Ok []
  | e :: r => do se <- (if with_attributes e then reparseInline (S (vsize e)) c subs e else Ok (subs, e));
              do r' <- reparseInlines c (fst se) r; Ok (snd se :: r')
  end.

(** document_processing_apply_substitutions.go:432-451 extractMarkdownQuoteAttribution *)
Definition extractAttribution (es : list val) : list val * string :=
  match rev es with
  | RawLine l :: r => match attribution l with Some a => (rev r, a) | None => (es, EmptyString) end
  | _ => (es, EmptyString)
  end.

(** types.go:2483-2497 Section.SetTitle ([stringify] of the id is [fmtv] on values other than strings) and
    types.go:381-383 DocumentHeader.SetTitle; a nil title of a header stays nil *)
Definition sectionTitle (a : attributes) (title : list val) : result (attributes * list val) :=
  match rev title with
  | [] => Panic "index out of range [-1]"
  | Attribute _ id :: r => Ok (aaddall a [(AttrID, VStr (match id with VStr s => s | v => fmtv v end))], TrimTrailingSpaces (rev r))
  | _ => Ok (a, TrimTrailingSpaces title)
  end.
(** document_processing_apply_substitutions.go:131-152 applySubstitutionsOnWithTitle *)
Definition titleRefs (c : actx) (title : list val) : result (actx * list val) :=
  let (phase1, phase2) := sub_split headerSubstitutions in
  if sub_contains phase1 AttributeRefs
  then do r <- replaceRefs plain (fun es' sub => pws None "NormalGroup" (VSlice es') sub) (ac_attrs c) phase2 (ac_counters c) title;
       Ok (mkActx (ac_attrs c) (fst r) (ac_exp c), snd r)
  else Ok (c, title).

Section Rec.
(** applySubstitutionsOnElement, one level deeper; the flag: as in [reparse_attr] *)
Variable rec : bool -> actx -> val -> result (actx * val).
(** document_processing_apply_substitutions.go:50-57 applySubstitutionsOnElements *)
Fixpoint onElements (nested : bool) (c : actx) (l : list val) : result (actx * list val) :=
  match l with
  | [] => Ok (c, [])
  | e :: r => do ce <- rec nested c e; do cr <- onElements nested (fst ce) r; Ok (fst cr, snd ce :: snd cr)
  end.

(** document_processing_apply_substitutions.go:216-262 applySubstitutionsOnWithElements *)
Definition onWithElements (nested : bool) (c : actx) (b : val) : result (actx * val) :=
  do a <- attributesOf c nested (getAttributes b);
  let b := withAttrs b a in
  do subs <- newSubstitutions fmtv b a;
  match b with
  | LabeledListElement s term a es =>
      do ct <- onSlice c term subs;
      do ce <- onElements true (fst ct) es; Ok (fst ce, LabeledListElement s (snd ct) a (snd ce))
  | DelimitedBlock k a es =>
      if existsb (String.eqb k) ["example"; "quote"; "sidebar"; "open"]
      then do ce <- onElements true c es; Ok (fst ce, DelimitedBlock k a (snd ce))
      else if String.eqb k "markdown-quote" then
        let (es1, auth) := extractAttribution es in
        let a1 := if String.eqb auth "" then a else aset a AttrQuoteAuthor (VStr auth) in
        do ce <- onSlice c es1 subs; Ok (fst ce, DelimitedBlock k a1 (snd ce))
      else do ce <- onSlice c es subs; Ok (fst ce, DelimitedBlock k a (snd ce))
  | Paragraph a es =>
      do ce <- onSlice c es subs;
      do es' <- reparseInlines (fst ce) subs (snd ce); Ok (fst ce, Paragraph a es')
  | _ => match getElements b with
         | Some es => do ce <- onElements true c es; Ok (fst ce, set_elements b (snd ce))
         | None => Ok (c, b)
         end
  end.

(** a loop over cells or rows *)
Fixpoint over (f : actx -> val -> result (actx * val)) (c : actx) (l : list val) : result (actx * list val) :=
  match l with
  | [] => Ok (c, [])
  | e :: r => do ce <- f c e; do cr <- over f (fst ce) r; Ok (fst cr, snd ce :: snd cr)
  end.
Definition onRow (f : actx -> val -> result (actx * val)) (c : actx) (row : val) : result (actx * val) :=
  match row with
  | TableRow cells => do cc <- over f c cells; Ok (fst cc, TableRow (snd cc))
  | _ => Ok (c, row)
  end.
(** document_processing_apply_substitutions.go:154-196 applySubstitutionsOnTable *)
Definition headerCell (nested : bool) (c : actx) (cell : val) : result (actx * val) :=
  match cell with
  | TableCell f [Paragraph a es] => do cp <- onWithElements nested c (Paragraph a es); Ok (fst cp, TableCell f [snd cp])
  | _ => Ok (c, cell)
  end.
Definition onTable (nested : bool) (c : actx) (t : val) : result (actx * val) :=
  do a <- attributesOf c false (getAttributes t);
  let t1 := withAttrs t a in
  do t2 <- match mget a AttrCols with Some (VSlice cols) => setColumns t1 cols | _ => Ok t1 end;
  match t2 with
  | Table a h rows f =>
      do ch <- onRow (headerCell nested) c h;
      do cr <- over (onRow (onWithElements nested)) (fst ch) rows;
      do cf <- onRow (onWithElements nested) (fst cr) f;
      Ok (fst cf, Table a (snd ch) (snd cr) (snd cf))
  | _ => Ok (c, t2)
  end.

(** document_processing_apply_substitutions.go:198-214 applySubstitutionsOnWithLocation *)
Definition onWithLocation (nested : bool) (c : actx) (b : val) : result (actx * val) :=
  do a <- attributesOf c nested (getAttributes b);
  let b := withAttrs b a in
  match getLocation b with
  | Some (Location scheme (VSlice p)) =>
      do cp <- refs_flat plain (ac_attrs c) (ac_counters c) p;
      Ok (mkActx (ac_attrs c) (fst cp) (ac_exp c), withLoc b (Location scheme (Reduce (VSlice (snd cp)))))
  | _ => Ok (c, b)
  end.

Definition set_ctx (c : actx) (a : ctxattrs) : actx := mkActx a (ac_counters c) (ac_exp c).
(** document_processing_apply_substitutions.go:59-91 applySubstitutionsOnElement *)
Definition applyElementWith (nested : bool) (c : actx) (e : val) : result (actx * val) :=
  match e with
  | FrontMatter a => Ok (set_ctx c (csetAll (ac_attrs c) a), e)
  | DocumentHeader t a es =>
      (* document_processing_apply_substitutions.go:93-106 *)
      do ce <- onElements nested c es;
      do auth <- headerAuthors (snd ce);
      do c1 <- match auth with
               | Some l => do ex <- expandAuthors l; Ok (set_ctx (fst ce) (csetAll (ac_attrs (fst ce)) ex))
               | None => Ok (fst ce)
               end;
      let c2 := match headerRevision (snd ce) with
                | Some r => set_ctx c1 (csetAll (ac_attrs c1) (expandRevision r))
                | None => c1
                end in
      do a' <- attributesOf c2 false a;
      do ct <- titleRefs c2 (match t with Some l => l | None => [] end);
      Ok (fst ct, DocumentHeader (match t with Some _ => Some (snd ct) | None => None end) a' (snd ce))
  | AttributeDeclaration name v =>
      (* document_processing_apply_substitutions.go:109-121 *)
      do v' <- refs_value plain (ac_attrs c) v;
      Ok (mkActx (cset (ac_attrs c) name v') (ac_counters c)
            (if String.eqb name AttrExperimental then Some true else ac_exp c), AttributeDeclaration name v')
  | AttributeReset name =>
      (* document_processing_apply_substitutions.go:123-129 *)
      Ok (mkActx (cunset (ac_attrs c) name) (ac_counters c)
            (if String.eqb name AttrExperimental then Some false else ac_exp c), e)
  | Section lvl a t es =>
      do a' <- attributesOf c false a;
      do ct <- titleRefs c (match t with Some l => l | None => [] end);
      do at_ <- sectionTitle a' (snd ct);
      Ok (fst ct, Section lvl (fst at_) (Some (snd at_)) es)
  | Table _ _ _ _ => onTable nested c e
  | ListContinuation off x => do cx <- rec nested c x; Ok (fst cx, ListContinuation off (snd cx))
  | _ =>
      match getElements e with
      | Some _ => onWithElements nested c e
      | None => match getLocation e with Some _ => onWithLocation nested c e | None => Ok (c, e) end
      end
  end.
End Rec.

(** document_processing_apply_substitutions.go:59-91 applySubstitutionsOnElement; [fuel] bounds the nesting *)
Fixpoint applyElement (fuel : nat) (nested : bool) (c : actx) (e : val) : result (actx * val) :=
  match fuel with
  | O => Panic "model: out of fuel"
  | S f => applyElementWith (applyElement f) nested c e
  end.
Fixpoint applyElements (c : actx) (l : list val) : result (actx * list val) :=
  match l with
  | [] => Ok (c, [])
  | e :: r => do ce <- applyElement (S (vsize e)) false c e; do cr <- applyElements (fst ce) r; Ok (fst cr, snd ce :: snd cr)
  end.
(** document_processing_apply_substitutions.go:37-48 applySubstitutionsOnFragment *)
Definition applyFragment (c : actx) (f : fragment) : result (actx * fragment) :=
  match f with
  | inr e => Ok (c, inr e)
  | inl es => match applyElements c es with
              | Ok (c', es') => Ok (c', inl es')
              | Err e => Ok (c, inr e)
              | Panic e => Panic e
              end
  end.
(** document_processing_apply_substitutions.go:20-35 ApplySubstitutions, on all the fragments in order *)
Fixpoint applyStage (c : actx) (fs : list fragment) : result (list fragment) :=
  match fs with
  | [] => Ok []
  | f :: r => do cf <- applyFragment c f; do r' <- applyStage (fst cf) r; Ok (snd cf :: r')
  end.

(** ** document_processing_refine_fragments.go *)
(** Parse of the content with the entry point DelimitedBlockElements and restore of the placeholders;
    nil elements at the end are dropped: document_processing_refine_fragments.go:138-161 reparseElements *)
Variable reparseElements : list val -> result (list val).
(** document_processing_refine_fragments.go:99-119 reparseTableCell *)
Definition refineCell (cell : val) : result val :=
  match cell with
  | TableCell f es => if String.eqb f "a" then do es' <- reparseElements es; Ok (TableCell f es')
                      else Ok (TableCell f [Paragraph [] es])
  | _ => Ok cell
  end.
Definition refineRow (row : val) : result val :=
  match row with TableRow cells => do cells' <- mapM refineCell cells; Ok (TableRow cells') | _ => Ok row end.
(** document_processing_refine_fragments.go:50-74 refineElement with 76-97 reparseTable and 121-136
    reparseDelimitedBlock.  [depth] bounds the nesting of blocks, which is not bounded by the size of the
    element: the elements of a block come from a new parsing of its lines *)
Fixpoint refineElement (depth : nat) (e : val) : result val :=
  match depth with
  | O => Panic "model: out of fuel"
  | S d =>
      match e with
      | ListElements es => do es' <- mapM (refineElement d) es; Ok (ListElements es')
      | ListContinuation off x => do x' <- refineElement d x; Ok (ListContinuation off x')
      | Table a h rows f =>
          do h' <- refineRow h; do rows' <- mapM refineRow rows; do f' <- refineRow f; Ok (Table a h' rows' f')
      | DelimitedBlock k a es =>
          if existsb (String.eqb k) ["example"; "quote"; "sidebar"; "open"]
          then do es1 <- reparseElements es; do es2 <- mapM (refineElement d) es1; Ok (DelimitedBlock k a es2)
          else Ok e
      | _ => Ok e
      end
  end.
(** document_processing_refine_fragments.go:32-48 refineFragment *)
Definition refineFragment (depth : nat) (f : fragment) : result fragment :=
  match f with
  | inr e => Ok (inr e)
  | inl es => match mapM (refineElement depth) es with Ok es' => Ok (inl es') | Err e => Ok (inr e) | Panic e => Panic e end
  end.
(** document_processing_refine_fragments.go:14-30 RefineFragments *)
Definition refineStage (depth : nat) (fs : list fragment) : result (list fragment) := mapM (refineFragment depth) fs.
End Apply.
