(** Model of the renderer: pkg/renderer/sgml/*.go with the templates of pkg/renderer/sgml/html5 and xhtml5.

    Simplifications, for the whole file:
    - the context is threaded as a value; the messages of errors are shortened, and errors are not wrapped;
    - [renderElement] takes the depth of the call stack as an argument: at 0 the Go program has died of a stack overflow
      (which is a [Panic] here).  Every element that Go renders is rendered for every sufficient depth;
    - a location is not changed by SetPathPrefix (C44 is about this effect): the source of an image is given by a function;
    - the pointer TableOfContents of a preamble is not stored in the preamble: the table is rendered by
      [renderDocumentBody];
    - what other packages compute is given by the fields of [renv] (see there). *)
From Verif Require Import GoBase Types Attrs Aggregate Toc TocRender Escape Merge Elements Ids Locations Indent Footnotes
  Templates Tmpl SectNum RenderAttrs Authors.

(** types.go:3945-3953 TableColumn: the fields used when rendering *)
Record rcol := mkRcol { rc_halign : string; rc_valign : string; rc_width : string; rc_style : string }.

(** What the rendering depends on besides the element and the mutable context *)
Record renv := mkRenv {
  e_xhtml : bool;                                   (* xhtml5.Render or html5.Render *)
  e_toLower : string -> string;                     (* strings.ToLower *)
  e_fmtv : val -> string;                           (* fmt.Sprintf("%v", _) of values other than strings and nil *)
  e_columns : val -> result (list rcol);            (* Table.Columns, types.go:3992-4057; C33 and C34 are about it *)
  e_src : attributes -> val -> string;              (* getImageSrc, image.go:112-132, given the attributes of the context *)
  e_alt : string -> result string;                  (* renderImageAlt, image.go:134-148, for images without alt attribute *)
  e_iconpath : attributes -> string -> string;      (* renderIconPath, icon.go:118-127 *)
  e_macro : val -> option (result string);          (* execution of the template of a user macro, if it is configured *)
  e_raw : val -> string;                            (* UserMacro.RawText *)
  e_highlight : attributes -> attributes -> nat -> string -> result string;
                                                    (* github.com/alecthomas/chroma on one line: context and block attributes, line index *)
  e_refs : gomap val;                               (* Document.ElementReferences *)
  e_numbers : gomap string;                         (* context.sectionNumbering *)
  e_hasHeader : bool                                (* context.hasHeader *)
}.

(** context.go:10-19 context: the fields that change.  [r_log] is not in the code: the numbers given so far, latest first *)
Record rst := mkRst { r_attrs : attributes; r_counters : gomap Z; r_within : bool; r_list : Z; r_log : list (string * Z) }.

Definition M (A : Type) : Type := rst -> result (A * rst).
Definition ret {A} (a : A) : M A := fun st => Ok (a, st).
Definition bindM {A B} (m : M A) (f : A -> M B) : M B := fun st => match m st with Ok (a, st') => f a st' | Err e => Err e | Panic e => Panic e end.
Definition fail {A} (e : string) : M A := fun _ => Err e.
Definition lift {A} (r : result A) : M A := fun st => match r with Ok a => Ok (a, st) | Err e => Err e | Panic e => Panic e end.
Definition getAttrs : M attributes := fun st => Ok (r_attrs st, st).
Notation "'let*' x ':=' m 'in' k" := (bindM m (fun x => k)) (at level 200, x name, m at level 100, k at level 200).

Definition upd_attrs (f : attributes -> attributes) : M unit :=
  fun st => Ok (tt, mkRst (f (r_attrs st)) (r_counters st) (r_within st) (r_list st) (r_log st)).
(** context.go:76-83 getAndIncrementCounter *)
Definition nextCounter (name : string) : M Z :=
  fun st => let n := match mget (r_counters st) name with None => 1%Z | Some k => (k + 1)%Z end in
            Ok (n, mkRst (r_attrs st) (mset (r_counters st) name n) (r_within st) (r_list st) ((name, n) :: r_log st)).
(** ctx.withinDelimitedBlock set to true during [m], then restored by the deferred function *)
Definition inBlock {A} (m : M A) : M A :=
  fun st => match m (mkRst (r_attrs st) (r_counters st) true (r_list st) (r_log st)) with
            | Ok (a, st') => Ok (a, mkRst (r_attrs st') (r_counters st') (r_within st) (r_list st') (r_log st'))
            | Err e => Err e | Panic e => Panic e end.
(** elements.go:24-44: withinList incremented during [m] *)
Definition inList {A} (m : M A) : M A :=
  fun st => match m (mkRst (r_attrs st) (r_counters st) (r_within st) (r_list st + 1) (r_log st)) with
            | Ok (a, st') => Ok (a, mkRst (r_attrs st') (r_counters st') (r_within st') (r_list st' - 1) (r_log st'))
            | Err e => Err e | Panic e => Panic e end.

(** ** package strings *)
Definition trimLF (s : string) : string := trim_left_char (chr 10) (trim_right_char (chr 10) s).
(** the runes that unicode.IsSpace accepts, in UTF-8 *)
Definition bytes (l : list N) : string := fold_right (fun n s => String (chr n) s) EmptyString l.
Definition space_runes : list string :=
  map bytes ([[9]; [10]; [11]; [12]; [13]; [32]; [194; 133]; [194; 160]; [225; 154; 128]]
    ++ map (fun n => [226; 128; n]) [128; 129; 130; 131; 132; 133; 134; 135; 136; 137; 138; 168; 169; 175]
    ++ [[226; 129; 159]; [227; 128; 128]])%N.
Fixpoint find_first {A} (f : A -> bool) (l : list A) : option A :=
  match l with [] => None | x :: r => if f x then Some x else find_first f r end.
Fixpoint trim_left_space (fuel : nat) (s : string) : string :=
  match fuel with
  | O => s
  | S k => match find_first (has_prefix s) space_runes with Some p => trim_left_space k (trim_prefix s p) | None => s end
  end.
Fixpoint trim_right_space (fuel : nat) (s : string) : string :=
  match fuel with
  | O => s
  | S k => match find_first (has_suffix s) space_runes with Some p => trim_right_space k (trim_suffix s p) | None => s end
  end.
(** strings.TrimSpace *)
Definition trimSpace (s : string) : string :=
  let s := trim_left_space (String.length s) s in trim_right_space (String.length s) s.
(** paragraph.go:104-115 trimSpaces *)
Definition trimSpaces (content : string) : string := join LF (map trimSpace (split_char (chr 10) content)).
(** path/filepath.Ext *)
Fixpoint ext_from (s : string) : option string :=  (* the suffix of s starting at its last dot after the last slash; None: s has a slash or no dot *)
  match s with
  | EmptyString => None
  | String c r => match ext_from r with
                  | Some e => Some e
                  | None => if contains r "/" then None else if Ascii.eqb c "." then Some s else None
                  end
  end.
Definition filepathExt (s : string) : string := match ext_from s with Some e => e | None => "" end.

Section Renderer.
Variable E : renv.
Notation fmtv := (e_fmtv E).

(** the template of that name *)
Definition template (t : tname) : string := if e_xhtml E then xhtml5 t else html5 t.
(** sgml_renderer.go:244-254 execute *)
Definition exec (t : tname) (e : fields) : M string := lift (execute (e_toLower E) (template t) e).

Definition getD (a : attributes) (k d : string) : string := getAsStringD fmtv a k d.
Definition optS (o : option string) : string := match o with Some s => s | None => "" end.

(** attribution.go:11-22 newAttribution *)
Definition newAttribution (a : attributes) : string * string :=
  match getAsString a "quoteAuthor" with
  | Some author => (author, optS (getAsString a "quoteTitle"))
  | None => (optS (getAsString a "quoteTitle"), "")
  end.
Definition attribution_fields (a : attributes) : fields :=
  [(".Attribution.First", FS (fst (newAttribution a))); (".Attribution.Second", FS (snd (newAttribution a)))].

(** element_style.go:9-14 renderElementStyle *)
Definition renderElementStyle (attrs : attributes) : string :=
  match mget attrs "style" with Some (VStr s) => htmlEscapeString s | _ => "" end.

(** ** plain text: render_plain_text.go *)

(** render_plain_text.go:52-82 plaintextRenderer.render.  [esc]: the escape function, None when it is nil.
    [fuel] bounds the nesting of the element (every call is on a part of the element) *)
Fixpoint plain (fuel : nat) (esc : option (string -> string)) (v : val) : result string :=
  match fuel with
  | O => Panic "stack overflow"
  | S k =>
    let inline (l : list val) : result string :=
      (* render_plain_text.go:84-107 renderInlineElements *)
      (fix go (l : list val) : result string :=
         match l with
         | [] => Ok EmptyString
         | e :: r => do s <- plain k esc e;
                     do t <- go r;
                     Ok ((match r, e with [], StringElement _ => trim_right_char " "%char s | _, _ => s end) ++ t)%string
         end) l in
    match v with
    | VSlice l => inline l
    | QuotedText _ es _ => inline es
    | Icon _ a => Ok (getD a "alt" "")
    | InlineImage _ a => Ok (getD a "alt" "")
    | InlineLink a loc =>
        (* render_plain_text.go:120-129 renderInlineLink *)
        match mget a "text" with
        | Some (VSlice l) => inline l
        | Some (VStr s) => Ok s
        | _ => Ok (toDisplayString fmtv loc)
        end
    | BlankLine => Ok (LF ++ LF)%string
    | SpecialCharacter n => match esc with Some f => Ok (f n) | None => Panic "nil pointer dereference" end
    | Symbol n => Ok (match mget symbols n with Some s => s | None => n end)
    | StringElement s => Ok s
    | FootnoteReference id _ _ =>
        if Z.eqb id InvalidFootnoteReference then Err "unable to render missing footnote"
        else Ok ("<sup class=""footnote"">[" ++ itoa id ++ "]</sup>")%string
    | InlinePassthrough _ es => inline es
    | _ => Err "unable to render plain string for element"
    end
  end.
(** render_plain_text.go:14-22 RenderPlainText *)
Definition renderPlainText (v : val) : result string := plain (S (vsize v)) (Some escapeString) v.
(** render_plain_text.go:26-30 WithoutEscape *)
Definition renderPlainTextNoEscape (v : val) : result string := plain (S (vsize v)) (Some (fun s => s)) v.
(** render_plain_text.go:32-46 RenderParagraphElements: no escape function *)
Fixpoint renderPlainElements (l : list val) : result string :=
  match l with
  | [] => Ok EmptyString
  | e :: r => do s <- plain (S (vsize e)) None e; do t <- renderPlainElements r; Ok (s ++ t)%string
  end.

Section Rec.
(** renderElement, one call deeper *)
Variable rec : val -> M string.

(** elements.go:11-22 renderElements; also quoted_text.go:13-24 and paragraph.go:149-160 *)
Fixpoint renderElements (l : list val) : M string :=
  match l with
  | [] => ret EmptyString
  | e :: r => let* s := rec e in let* t := renderElements r in ret (s ++ t)%string
  end.
(** elements.go:26-43 renderListElements *)
Definition renderListElements (l : list val) : M string :=
  match l with
  | [] => ret EmptyString
  | e :: r => let* s := inList (rec e) in let* t := renderElements r in ret (s ++ t)%string
  end.
(** inline_elements.go:9-35 renderInlineElements *)
Fixpoint renderInlineElements (l : list val) : M string :=
  match l with
  | [] => ret EmptyString
  | e :: r => let* s := rec e in let* t := renderInlineElements r in
              ret ((match r, e with [], StringElement _ => trim_right_char " "%char s | _, _ => s end) ++ t)%string
  end.

(** element_role.go:47-66 renderElementRole *)
Definition renderElementRole (role : val) : M string :=
  match role with VStr s => ret s | VSlice l => renderElements l | _ => fail "unexpected type of element while rendering element role" end.
Fixpoint renderRoles (l : list val) : M (list string) :=
  match l with [] => ret [] | r :: q => let* s := renderElementRole r in let* t := renderRoles q in ret (s :: t) end.
(** element_role.go:10-23 renderElementRoles *)
Definition renderElementRoles (attrs : attributes) : M string :=
  match mget attrs "roles" with Some (VRoles l) => let* r := renderRoles l in ret (join " " r) | _ => ret "" end.
(** element_role.go:26-45 renderImageRoles *)
Definition renderImageRoles (attrs : attributes) : M string :=
  let* r := match mget attrs "roles" with Some (VRoles l) => renderRoles l | _ => ret [] end in
  ret (join " " ((match getAsString attrs "float" with Some s => [s] | None => [] end)
    ++ (match getAsString attrs "align" with Some s => [("text-" ++ s)%string] | None => [] end) ++ r)).

(** paragraph.go:133-147 renderElementTitle *)
Definition renderElementTitle (attrs : attributes) : M string :=
  match mget attrs "title" with
  | None => ret ""
  | Some (VStr s) => ret s
  | Some (VSlice l) => renderElements l
  | Some _ => fail "unable to render title"
  end.

(** the fields ID, Title, Roles, Content of many templates: the calls in the usual order *)
Definition usual (attrs : attributes) (content : M string) (k : fields -> M string) : M string :=
  let* c := content in
  let* roles := renderElementRoles attrs in
  let* title := renderElementTitle attrs in
  k [(".ID", FS (renderElementID attrs)); (".Title", FS title); (".Roles", FS roles); (".Content", FS c)].

(** ** paragraphs: paragraph.go *)
(** paragraph.go:117-131 renderCheckStyle *)
Definition renderCheckStyle (v : option val) : string :=
  match v with
  | Some (VStr s) =>
      if String.eqb s "checked" then "&#10003; " else
      if String.eqb s "checked-interactive" then "<input type=""checkbox"" data-item-complete=""1"" checked> " else
      if String.eqb s "unchecked" then "&#10063; " else
      if String.eqb s "unchecked-interactive" then "<input type=""checkbox"" data-item-complete=""0""> " else ""
  | _ => ""
  end.
(** paragraph.go:149-174 renderParagraphElements *)
Definition renderParagraphElements (attrs : attributes) (es : list val) : M string :=
  let* ctx := getAttrs in
  let hardbreaks := hasOption attrs "hardbreaks" || hasOption ctx "hardbreaks" in
  let* s := renderElements es in
  if hardbreaks then let* br := exec TLineBreak [] in ret (replace_all s LF (br ++ LF)%string) else ret s.
Definition mapS (f : string -> string) (m : M string) : M string := let* s := m in ret (f s).
(** paragraph.go:41-68 renderRegularParagraph *)
Definition renderRegularParagraph (attrs : attributes) (es : list val) : M string :=
  usual attrs (mapS trimLF (renderParagraphElements attrs es)) (exec TParagraph).
(** paragraph.go:70-83 renderManpageNameParagraph *)
Definition renderManpageNameParagraph (es : list val) : M string :=
  let* c := renderElements es in exec TManpageNameParagraph [(".Content", FS c)].
(** paragraph.go:85-101 renderEmbeddedParagraph *)
Definition renderEmbeddedParagraph (attrs : attributes) (es : list val) (class : string) : M string :=
  let* c := renderElements es in
  exec TEmbeddedParagraph [(".Class", FS class); (".CheckStyle", FS (renderCheckStyle (mget attrs "checkstyle"))); (".Content", FS (trimSpaces c))].

(** ** icons: icon.go *)
Definition defaultIconClass (k : string) : string :=
  optS (mget [("caution-caption", "Caution"); ("important-caption", "Important"); ("note-caption", "Note"); ("tip-caption", "Tip");
              ("warning-caption", "Warning")] k).
(** icon.go:46-117 renderIcon *)
Definition renderIcon (class : string) (attrs : attributes) (admonition : bool) : M string :=
  let* ctx := getAttrs in
  let icons := getD ctx "icons" "text" in
  let* t := (if String.eqb icons "font" then ret TIconFont else if String.eqb icons "text" then ret TIconText else
             if String.eqb icons "image" || String.eqb icons "" then ret TIconImage else fail "unsupported icon type") in
  let font := String.eqb icons "font" in
  let caption := getD attrs "caption" (getD ctx (class ++ "-caption") (defaultIconClass (class ++ "-caption"))) in
  let alt := if admonition then (if font then "" else caption) else getD attrs "alt" class in
  let title := if admonition then (if font then caption else "") else getD attrs "title" "" in
  exec t [(".Class", FS class); (".Alt", FS alt); (".Title", FS title);
          (".Width", FS (getD attrs "width" "")); (".Height", FS (getD attrs "height" ""));
          (".Size", FS (getD attrs "size" "")); (".Rotate", FS (getD attrs "rotate" "")); (".Flip", FS (getD attrs "flip" ""));
          (".Link", FS (getD attrs "link" "")); (".Window", FS (getD attrs "window" ""));
          (".Src", FS (e_iconpath E ctx class)); (".Admonition", FB admonition)].
(** icon.go:13-36 renderInlineIcon *)
Definition renderInlineIcon (class : string) (attrs : attributes) : M string :=
  let* icon := renderIcon class attrs false in
  exec TInlineIcon [(".Class", FS class); (".Icon", FS icon); (".ID", FS (renderElementID attrs)); (".Link", FS (getD attrs "link" ""));
                    (".Window", FS (getD attrs "window" "")); (".Role", FS (getD attrs "roles" ""))].

(** ** blocks *)
(** delimited_block_admonition.go:11-48 renderAdmonitionBlock; discardBlankLines never discards anything since it looks for
    values, not pointers (delimited_block_discard_lines.go:7-37) *)
Definition renderAdmonitionBlock (attrs : attributes) (es : list val) : M string :=
  let kind := e_toLower E (optS (getAsString attrs "style")) in
  let* icon := renderIcon (e_toLower E kind) attrs true in
  usual attrs (renderElements es) (fun f => exec TAdmonitionBlock (f ++ [(".Kind", FS kind); (".Icon", FS icon)])).
(** delimited_block_admonition.go:50-90 renderAdmonitionParagraph *)
Definition renderAdmonitionParagraph (attrs : attributes) (es : list val) : M string :=
  match getAsString attrs "style" with
  | None => fail "failed to render admonition paragraph with unknown kind"
  | Some style =>
      let kind := e_toLower E style in
      let* icon := renderIcon kind attrs true in
      usual attrs (renderParagraphElements attrs es) (fun f => exec TAdmonitionParagraph (f ++ [(".Kind", FS kind); (".Icon", FS icon)]))
  end.

(** the caption and number shared by example blocks, tables and images: the caption of the element, otherwise the one of
    the context followed by a counter; the counter is then replaced by the next number *)
Definition renderCaption (attrs : attributes) (ctxKey counter placeholder : string) : M (string * Z) :=
  let* ctx := getAttrs in
  let c := match getAsString attrs "caption" with
           | Some c => c
           | None => match getAsString ctx ctxKey with
                     | Some c => if String.eqb c "" then c else (c ++ " " ++ placeholder ++ ". ")%string
                     | None => ""
                     end
           end in
  if contains c placeholder then let* n := nextCounter counter in ret (replace_all c placeholder (itoa n), n) else ret (c, 0%Z).

(** delimited_block_example.go:13-59 renderExampleBlock *)
Definition renderExampleBlock (attrs : attributes) (es : list val) : M string :=
  let* content := renderElements es in
  let* roles := renderElementRoles attrs in
  let* cn := renderCaption attrs "example-caption" "exampleBlockCounter" "{counter:example-number}" in
  let* title := renderElementTitle attrs in
  exec TExampleBlock [(".ID", FS (renderElementID attrs)); (".Title", FS title); (".Caption", FS (fst cn)); (".Roles", FS roles);
                      (".ExampleNumber", FI (snd cn)); (".Content", FS content)].
(** delimited_block_example.go:61-90 renderExampleParagraph *)
Definition renderExampleParagraph (attrs : attributes) (es : list val) : M string :=
  usual attrs (mapS (fun s => (s ++ LF)%string) (renderElements es))
        (fun f => exec TExampleBlock (f ++ [(".Caption", FS ""); (".ExampleNumber", FI 0)])).
(** delimited_block_example.go:92-123 renderLiteralParagraph *)
Definition renderLiteralParagraph (attrs : attributes) (es : list val) : M string :=
  usual attrs (mapS (fun s => match mget attrs "style" with
                              | Some (VStr st) => if String.eqb st "literal_paragraph" then adjustHeadingSpaces s else s
                              | _ => s end) (renderElements es)) (exec TLiteralBlock).
(** literal_blocks.go:11-39 renderLiteralBlock *)
Definition renderLiteralBlock (attrs : attributes) (es : list val) : M string :=
  usual attrs (mapS trimLF (renderElements es)) (exec TLiteralBlock).
(** delimited_block_fenced.go:10-41 renderFencedBlock *)
Definition renderFencedBlock (attrs : attributes) (es : list val) : M string :=
  inBlock (usual attrs (mapS trimLF (renderElements es)) (exec TFencedBlock)).
(** delimited_block_listing.go:46-72 renderListingParagraph *)
Definition renderListingParagraph (attrs : attributes) (es : list val) : M string :=
  usual attrs (renderElements es) (exec TListingBlock).

(** ** source blocks: delimited_block_source.go *)
Definition renderCalloutRef (ref : Z) : M string := exec TCalloutRef [(".Ref", FI ref)].
(** delimited_block_source.go:149-171 renderSourceLine: text and callouts of a line *)
Fixpoint renderSourceLine (l : list val) : result (string * list Z) :=
  match l with
  | [] => Ok (EmptyString, [])
  | (StringElement _ | SpecialCharacter _) as e :: r =>
      do s <- renderPlainTextNoEscape e; do (t, cs) <- renderSourceLine r; Ok ((s ++ t)%string, cs)
  | Callout n :: r => do (t, cs) <- renderSourceLine r; Ok (t, n :: cs)
  | _ :: _ => Err "unexpected type of element"
  end.
Fixpoint renderCallouts (l : list Z) : M string :=
  match l with [] => ret "" | n :: r => let* s := renderCalloutRef n in let* t := renderCallouts r in ret (s ++ t)%string end.
Fixpoint renderHighlighted (attrs : attributes) (i : nat) (lines : list (list val)) : M string :=
  match lines with
  | [] => ret ""
  | l :: r =>
      let* ctx := getAttrs in
      let* tc := lift (renderSourceLine l) in
      let* h := lift (e_highlight E ctx attrs i (fst tc)) in
      let* cs := renderCallouts (snd tc) in
      let* t := renderHighlighted attrs (S i) r in
      ret (h ++ cs ++ (match r with [] => "" | _ => LF end) ++ t)%string
  end.
(** delimited_block_source.go:68-147 renderSourceBlockElements: content, highlighter and language *)
Definition renderSourceBlockElements (attrs : attributes) (es : list val) : M (string * (string * string)) :=
  inBlock (
    let* ctx := getAttrs in
    let highlighter := getD ctx "source-highlighter" "" in
    let language := getD attrs "language" "" in
    let* s := (if String.eqb language "" || negb (String.eqb highlighter "chroma") && negb (String.eqb highlighter "pygments")
               then renderElements es else renderHighlighted attrs 0 (SplitElementsPerLine es)) in
    ret (s, (highlighter, language))).
(** delimited_block_source.go:17-57 renderSourceBlock *)
Definition renderSourceBlock (attrs : attributes) (es : list val) : M string :=
  let* chl := renderSourceBlockElements attrs es in
  let* roles := renderElementRoles attrs in
  let nowrap := match mget attrs "options" with Some (VOptions os) => existsb (fun o => eq_str o "nowrap") os | _ => false end in
  let* title := renderElementTitle attrs in
  exec TSourceBlock [(".ID", FS (renderElementID attrs)); (".Title", FS title); (".SyntaxHighlighter", FS (fst (snd chl)));
                     (".Roles", FS roles); (".Language", FS (snd (snd chl))); (".Nowrap", FB nowrap); (".Content", FS (trimLF (fst chl)))].
(** delimited_block_source.go:59-66 renderSourceParagraph *)
Definition renderSourceParagraph (attrs : attributes) (es : list val) : M string :=
  renderSourceBlock (mset attrs "style" (VStr "source")) es.
(** delimited_block_listing.go:10-44 renderListingBlock *)
Definition renderListingBlock (attrs : attributes) (es : list val) : M string :=
  if match mget attrs "style" with Some v => eq_str v "source" | None => false end then renderSourceBlock attrs es
  else inBlock (usual attrs (mapS trimLF (renderElements es)) (exec TListingBlock)).

(** delimited_block_markdown_quote.go:10-39 renderMarkdownQuoteBlock *)
Definition renderMarkdownQuoteBlock (attrs : attributes) (es : list val) : M string :=
  usual attrs (mapS trimLF (renderElements es)) (fun f => exec TMarkdownQuoteBlock (f ++ attribution_fields attrs)).
(** delimited_block_quote.go:9-38 renderQuoteBlock *)
Definition renderQuoteBlock (attrs : attributes) (es : list val) : M string :=
  usual attrs (renderElements es) (fun f => exec TQuoteBlock (f ++ attribution_fields attrs)).
(** delimited_block_quote.go:40-64 renderQuoteParagraph *)
Definition renderQuoteParagraph (attrs : attributes) (es : list val) : M string :=
  let* c := renderParagraphElements attrs es in
  let* title := renderElementTitle attrs in
  exec TQuoteParagraph ([(".ID", FS (renderElementID attrs)); (".Title", FS title); (".Content", FS c)] ++ attribution_fields attrs).
(** delimited_block_verse.go:11-45 renderVerseBlock *)
Definition renderVerseBlock (attrs : attributes) (es : list val) : M string :=
  let* roles := renderElementRoles attrs in
  inBlock (
    let* c := renderElements es in
    let* title := renderElementTitle attrs in
    exec TVerseBlock ([(".ID", FS (renderElementID attrs)); (".Title", FS title); (".Roles", FS roles); (".Content", FS (trimLF c))]
                      ++ attribution_fields attrs)).
(** delimited_block_verse.go:47-71 renderVerseParagraph *)
Definition renderVerseParagraph (attrs : attributes) (es : list val) : M string :=
  let* c := lift (renderPlainElements es) in
  let* title := renderElementTitle attrs in
  exec TVerseParagraph ([(".ID", FS (renderElementID attrs)); (".Title", FS title); (".Content", FS c)] ++ attribution_fields attrs).
(** delimited_block_sidebar.go:8-35 renderSidebarBlock *)
Definition renderSidebarBlock (attrs : attributes) (es : list val) : M string :=
  usual attrs (renderElements es) (exec TSidebarBlock).
(** delimited_block_open.go:8-35 renderOpenBlock *)
Definition renderOpenBlock (attrs : attributes) (es : list val) : M string :=
  usual attrs (renderElements es) (exec TOpenBlock).

(** passthrough.go:36-59 renderPassthroughContent *)
Fixpoint renderRawElements (l : list val) : M string :=
  match l with
  | [] => ret EmptyString
  | e :: r => let* s := match e with StringElement c => ret c | _ => rec e end in let* t := renderRawElements r in ret (s ++ t)%string
  end.
Definition renderPassthroughContent (l : list val) : M string := mapS trimLF (renderRawElements l).
(** passthrough.go:11-17 renderPassthroughParagraph *)
Definition renderPassthroughParagraph (es : list val) : M string := mapS (fun s => (s ++ LF)%string) (renderPassthroughContent es).
(** passthrough.go:19-33 renderInlinePassthrough *)
Definition renderInlinePassthrough (kind : string) (es : list val) : M string :=
  let* s := renderPassthroughContent es in ret (if String.eqb kind "+" then htmlEscapeString s else s).
(** delimited_block_passthrough.go:10-35 renderPassthroughBlock *)
Definition renderPassthroughBlock (attrs : attributes) (es : list val) : M string :=
  inBlock (
    let* c := renderElements es in
    let* roles := renderElementRoles attrs in
    exec TPassthroughBlock [(".ID", FS (renderElementID attrs)); (".Roles", FS roles); (".Content", FS (trimLF c))]).

(** delimited_block.go:9-38 renderDelimitedBlock *)
Definition renderDelimitedBlock (kind : string) (attrs : attributes) (es : list val) : M string :=
  if String.eqb kind "example" then (if ahas attrs "style" then renderAdmonitionBlock attrs es else renderExampleBlock attrs es) else
  if String.eqb kind "fenced" then renderFencedBlock attrs es else
  if String.eqb kind "literal" then renderLiteralBlock attrs es else
  if String.eqb kind "listing" then renderListingBlock attrs es else
  if String.eqb kind "markdown-quote" then renderMarkdownQuoteBlock attrs es else
  if String.eqb kind "pass" then renderPassthroughBlock attrs es else
  if String.eqb kind "quote" then renderQuoteBlock attrs es else
  if String.eqb kind "verse" then renderVerseBlock attrs es else
  if String.eqb kind "sidebar" then renderSidebarBlock attrs es else
  if String.eqb kind "open" then renderOpenBlock attrs es else fail "unsupported kind of delimited block".

(** paragraph.go:11-39 renderParagraph *)
Definition renderParagraph (attrs : attributes) (es : list val) : M string :=
  fun st =>
  (if r_within st || (0 <? r_list st)%Z then renderEmbeddedParagraph attrs es "" else
   match mget attrs "style" with
   | Some (VStr s) =>
       if String.eqb s "example" then renderExampleParagraph attrs es else
       if String.eqb s "listing" then renderListingParagraph attrs es else
       if String.eqb s "source" then renderSourceParagraph attrs es else
       if String.eqb s "verse" then renderVerseParagraph attrs es else
       if String.eqb s "quote" then renderQuoteParagraph attrs es else
       if String.eqb s "pass" then renderPassthroughParagraph es else
       if String.eqb s "manpage" then renderManpageNameParagraph es else
       if existsb (String.eqb s) ["TIP"; "NOTE"; "IMPORTANT"; "WARNING"; "CAUTION"] then renderAdmonitionParagraph attrs es else
       if String.eqb s "literal_paragraph" || String.eqb s "literal" then renderLiteralParagraph attrs es
       else renderRegularParagraph attrs es
   | _ => renderRegularParagraph attrs es
   end) st.

(** ** lists: list.go *)
Definition renderItem (t : tname) (es : list val) : M string :=
  let* c := renderListElements es in exec t [(".Content", FS c)].
(** list.go:89-102 numberingType *)
Definition numberingType (style : string) : string :=
  optS (mget [("loweralpha", "a"); ("upperalpha", "A"); ("lowerroman", "i"); ("upperroman", "I")] style).
(** list.go:77-86 getNumberingStyle *)
Definition getNumberingStyle (attrs : attributes) (es : list val) : result string :=
  match getAsString attrs "style" with
  | Some s => Ok s
  | None => match es with
            | [] => Panic "index out of range [0]"
            | OrderedListElement style _ _ :: _ => Ok style
            | _ => Err "unable to render ordered list style"
            end
  end.
Fixpoint renderOrderedItems (l : list val) : M string :=
  match l with
  | [] => ret ""
  | OrderedListElement _ _ es :: r => let* s := renderItem TOrderedListElement es in let* t := renderOrderedItems r in ret (s ++ t)%string
  | _ => fail "unable to render ordered list element"
  end.
(** list.go:31-75 renderOrderedList *)
Definition renderOrderedList (attrs : attributes) (es : list val) : M string :=
  let* content := renderOrderedItems es in
  let* roles := renderElementRoles attrs in
  let* style := lift (getNumberingStyle attrs es) in
  let* title := renderElementTitle attrs in
  exec TOrderedList [(".ID", FS (renderElementID attrs)); (".Title", FS title); (".Roles", FS roles); (".Style", FS style);
                     (".ListStyle", FS (numberingType style)); (".Start", FS (getD attrs "start" "")); (".Content", FS content);
                     (".Reversed", FB (hasOption attrs "reversed"))].
(** list.go:175-194 renderUnorderedListElement: any kind of list element *)
Fixpoint renderUnorderedItems (l : list val) : M string :=
  match l with
  | [] => ret ""
  | (UnorderedListElement _ _ _ es | OrderedListElement _ _ es | LabeledListElement _ _ _ es | CalloutListElement _ _ es) :: r =>
      let* s := renderItem TUnorderedListElement es in let* t := renderUnorderedItems r in ret (s ++ t)%string
  | _ => fail "not a list element"
  end.
(** list.go:128-174 renderUnorderedList *)
Definition renderUnorderedList (attrs : attributes) (es : list val) : M string :=
  let* check := match es with
                | [] => ret false
                | UnorderedListElement _ c _ _ :: _ => ret (negb (String.eqb c "nocheck"))
                | _ => fail "unable to render unordered list element"
                end in
  let* content := renderUnorderedItems es in
  let* roles := renderElementRoles attrs in
  let* title := renderElementTitle attrs in
  exec TUnorderedList [(".ID", FS (renderElementID attrs)); (".Title", FS title); (".Checklist", FB check); (".Content", FS content);
                       (".Roles", FS roles); (".Style", FS (renderElementStyle attrs))].
(** list.go:283-305 renderLabeledListItem *)
Definition renderLabeledListItem (t : tname) (cont : bool) (term es : list val) : M (string * bool) :=
  let* tm := renderInlineElements term in
  let* c := renderListElements es in
  let* s := exec t [(".Term", FS tm); (".Content", FS c); (".Continuation", FB cont)] in
  ret (s, String.eqb c "").
Fixpoint renderLabeledItems (t : tname) (cont : bool) (l : list val) : M string :=
  match l with
  | [] => ret ""
  | LabeledListElement _ term _ es :: r =>
      let* sc := renderLabeledListItem t cont term es in
      let* q := renderLabeledItems t (snd sc) r in ret (fst sc ++ q)%string
  | _ => fail "unable to render labeled list element"
  end.
(** list.go:245-281 getLabeledListTmpl *)
Definition getLabeledListTmpl (attrs : attributes) : M (tname * tname) :=
  match mget attrs "style" with
  | Some v => if eq_str v "qanda" then ret (TQAndAList, TQAndAListElement) else
              if eq_str v "horizontal" then ret (TLabeledListHorizontal, TLabeledListHorizontalElement) else fail "unsupported labeled list layout"
  | None => ret (TLabeledList, TLabeledListElement)
  end.
(** list.go:199-243 renderLabeledList *)
Definition renderLabeledList (attrs : attributes) (es : list val) : M string :=
  let* tt := getLabeledListTmpl attrs in
  usual attrs (renderLabeledItems (snd tt) false es) (exec (fst tt)).
(** list.go:348-362 renderCalloutListElement *)
Fixpoint renderCalloutItems (l : list val) : M string :=
  match l with
  | [] => ret ""
  | CalloutListElement ref _ es :: r =>
      let* c := renderListElements es in
      let* s := exec TCalloutListElement [(".Ref", FI ref); (".Content", FS c)] in
      let* t := renderCalloutItems r in ret (s ++ t)%string
  | _ => fail "unable to render callout list element"
  end.
(** list.go:310-346 renderCalloutList *)
Definition renderCalloutList (attrs : attributes) (es : list val) : M string :=
  usual attrs (renderCalloutItems es) (exec TCalloutList).
(** list.go:13-26 renderList *)
Definition renderList (kind : string) (attrs : attributes) (es : list val) : M string :=
  if String.eqb kind "ordered_list" then renderOrderedList attrs es else
  if String.eqb kind "unordered_list" then renderUnorderedList attrs es else
  if String.eqb kind "labeled_list" then renderLabeledList attrs es else
  if String.eqb kind "callout_list" then renderCalloutList attrs es else fail "unable to render list".

(** ** tables: table.go *)
Definition cell_fields (col : rcol) (content : string) : fields :=
  [(".HAlign", FS (rc_halign col)); (".VAlign", FS (rc_valign col)); (".Content", FS content)].
(** table.go:144-164 renderTableHeaderCell, and table.go:191-211 renderTableFooterCell *)
Definition renderEdgeCell (t : tname) (c : val) (col : rcol) : M string :=
  match c with
  | TableCell _ [Paragraph _ es] => let* s := renderInlineElements es in exec t (cell_fields col s)
  | _ => fail "invalid content (expected a single paragraph)"
  end.
Fixpoint renderEdgeCells (t : tname) (cols : list rcol) (col : nat) (cells : list val) : M string :=
  match cells with
  | [] => ret ""
  | c :: r =>
      match cols with
      | [] => fun _ => Panic "integer divide by zero"
      | d :: _ => let* s := renderEdgeCell t c (nth (col mod List.length cols) cols d) in
                  let* q := renderEdgeCells t cols (S col) r in ret (s ++ q)%string
      end
  end.
(** table.go:123-142 renderTableHeader, and table.go:166-189 renderTableFooter *)
Definition renderEdgeRow (t tc : tname) (row : val) (cols : list rcol) : M string :=
  match row with
  | TableRow cells => let* c := renderEdgeCells tc cols 0 cells in exec t [(".Content", FS c)]
  | _ => ret ""
  end.
(** table.go:283-326 renderTableCellBlock *)
Definition renderTableCellBlock (v : val) : M string :=
  match v with
  | Paragraph attrs es =>
      let* c := renderElements es in
      let* title := renderElementTitle attrs in
      let* s := exec TEmbeddedParagraph [(".ID", FS (renderElementID attrs)); (".Title", FS title); (".Class", FS "tableblock");
                  (".CheckStyle", FS (renderCheckStyle (mget attrs "checkstyle"))); (".Content", FS c)] in
      ret (trim_suffix s LF)
  | _ => let* s := rec v in exec TTableCellBlock [(".Content", FS s)]
  end.
Fixpoint renderCellBlocks (l : list val) : M string :=
  match l with [] => ret "" | e :: r => let* s := renderTableCellBlock e in let* t := renderCellBlocks r in ret (s ++ t)%string end.
(** table.go:255-281 renderTableCell *)
Definition renderTableCell (c : val) (col : rcol) : M string :=
  match c with
  | TableCell _ es => let* s := renderCellBlocks es in
      exec (if String.eqb (rc_style col) "h" then TTableHeaderCell else TTableCell) (cell_fields col s)
  | _ => fail "not a cell"
  end.
Fixpoint renderCells (cols : list rcol) (i : nat) (cells : list val) : M string :=
  match cells with
  | [] => ret ""
  | c :: r => match nth_error cols i with
              | None => fun _ => Panic "index out of range"
              | Some col => let* s := renderTableCell c col in let* t := renderCells cols (S i) r in ret (s ++ t)%string
              end
  end.
(** table.go:235-253 renderTableRow *)
Fixpoint renderRows (cols : list rcol) (rows : list val) : M string :=
  match rows with
  | [] => ret ""
  | TableRow cells :: r =>
      let* c := renderCells cols 0 cells in
      let* s := exec TTableRow [(".Content", FS c)] in
      let* t := renderRows cols r in ret (s ++ t)%string
  | _ => fail "not a row"
  end.
(** table.go:13-121 renderTable *)
Definition renderTable (v : val) : M string :=
  match v with
  | Table attrs header rows footer =>
      let width := match atoi (trim_suffix (getD attrs "width" "") "%") with Some n => n | None => 0%Z end in
      let fit := if (100 <=? width)%Z then "stretch" else if (0 <? width)%Z then "" else
                 if hasOption attrs "autowidth" then "fit-content" else "stretch" in
      let width := if (100 <=? width)%Z then 0%Z else width in
      let* cn := (if ahas attrs "title" then renderCaption attrs "table-caption" "tableCounter" "{counter:table-number}" else ret ("", 0%Z)) in
      let* cols := lift (e_columns E v) in
      let* h := renderEdgeRow TTableHeader TTableHeaderCell header cols in
      let* f := renderEdgeRow TTableFooter TTableFooterCell footer cols in
      let* b := (let* c := renderRows cols rows in exec TTableBody [(".Content", FS c)]) in
      let* roles := renderElementRoles attrs in
      let* title := renderElementTitle attrs in
      exec TTable [(".ID", FS (renderElementID attrs)); (".Title", FS title); (".Columns", FL (map (fun c => [(".Width", rc_width c)]) cols));
                   (".TableNumber", FI (snd cn)); (".Caption", FS (fst cn)); (".Roles", FS roles);
                   (".Frame", FS (getD attrs "frame" "all")); (".Grid", FS (getD attrs "grid" "all")); (".Fit", FS fit);
                   (".Float", FS (getD attrs "float" "")); (".Stripes", FS (getD attrs "stripes" "")); (".Width", FI width);
                   (".Header", FS h); (".Body", FS b); (".Footer", FS f)]
  | _ => fail "not a table"
  end.

(** ** images: image.go *)
Definition renderImageAlt (attrs : attributes) (src : string) : result string :=
  match getAsString attrs "alt" with Some s => Ok s | None => e_alt E src end.
(** image.go:16-76 renderImageBlock *)
Definition renderImageBlock (loc : val) (attrs : attributes) : M string :=
  let* title := renderElementTitle attrs in
  let* cn := (if String.eqb title "" then ret ("", 0%Z) else renderCaption attrs "figure-caption" "imageCounter" "{counter:figure-number}") in
  let* roles := renderImageRoles attrs in
  let* ctx := getAttrs in
  let src := e_src E ctx loc in
  let* alt := lift (renderImageAlt attrs src) in
  exec TBlockImage [(".ID", FS (renderElementID attrs)); (".Src", FS src); (".Title", FS title); (".ImageNumber", FI (snd cn));
                    (".Caption", FS (fst cn)); (".Roles", FS roles); (".Href", FS (getD attrs "link" "")); (".Alt", FS alt);
                    (".Width", FS (getD attrs "width" "")); (".Height", FS (getD attrs "height" ""))].
(** image.go:78-110 renderInlineImage *)
Definition renderInlineImage (loc : val) (attrs : attributes) : M string :=
  let* roles := renderImageRoles attrs in
  let* ctx := getAttrs in
  let src := e_src E ctx loc in
  let* alt := lift (renderImageAlt attrs src) in
  let* title := renderElementTitle attrs in
  exec TInlineImage [(".Src", FS src); (".Title", FS title); (".Roles", FS roles); (".Href", FS (getD attrs "link" "")); (".Alt", FS alt);
                     (".Width", FS (getD attrs "width" "")); (".Height", FS (getD attrs "height" ""))].

(** ** inline elements *)
(** cross_reference.go:16-64: the label *)
Fixpoint renderLabel (l : list val) : M string :=
  match l with
  | [] => ret ""
  | e :: r => let* s := match e with InlineLink _ _ => lift (renderPlainText e) | _ => rec e end in
              let* t := renderLabel r in ret (s ++ t)%string
  end.
(** cross_reference.go:26-53, the default label: that of the element referred to *)
Definition renderRefLabel (id : string) : M string :=
  match mget (e_refs E) id with
  | Some (VStr s) => ret s
  | Some (VSlice l) => renderLabel l
  | Some _ => fail "unable to process internal cross reference to element"
  | None => ret ("[" ++ id ++ "]")%string
  end.
(** cross_reference.go:14-62 renderInternalCrossReference *)
Definition renderInternalCrossReference (id label : val) : M string :=
  match id with
  | VStr id =>
      let* l := match label with
                | VStr s => ret s
                | _ => renderRefLabel id
                end in
      exec TInternalCrossReference [(".Href", FS id); (".Label", FS l)]
  | _ => fail "unable to process internal cross reference: invalid ID"
  end.
(** cross_reference.go:87-94 defaultXrefLabel and getCrossReferenceLocation *)
Definition xrefTarget (loc : val) (pre post : string) : string :=
  let l := toDisplayString fmtv loc in
  let ext := filepathExt l in
  if String.eqb ext "" then (pre ++ l ++ post)%string else (stake (String.length l - String.length ext) l ++ ".html")%string.
(** cross_reference.go:64-85 renderExternalCrossReference *)
Definition renderExternalCrossReference (loc : val) (attrs : attributes) : M string :=
  let* l := match mget attrs "xrefLabel" with
            | Some (VStr s) => ret s
            | Some (VSlice l) => renderInlineElements l
            | _ => ret (xrefTarget loc "[" "]")
            end in
  exec TExternalCrossReference [(".Href", FS (xrefTarget loc "#" "")); (".Label", FS l)].
(** quoted_text.go:13-64 renderQuotedText *)
Definition quotedTemplate (kind : string) : option tname :=
  if existsb (String.eqb kind) ["*"; "**"] then Some TBoldText else
  if existsb (String.eqb kind) ["_"; "__"] then Some TItalicText else
  if existsb (String.eqb kind) ["#"; "##"] then Some TMarkedText else
  if existsb (String.eqb kind) ["`"; "``"] then Some TMonospaceText else
  if String.eqb kind "~" then Some TSubscriptText else
  if String.eqb kind "^" then Some TSuperscriptText else None.
Definition renderQuotedText (kind : string) (es : list val) (attrs : attributes) : M string :=
  let* c := renderElements es in
  let* roles := renderElementRoles attrs in
  match quotedTemplate kind with
  | Some t => exec t [(".ID", FS (renderElementID attrs)); (".Roles", FS roles); (".Content", FS c)]
  | None => fail "unsupported quoted text kind"
  end.
(** link.go:10-56 renderLink *)
Definition scheme_of (loc : val) : option string := match loc with Location s _ => Some s | _ => None end.
Definition renderLink (attrs : attributes) (loc : val) : M string :=
  let id := getD attrs "id" "" in
  let* roles := renderElementRoles attrs in
  let* tc := match mget attrs "text" with
             | Some t =>
                 let* text := match t with VStr s => ret (escapeString s) | VSlice l => renderInlineElements l | _ => ret "" end in
                 ret (text, roles)
             | None =>
                 let bare := match scheme_of loc with Some s => if String.eqb s "mailto:" then "" else "bare" | None => "" end in
                 ret (escapeString (toDisplayString fmtv loc), if String.eqb roles "" then bare else (bare ++ " " ++ roles)%string)
             end in
  let target := getD attrs "window" "" in
  exec TLink [(".ID", FS id); (".URL", FS (escapeString (toString fmtv loc))); (".Text", FS (fst tc)); (".Class", FS (snd tc));
              (".Target", FS target); (".NoOpener", FB (String.eqb target "_blank" || hasOption attrs "noopener"))].
(** footnote_reference.go:10-57 renderFootnoteReference *)
Definition renderFootnoteReference (id : Z) (ref : val) (dup : bool) : M string :=
  let fs := [(".ID", FI id); (".Ref", FS (ref_str ref))] in
  if negb (Z.eqb id InvalidFootnoteReference) && negb dup then exec TFootnote fs else
  if dup then exec TFootnoteRef fs else exec TInvalidFootnote [(".Ref", FS (ref_str ref))].
(** user_macro.go:9-28 renderUserMacro *)
Definition renderUserMacro (v : val) (kind : string) : M string :=
  match e_macro E v with
  | Some r => lift r
  | None => if String.eqb kind "block" then renderParagraph [] [StringElement (e_raw E v)] else ret (e_raw E v)
  end.
(** inline_button.go:10-20 renderInlineButton: text/template prints a missing value as "<no value>" *)
Definition renderInlineButton (attrs : attributes) : M string :=
  exec TInlineButton [(".", FS (match mget attrs "label" with None | Some VNil => "<no value>" | Some (VStr s) => s | Some v => fmtv v end))].

(** ** sections: section.go *)
(** section.go:46-71 renderSectionTitle *)
Definition renderSectionTitle (level : Z) (attrs : attributes) (title : list val) : M string :=
  let* t := renderInlineElements title in
  let number := optS (mget (e_numbers E) (optS (getAsString attrs "id"))) in
  exec TSectionTitle [(".Level", FI level); (".LevelPlusOne", FI (level + 1)); (".ID", FS (renderElementID attrs)); (".Number", FS number);
                      (".Content", FS (trimSpace t))].
(** section.go:12-44 renderSection *)
Definition renderSection (level : Z) (attrs : attributes) (title : option (list val)) (es : list val) : M string :=
  let* h := renderSectionTitle level attrs (match title with Some l => l | None => [] end) in
  let* c := renderElements es in
  let* roles := renderElementRoles attrs in
  exec TSectionContent [(".Header", FS h); (".Level", FI level); (".ID", FS (renderElementID attrs)); (".Roles", FS roles); (".Content", FS c)].
(** preamble.go:8-32 renderPreamble; [toc]: the rendering of its table of contents *)
Definition renderPreamble (es : list val) (toc : M string) : M string :=
  let* c := renderElements es in
  let* t := toc in
  exec TPreamble [(".Wrapper", FB (e_hasHeader E)); (".Content", FS c); (".ToC", FS t)].

(** string.go:11-20 renderStringElement, with context.go:50-52 UseUnicode *)
Definition renderString (s : string) : M string :=
  let* ctx := getAttrs in ret (renderStringElement (getAsBool ctx "unicode" true) s).

(** elements.go:46-117 renderElement *)
Definition renderElementWith (v : val) : M string :=
  match v with
  | Section level attrs title es => renderSection level attrs title es
  | Preamble es => renderPreamble es (ret "")
  | ListBlock kind attrs es => renderList kind attrs es
  | Callout ref => renderCalloutRef ref
  | Paragraph attrs es => renderParagraph attrs es
  | InternalCrossReference id label => renderInternalCrossReference id label
  | ExternalCrossReference loc attrs => renderExternalCrossReference loc attrs
  | QuotedText kind es attrs => renderQuotedText kind es attrs
  | InlinePassthrough kind es => renderInlinePassthrough kind es
  | ImageBlock loc attrs => renderImageBlock loc attrs
  | InlineButton attrs => renderInlineButton attrs
  | InlineImage loc attrs => renderInlineImage loc attrs
  | InlineMenu path => exec TInlineMenu [(".Path", FL (map (fun s => [("", s)]) path))]
  | Icon class attrs => renderInlineIcon class attrs
  | DelimitedBlock kind attrs es => renderDelimitedBlock kind attrs es
  | Table _ _ _ _ => renderTable v
  | InlineLink attrs loc => renderLink attrs loc
  | StringElement s => renderString s
  | FootnoteReference id ref dup => renderFootnoteReference id ref dup
  | LineBreak => exec TLineBreak []
  | UserMacro kind _ _ _ => renderUserMacro v kind
  | IndexTerm term => renderInlineElements term
  | ConcealedIndexTerm _ _ _ => ret ""
  | ThematicBreak => exec TThematicBreak []
  | SpecialCharacter name => lift (renderSpecialCharacter name)
  | Symbol name => lift (renderSymbol name)
  | PredefinedAttribute name => ret (predefinedAttribute name)
  | AttributeDeclaration name value => let* _ := upd_attrs (fun a => mset a name value) in ret ""
  | AttributeReset name => let* _ := upd_attrs (fun a => mdel a name) in ret ""
  | FrontMatter attrs => let* _ := upd_attrs (fun a => aaddall a attrs) in ret ""
  | _ => fail "unsupported type of element"
  end.
End Rec.

(** elements.go:46-117 renderElement *)
Fixpoint renderElement (depth : nat) (v : val) : M string :=
  match depth with
  | O => fun _ => Panic "stack overflow"
  | S k => renderElementWith (renderElement k) v
  end.

(** ** the table of contents: table_of_contents.go *)
Inductive tocr := TocR (id : string) (level : Z) (number title : string) (sub : list tocr).
Section TocRender.
Variable rec : val -> M string.
(** table_of_contents.go:39-65 prerenderTableOfContentsEntry *)
Fixpoint prerenderEntry (t : tocsec) : M tocr :=
  match t with
  | TocSec id level sub =>
      let* sub' := (fix go (l : list tocsec) : M (list tocr) :=
                      match l with [] => ret [] | x :: r => let* y := prerenderEntry x in let* ys := go r in ret (y :: ys) end) sub in
      match mget (e_refs E) id with
      | None => fail "unable to render table of contents entry title (missing element reference"
      | Some s => let* title := match s with VSlice l => renderElements rec l | _ => rec s end in
                  ret (TocR id level (optS (mget (e_numbers E) id)) title sub')
      end
  end.
Fixpoint prerenderEntries (l : list tocsec) : M (list tocr) :=
  match l with [] => ret [] | x :: r => let* y := prerenderEntry x in let* ys := prerenderEntries r in ret (y :: ys) end.
(** table_of_contents.go:135-151 renderTableOfContentsEntry, renderTableOfContentsSections *)
Fixpoint renderTocEntry (t : tocr) : M string :=
  match t with
  | TocR id _ number title sub =>
      let* c := match sub with
                | [] => ret ""
                | TocR _ level _ _ _ :: _ =>
                    let* s := (fix go (l : list tocr) : M string :=
                                 match l with [] => ret "" | x :: r => let* a := renderTocEntry x in let* b := go r in ret (a ++ b)%string end) sub in
                    exec TTocSection [(".Level", FI level); (".Content", FS s)]
                end in
      exec TTocEntry [(".Number", FS number); (".ID", FS id); (".Title", FS title); (".Content", FS c)]
  end.
Fixpoint renderTocEntries (l : list tocr) : M string :=
  match l with [] => ret "" | x :: r => let* a := renderTocEntry x in let* b := renderTocEntries r in ret (a ++ b)%string end.
Definition renderTocSections (l : list tocr) : M string :=
  match l with
  | [] => ret ""
  | TocR _ level _ _ _ :: _ => let* s := renderTocEntries l in exec TTocSection [(".Level", FI level); (".Content", FS s)]
  end.
(** table_of_contents.go:97-112 renderTableOfContentsTitle *)
Definition renderTocTitle : M string :=
  let* ctx := getAttrs in
  match mget ctx "toc-title" with
  | None => ret "Table of Contents"
  | Some (VStr s) => ret s
  | Some (VSlice l) => renderElements rec l
  | Some v => rec v
  end.
(** table_of_contents.go:67-95 renderTableOfContents *)
Definition renderToc (t : option (list tocr)) : M string :=
  match t with
  | None => ret ""
  | Some l =>
      let* title := renderTocTitle in
      let* s := renderTocSections l in
      if String.eqb s "" then ret "" else exec TTocRoot [(".Title", FS title); (".Sections", FS s)]
  end.
End TocRender.

(** ** the document: sgml.go *)
(** footnote_reference.go:83-102 renderFootnoteElement *)
Definition renderFootnoteElement (rec : val -> M string) (v : val) : M string :=
  match v with
  | Footnote id ref es =>
      let* c := renderInlineElements rec es in
      exec TFootnoteElement [(".ID", FI id); (".Ref", FS (ref_str ref)); (".Content", FS (replace_all (trimSpace c) LF " "))]
  | _ => fail "not a footnote"
  end.
Fixpoint renderFootnoteElements (rec : val -> M string) (l : list val) : M string :=
  match l with [] => ret "" | x :: r => let* a := renderFootnoteElement rec x in let* b := renderFootnoteElements rec r in ret (a ++ b)%string end.
(** footnote_reference.go:59-81 renderFootnotes *)
Definition renderFootnotes (rec : val -> M string) (l : list val) : M string :=
  match l with
  | [] => ret ""
  | _ => let* c := renderFootnoteElements rec l in exec TFootnotes [(".Content", FS c)]
  end.
(** sgml.go:435-442 lookupPreamble: the elements, the first preamble being rendered with the table of contents *)
Fixpoint renderElementsToc (rec : val -> M string) (t : option (list tocr)) (l : list val) : M string :=
  match l with
  | [] => ret ""
  | Preamble es :: r => let* s := renderPreamble rec es (renderToc rec t) in let* q := renderElements rec r in ret (s ++ q)%string
  | e :: r => let* s := rec e in let* q := renderElementsToc rec t r in ret (s ++ q)%string
  end.
(** sgml.go:391-433 renderDocumentBody *)
Definition renderDocumentBody (rec : val -> M string) (source : list val) (toc : option (list tocr)) (notes : list val) : M string :=
  let* ctx := getAttrs in
  let* s := match mget ctx "toc", toc with
            | Some placement, Some _ =>
                if eq_str placement "preamble" then renderElementsToc rec toc source else
                if eq_str placement "" || (match placement with VNil => true | _ => false end)
                then let* t := renderToc rec toc in let* q := renderElements rec source in ret (t ++ q)%string
                else fail "unsupported table of contents placement"
            | _, _ => renderElements rec source
            end in
  let* f := renderFootnotes rec notes in ret (s ++ f)%string.

(** document_details.go:49-93 renderDocumentAuthorsDetails *)
Fixpoint renderAuthorsList (first : bool) (l : list (string * string * string)) : M string :=
  match l with
  | [] => ret ""
  | (index, name, email) :: r =>
      let* s := exec TDocumentAuthorDetails [(".Index", FS index); (".Name", FS name); (".Email", FS email)] in
      let* t := renderAuthorsList false r in ret ((if first then "" else LF) ++ s ++ t)%string
  end.
(** document_details.go:13-47 renderDocumentDetails *)
Definition renderDocumentDetails : M string :=
  let* ctx := getAttrs in
  if ahas ctx "authors" then
    let* a := renderAuthorsList true (authorsDetails ctx) in
    exec TDocumentDetails [(".Authors", FS a); (".RevLabel", FS (optS (getAsString ctx "version-label")));
                           (".RevNumber", FS (optS (getAsString ctx "revnumber"))); (".RevDate", FS (optS (getAsString ctx "revdate")));
                           (".RevRemark", FS (optS (getAsString ctx "revremark")))]
  else ret "".
(** sgml.go:321-340 renderDocumentHeader *)
Definition renderDocumentHeader (rec : val -> M string) (title : option (list val)) : M string :=
  let* h := match title with Some l => renderElements rec l | None => ret "" end in
  let* d := renderDocumentDetails in
  exec TArticleHeader [(".Header", FS h); (".Details", FS d)].
(** sgml.go:350-387 renderManpageHeader *)
Definition renderManpageHeader (rec : val -> M string) (title : option (list val)) (name : val) : M string :=
  match name with
  | Section _ _ stitle (first :: _) =>
      let* h := match title with Some l => renderElements rec l | None => ret "" end in
      let* n := renderElements rec (match stitle with Some l => l | None => [] end) in
      match first with
      | Paragraph attrs es =>
          let* c := renderParagraph rec (aset attrs "style" (VStr "manpage")) es in
          exec TManpageHeader [(".Header", FS h); (".Name", FS n); (".Content", FS c); (".IncludeH1", FB (negb (String.eqb h "")))]
      | _ => fun _ => Panic "interface conversion"
      end
  | Section _ _ _ [] => fun _ => Panic "index out of range [0]"
  | _ => fun _ => Panic "interface conversion"
  end.

(** the document to render, and the part of the configuration that the renderer reads *)
Record rdoc := mkRdoc { rd_elements : list val; rd_toc : option (list tocsec); rd_notes : list val }.
Record rconf := mkRconf { rc_wrap : bool; rc_updated : string; rc_css : list string }.

Definition headerTitle (els : list val) : option (list val) :=
  match docHeader els with Some (DocumentHeader t _ _, _) => t | _ => None end.
Definition hasHeader (els : list val) : bool := match docHeader els with Some _ => true | None => false end.
Definition headerAttrs (els : list val) : attributes := match docHeader els with Some (DocumentHeader _ a _, _) => a | _ => [] end.
Definition headerElements (els : list val) : list val := match docHeader els with Some (DocumentHeader _ _ es, _) => es | _ => [] end.

(** sgml.go:216-223 splitAndRender, splitAndRenderForArticle and splitAndRenderForManpage: header and content *)
Definition splitAndRender (rec : val -> M string) (c : rconf) (d : rdoc) (toc : option (list tocr)) : M (string * string) :=
  let* ctx := getAttrs in
  let els := rd_elements d in
  if String.eqb (getD ctx "doctype" "article") "manpage" then
    match bodyElements els with
    | [] => fun _ => Panic "index out of range [0]"
    | name :: rest =>
        if rc_wrap c then
          let* h := renderManpageHeader rec (headerTitle els) name in
          let* b := renderDocumentBody rec rest toc (rd_notes d) in ret (h, b)
        else
          let* h := renderManpageHeader rec None name in
          let* b := renderDocumentBody rec rest toc (rd_notes d) in ret ("", (h ++ b)%string)
    end
  else
    let* h := (if hasHeader els then renderDocumentHeader rec (headerTitle els) else ret "") in
    let* b := renderDocumentBody rec (bodyElements els) toc (rd_notes d) in ret (h, b).

(** sgml.go:18-140 Render, once the context is set up: the output and the title of the metadata *)
Definition renderDocument (rec : val -> M string) (c : rconf) (d : rdoc) : M (string * string) :=
  let els := rd_elements d in
  let* title := match headerTitle els with Some l => lift (renderPlainText (VSlice l)) | None => ret "" end in
  let* toc := match rd_toc d with
              | None => ret None
              | Some l => let* t := prerenderEntries rec l in ret (Some t)
              end in
  let* hc := splitAndRender rec c d toc in
  let* roles := (if hasHeader els then renderElementRoles rec (headerAttrs els) else ret "") in
  let* ctx := getAttrs in
  if rc_wrap c then
    let* authors := (if hasHeader els then lift (renderAuthors (headerElements els)) else ret "") in
    let* out := exec TArticle
      [(".Doctype", FS (getD ctx "doctype" "article")); (".Generator", FS "libasciidoc"); (".Description", FS (getD ctx "description" ""));
       (".Title", FS (match headerTitle els with Some _ => title | None => "Untitled" end)); (".Authors", FS authors);
       (".Header", FS (fst hc)); (".Roles", FS roles); (".ID", FS (if hasHeader els then renderElementID (headerAttrs els) else ""));
       (".Content", FS (snd hc)); (".RevNumber", FS (getD ctx "revnumber" "")); (".LastUpdated", FS (rc_updated c));
       (".CSS", FL (map (fun s => [("", s)]) (rc_css c)));
       (".IncludeHTMLBodyHeader", FB (negb (ahas ctx "noheader"))); (".IncludeHTMLBodyFooter", FB (negb (ahas ctx "nofooter")))] in
    ret (out, title)
  else ret (snd hc, title).
End Renderer.

(** sgml.go:18-140 Render: given the attributes of the configuration, the output, the title of the metadata, and the
    attributes of the configuration after the call (the context shares the map).  [depth]: the depth of the stack.
    Simplification: the document title is rendered (to plain text) after the attributes of the header are processed,
    not before; it does not depend on them. *)
Definition render (E : renv) (depth : nat) (c : rconf) (d : rdoc) (attrs : option attributes) : result (string * string * attributes) :=
  do a <- renderAttrs (rd_elements d) attrs;
  let E' := mkRenv (e_xhtml E) (e_toLower E) (e_fmtv E) (e_columns E) (e_src E) (e_alt E) (e_iconpath E) (e_macro E) (e_raw E)
                   (e_highlight E) (e_refs E) (sectionNumbers (rd_elements d)) (hasHeader (rd_elements d)) in
  match renderDocument E' (renderElement E' depth) c d (mkRst a [] false 0 []) with
  | Ok (out, title, st) => Ok (out, title, r_attrs st)
  | Err e => Err e
  | Panic e => Panic e
  end.
