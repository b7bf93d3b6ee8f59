(** The Go code of the grammar: all its predicates and state blocks, and the actions that build the
    delimited blocks, paragraphs, plain lines, plain inline content, the conditional directives,
    the declarations of attributes, sections, document headers without author, the items of ordered and
    unordered lists.  The other actions are a parameter: they may return anything, but they do not write the global store (in parser.peg only
    trackElement and the action of DocumentFragment do).
    A Go string is the UTF-8 encoding of its runes.  Pointers: an action that updates the value of
    one of its labels returns the new value (see [updated] in Peg.v). *)
From Coq Require Import List String NArith ZArith Bool Ascii.
From Verif Require Import GoBase Utf8 Types Attrs Elements Merge Subs Cond Escape ListCollect Peg.
Import ListNotations.
Local Open Scope string_scope.
Local Open Scope list_scope.

(** values built by the Go code: elements; *types.BlockDelimiter; the conditions of the preprocessor, their ends
    and operands; *types.RawSection; anything else *)
Inductive hv (X : Type) : Type :=
| HVal (v : val)
| HDelim (kind : string) (length : Z) (attrs : list (string * val))  (* types.go:2267-2272 without rawText *)
| HCond (c : cond) | HEndIf | HOp (o : operand)
| HSection (level : Z)                                               (* types.go:2417-2420 without the raw text *)
| HPrefix (style : string)             (* types.go:1291-1300 OrderedListElementPrefix, 1542-1556 UnorderedListElementPrefix *)
| HOther (x : X).
Arguments HVal {X}. Arguments HDelim {X}. Arguments HCond {X}. Arguments HEndIf {X}. Arguments HOp {X}. Arguments HSection {X}. Arguments HPrefix {X}. Arguments HOther {X}.

(** c.globalStore: the keys used by the parser, [None] when the key was not set *)
Record gstore : Type := GStore {
  st_delim : option Z;                          (* block_delimiter_length *)
  st_header : option bool;                      (* document_header *)
  st_front : option bool;                       (* front_matter *)
  st_within : option bool;                      (* within_delimited_block *)
  st_battrs : option (list (string * val));     (* block_attributes *)
  st_subs : option (list string);               (* enabled_substitutions *)
  st_rawsec : option bool;                      (* raw_section_enabled *)
  st_experimental : option bool;                (* experimental_macros *)
  st_macros : list string;                      (* user_macros: the names *)
  st_suffix : option N                          (* element_suffix_tracking *)
}.
Definition set_delim g x := GStore x (st_header g) (st_front g) (st_within g) (st_battrs g) (st_subs g) (st_rawsec g) (st_experimental g) (st_macros g) (st_suffix g).
Definition set_header g x := GStore (st_delim g) x (st_front g) (st_within g) (st_battrs g) (st_subs g) (st_rawsec g) (st_experimental g) (st_macros g) (st_suffix g).
Definition set_front g x := GStore (st_delim g) (st_header g) x (st_within g) (st_battrs g) (st_subs g) (st_rawsec g) (st_experimental g) (st_macros g) (st_suffix g).
Definition set_within g x := GStore (st_delim g) (st_header g) (st_front g) x (st_battrs g) (st_subs g) (st_rawsec g) (st_experimental g) (st_macros g) (st_suffix g).
Definition set_battrs g x := GStore (st_delim g) (st_header g) (st_front g) (st_within g) x (st_subs g) (st_rawsec g) (st_experimental g) (st_macros g) (st_suffix g).
Definition set_suffix g x := GStore (st_delim g) (st_header g) (st_front g) (st_within g) (st_battrs g) (st_subs g) (st_rawsec g) (st_experimental g) (st_macros g) x.

Definition found_true (x : option bool) : bool := match x with Some true => true | _ => false end.
(** parser_ext.go:222-229 isWithinDelimitedBlock *)
Definition isWithinDelimitedBlock (g : gstore) : bool := found_true (st_within g).
(** parser_ext.go:212-218 isSectionEnabled *)
Definition isSectionEnabled (g : gstore) : bool := found_true (st_rawsec g).
(** document_processing_apply_substitutions.go:782-786 isExperimentalEnabled *)
Definition isExperimentalEnabled (g : gstore) : bool := found_true (st_experimental g).
(** document_processing_parse_fragments.go:78-84 isFrontMatterAllowed *)
Definition isFrontMatterAllowed (g : gstore) : bool := found_true (st_front g) && negb (isWithinDelimitedBlock g).
(** document_processing_parse_fragments.go:90-96 isDocumentHeaderAllowed *)
Definition isDocumentHeaderAllowed (g : gstore) : bool := found_true (st_header g) && negb (isWithinDelimitedBlock g).
(** document_processing_parse_fragments.go:117-124 isWithinLiteralParagraph *)
Definition isWithinLiteralParagraph (g : gstore) : bool :=
  match st_battrs g with
  | Some a => match mget a AttrPositional1 with Some v => eq_str v "literal" | None => false end
              || match mget a AttrStyle with Some v => eq_str v "literal" | None => false end
  | None => false
  end.
(** parser_ext.go:248-256 hasUserMacro *)
Definition hasUserMacro (g : gstore) (name : string) : bool := existsb (String.eqb name) (st_macros g).
(** parser_ext.go:265-271 lookupCurrentSubstitutions *)
Definition lookupSubs (g : gstore) (t : option (list string)) : option (list string) :=
  match t with Some s => Some s | None => st_subs g end.
(** parser_ext.go:273-288 isSubstitutionEnabled *)
Definition isSubEnabled (g : gstore) (t : option (list string)) (k : string) : bool :=
  match lookupSubs g t with Some s => existsb (String.eqb k) s | None => false end.
(** parser_ext.go:139-163 isInlineMacro *)
Definition isInlineMacro (g : gstore) (t : option (list string)) (text : string) : bool :=
  isSubEnabled g t Macros &&
  (has_suffix text "footnote" || hasUserMacro g text
   || existsb (String.eqb text) ["http"; "https"; "mailto"; "image"; "link"; "icon"; "pass"; "menu"; "xref"; "btn"]).
(** unicode.IsControl *)
Definition is_control (r : N) : bool := (r <? 32)%N || ((127 <=? r)%N && (r <? 160)%N).

Section GoHost.
  Variable X : Type.
  (** unicode.Is for the classes of the grammar, unicode.ToLower, unicode.IsSpace *)
  Variable cls : string -> rune -> bool.
  Variable low : rune -> rune.
  Variable white : rune -> bool.
  (** unmodelled actions *)
  Variable other : string -> labels (hv X) -> soft gstore (option (list string)) -> option (value (hv X) * bool).

  Notation gv := (value (hv X)).
  Notation env := (labels (hv X)).
  Notation st := (soft gstore (option (list string))).

  (** parser_ext.go:129-137 isPrecededBySpace *)
  Definition isPrecededBySpace (g : gstore) : bool :=
    match st_suffix g with Some r => white r || is_control r | None => false end.
  (** parser_ext.go:182-190 isPrecededByAlphanum *)
  Definition isPrecededByAlphanum (g : gstore) : bool :=
    match st_suffix g with Some r => cls "L" r || cls "N" r | None => false end.
  (** parser_ext.go:167-180 isSingleQuotedTextAllowed *)
  Definition isSingleQuotedTextAllowed (g : gstore) : bool :=
    match st_suffix g with
    | Some r => negb (cls "L" r) && negb (cls "N" r) && negb (r =? 33)%N && negb (r =? 44)%N && negb (r =? 59)%N && negb (r =? 125)%N
    | None => true
    end.

  (** the Go value of a parser value; [None]: not one this file knows *)
  Fixpoint to_val (v : gv) : option val :=
    match v with
    | Peg.VNil => Some Types.VNil
    | Peg.VBytes t => Some (Types.VStr (encode_runes t))
    | Peg.VStr t => Some (Types.VStr (encode_runes t))
    | Peg.VInt z => Some (Types.VInt z)
    | Peg.VList l =>
        option_map VSlice ((fix go (l : list gv) := match l with
                                                    | [] => Some []
                                                    | x :: r => match to_val x, go r with Some a, Some b => Some (a :: b) | _, _ => None end
                                                    end) l)
    | Peg.VHost (HVal v) => Some v
    | Peg.VHost _ => None
    end.
  Definition elem (v : val) : gv := Peg.VHost (HVal v).

  (** parser_ext.go:193-209 validateSingleQuoteElements *)
  Definition validQuoteElements (l : list gv) : bool :=
    match rev l with
    | [] => true
    | Peg.VHost (HVal (StringElement s)) :: _ => negb (has_suffix s " ")
    | Peg.VStr t :: _ => negb (has_suffix (encode_runes t) " ")
    | _ => true
    end.

  Inductive pkind : Type :=
  | QFlag (f : gstore -> bool)                                    (* a read of the global store *)
  | QSub (f : gstore -> option (list string) -> bool)             (* and of c.state *)
  | QText (f : gstore -> option (list string) -> string -> bool)  (* and of c.text *)
  | QSetLength | QMatchLength | QQuoteElements
  | QMacroName | QNotTerm | QEmailLocal | QEmailDomain.
  (** every predicate of the grammar that Peg.v does not interpret (see [all_predicates_known]) *)
  Definition known_preds : list (string * pkind) :=
    [ ("return !c.isPrecededBySpace(), nil", QFlag (fun g => negb (isPrecededBySpace g)));
      ("return c.isPrecededBySpace(), nil", QFlag isPrecededBySpace);
      ("return c.isPrecededByAlphanum(), nil", QFlag isPrecededByAlphanum);
      ("return c.isSingleQuotedTextAllowed(), nil", QFlag isSingleQuotedTextAllowed);
      ("return !c.isWithinDelimitedBlock(), nil", QFlag (fun g => negb (isWithinDelimitedBlock g)));
      ("return !c.isWithinLiteralParagraph(), nil", QFlag (fun g => negb (isWithinLiteralParagraph g)));
      ("return c.isDocumentHeaderAllowed(), nil", QFlag isDocumentHeaderAllowed);
      ("return c.isFrontMatterAllowed(), nil", QFlag isFrontMatterAllowed);
      ("return c.isExperimentalEnabled(), nil", QFlag isExperimentalEnabled);
      ("return c.isSectionEnabled(), nil", QFlag isSectionEnabled);
      (* parser_ext.go:295-301 allSubstitutionsDisabled *)
      ("return c.allSubstitutionsDisabled(Macros, Quotes), nil", QSub (fun g t => negb (isSubEnabled g t Macros) && negb (isSubEnabled g t Quotes)));
      ("return c.isSubstitutionDisabled(Quotes), nil", QSub (fun g t => negb (isSubEnabled g t Quotes)));
      ("return c.isSubstitutionEnabled(AttributeRefs), nil", QSub (fun g t => isSubEnabled g t AttributeRefs));
      ("return c.isSubstitutionEnabled(Callouts), nil", QSub (fun g t => isSubEnabled g t Callouts));
      ("return c.isSubstitutionEnabled(InlinePassthroughs), nil", QSub (fun g t => isSubEnabled g t InlinePassthroughs));
      ("return c.isSubstitutionEnabled(Macros), nil", QSub (fun g t => isSubEnabled g t Macros));
      ("return c.isSubstitutionEnabled(PostReplacements), nil", QSub (fun g t => isSubEnabled g t PostReplacements));
      ("return c.isSubstitutionEnabled(Quotes), nil", QSub (fun g t => isSubEnabled g t Quotes));
      ("return c.isSubstitutionEnabled(Replacements), nil", QSub (fun g t => isSubEnabled g t Replacements));
      ("return c.isSubstitutionEnabled(SpecialCharacters), nil", QSub (fun g t => isSubEnabled g t SpecialCharacters));
      ("return c.isInlineMacro(string(c.text)), nil", QText isInlineMacro);
      ("return c.setBlockDelimiterLength(start.(*types.BlockDelimiter).Length)", QSetLength);
      ("return c.matchBlockDelimiterLength(end.(*types.BlockDelimiter).Length)", QMatchLength);
      ("return validateSingleQuoteElements(elements.([]interface{}))", QQuoteElements);
      ("return c.hasUserMacro(name.(string)), nil", QMacroName);
      ("return !firstLine.(*types.RawLine).Contains("":: "") && !firstLine.(*types.RawLine).HasSuffix(""::""), nil", QNotTerm);
      ("return !strings.HasPrefix(local.(string), ""."") && !strings.HasSuffix(local.(string), ""."") && !strings.Contains(local.(string), ""..""), nil", QEmailLocal);
      ("return !strings.HasSuffix(domain.(string), ""-""), nil", QEmailDomain) ].

  (** [None] is a failed type assertion *)
  Definition run_pkind (q : pkind) (en : env) (s : st) : option (bool * bool * gstore) :=
    let g := c_store s in
    let ret b := Some (b, false, g) in
    match q with
    | QFlag f => ret (f g)
    | QSub f => ret (f g (c_state s))
    | QText f => ret (f g (c_state s) (encode_runes (c_text s)))
    | QSetLength => (* parser_ext.go:234-237 *)
        match label en "start" with Peg.VHost (HDelim _ n _) => Some (true, false, set_delim g (Some n)) | _ => None end
    | QMatchLength => (* parser_ext.go:240-242 *)
        match label en "end" with
        | Peg.VHost (HDelim _ n _) => ret (match st_delim g with Some m => Z.eqb m n | None => false end)
        | _ => None
        end
    | QQuoteElements => match label en "elements" with Peg.VList l => ret (validQuoteElements l) | _ => None end
    | QMacroName => match label en "name" with Peg.VStr t => ret (hasUserMacro g (encode_runes t)) | _ => None end
    | QNotTerm => (* types.go:3288-3294 Contains, HasSuffix *)
        match label en "firstLine" with
        | Peg.VHost (HVal (RawLine c)) => ret (negb (contains c ":: ") && negb (has_suffix c "::"))
        | _ => None
        end
    | QEmailLocal => match label en "local" with
                     | Peg.VStr t => let l := encode_runes t in
                                     ret (negb (has_prefix l ".") && negb (has_suffix l ".") && negb (contains l ".."))
                     | _ => None
                     end
    | QEmailDomain => match label en "domain" with Peg.VStr t => ret (negb (has_suffix (encode_runes t) "-")) | _ => None end
    end.
  Fixpoint assoc {A} (l : list (string * A)) (k : string) : option A :=
    match l with [] => None | (k', a) :: r => if String.eqb k k' then Some a else assoc r k end.
  Definition go_pred (code : string) (en : env) (s : st) : option (bool * bool * gstore) :=
    match assoc known_preds code with Some q => run_pkind q en s | None => None end.

  Inductive tkind : Type := TWithin | THeaderSubs | TStoreAttrs.
  Definition known_states : list (string * tkind) :=
    [ ("c.globalStore[withinDelimitedBlockKey] = true return nil", TWithin);
      ("c.withSubstitutions(headerSubstitutions()) return nil", THeaderSubs);
      ("if attributes, ok := attributes.(types.Attributes); ok { c.storeBlockAttributes(attributes) } return nil", TStoreAttrs) ].
  Definition go_state (code : string) (en : env) (s : st) : option (bool * gstore * option (list string)) :=
    match assoc known_states code with
    | Some TWithin => Some (false, set_within (c_store s) (Some true), c_state s)
    | Some THeaderSubs => (* parser_ext.go:261-263 *) Some (false, c_store s, Some headerSubstitutions)
    | Some TStoreAttrs => (* document_processing_parse_fragments.go:110-115 *)
        Some (false, match label en "attributes" with
                     | Peg.VHost (HVal (VAttributes a)) => set_battrs (c_store s) (Some a)
                     | _ => c_store s
                     end, c_state s)
    | None => None
    end.

  (** types.go:3282-3287 NewRawLine *)
  Definition newRawLine (content : string) : val := RawLine (trim_right_set [" "%char; "009"%char] content).
  (** the loop of NewDelimitedBlock (types.go:2306-2311) and of NewParagraph (types.go:1739-1744) *)
  Fixpoint end_lines (l : list val) : list val :=
    match l with
    | [] => []
    | [x] => [x]
    | x :: r => match x with RawLine c => RawLine (c ++ LF)%string | _ => x end :: end_lines r
    end.
  (** types.go:1796-1811 Paragraph.mapAttributes *)
  Definition paragraphMap (a : list (string * val)) : list (string * val) :=
    let a := toAttributesWithMapping a [(AttrPositional1, AttrStyle)] in
    match mget a AttrStyle with
    | Some v => if eq_str v "source" then toAttributesWithMapping a [(AttrPositional2, "language")]
                else if eq_str v "quote" || eq_str v "verse"
                     then toAttributesWithMapping a [(AttrPositional2, "quoteAuthor"); (AttrPositional3, "quoteTitle")]
                     else a
    | None => a
    end.
  (** types.go:2372-2394 DelimitedBlock.mapAttributes *)
  Definition blockMap (kind : string) (a : list (string * val)) : string * list (string * val) :=
    if String.eqb kind "quote" then
      let a := toAttributesWithMapping a [(AttrPositional1, AttrStyle); (AttrPositional2, "quoteAuthor"); (AttrPositional3, "quoteTitle")] in
      (match mget a AttrStyle with Some (Types.VStr s) => s | _ => kind end, a)
    else if String.eqb kind "example" then (kind, toAttributesWithMapping a [(AttrPositional1, AttrStyle)])
    else if String.eqb kind "listing" then
      (kind, toAttributesWithMapping a [(AttrPositional1, AttrStyle); (AttrPositional2, "language"); (AttrPositional3, "linenums")])
    else (kind, a).
  (** AddAttributes of a paragraph (types.go:1785-1788) and of a delimited block (types.go:2361-2364);
      [None]: another element *)
  Definition addAttributes (e : val) (a : list (string * val)) : option val :=
    match e with
    | Paragraph a0 es => Some (Paragraph (paragraphMap (aaddall a0 a)) es)
    | DelimitedBlock k a0 es => let '(k', a') := blockMap k (aaddall a0 a) in Some (DelimitedBlock k' a' es)
    | _ => None
    end.
  (** types.go:1737-1754 NewParagraph *)
  Definition newParagraph (style : gv) (l : list val) : option val :=
    match style with
    | Peg.VNil => Some (Paragraph [] (end_lines l))
    | Peg.VStr t => Some (Paragraph (paragraphMap (aaddall [] [(AttrStyle, Types.VStr (encode_runes t))])) (end_lines l))
    | _ => None
    end.
  (** types.go:1859-1870 NewInlineElements *)
  Fixpoint trim_breaks (l : list val) : list val :=
    match l with
    | [] => []
    | x :: r => match x, r with StringElement s, LineBreak :: _ => StringElement (trim_suffix s " ") | _, _ => x end :: trim_breaks r
    end.
  Definition newInlineElements (l : list val) : list val := trim_breaks (merge [VSlice l]).

  (** strings.TrimSpace, on valid UTF-8 *)
  Fixpoint drop_white (l : list rune) : list rune := match l with r :: t => if white r then drop_white t else l | [] => [] end.
  Definition trimSpace (s : string) : string := encode_runes (rev (drop_white (rev (drop_white (runes s))))).
  (** types_utils.go:98-132 Reduce(elements, strings.TrimSpace) *)
  Definition reduceTrim (v : val) : val :=
    match v with
    | VSlice l =>
        match merge l with
        | [] => Types.VNil
        | [StringElement c] => Types.VStr (trimSpace c)
        | e => VSlice e
        end
    | StringElement c => if String.eqb c "" then Types.VNil else Types.VStr c
    | Types.VStr s => let s := trimSpace s in if String.eqb s "" then Types.VNil else Types.VStr s
    | _ => v
    end.

  Definition vals (v : gv) : option (list val) :=
    match v with Peg.VList _ => match to_val v with Some (VSlice l) => Some l | _ => None end | _ => None end.

  Inductive akind : Type :=
  | KLine (l : string) | KTextLine                 (* NewRawLine of a label; of c.text *)
  | KString | KStringIs (s : string) | KUnescaped   (* NewStringElement *)
  | KInline                                          (* NewInlineElements *)
  | KSpecial | KElem (v : val) | KComment            (* the other constructors of one element *)
  | KAtoi | KCallout                                 (* strconv.Atoi of c.text, NewCallout *)
  | KConst (s : string)                              (* return a constant string *)
  | KDelim (kind : string) | KMdDelim               (* block delimiters *)
  | KBlock (kind : string) | KMdQuote | KMdCode     (* NewDelimitedBlock *)
  | KPara | KParaContent | KParaLines | KParaPlain  (* NewParagraph *)
  | KTrack | KFragment | KAttach
  | KIf (defined : bool) | KEndIf | KIfeval | KOp (o : operand)      (* conditions *)
  | KReference | KReset | KDeclare | KDeclared | KElements            (* attributes *)
  | KSection
  | KNewSection | KHeader                            (* NewSection, NewDocumentHeader *)
  | KBullet | KDots | KNumber (style : string)       (* the prefixes of list items *)
  | KTrimLine                                        (* NewRawLine of c.text without blanks around it *)
  | KQuoted (kind : string) | KQuotedWith            (* NewQuotedText, WithAttributes *)
  | KUnordered | KOrdered | KFlatten | KList.        (* NewUnorderedListElement, NewOrderedListElement, Flatten, NewListElements *)
  (** types.go:1523-1540 NewUnorderedListElementBulletStyle *)
  Definition bullets : list (string * string) :=
    [("-", "dash"); ("*", "1asterisk"); ("**", "2asterisks"); ("***", "3asterisks"); ("****", "4asterisks"); ("*****", "5asterisks")].
  Definition known_acts : list (string * akind) :=
    [ ("return types.NewRawLine(content.(string))", KLine "content");
      ("return types.NewRawLine(string(c.text))", KTextLine);
      ("return types.NewStringElement(string(c.text))", KString);
      ("return types.NewStringElement(strings.TrimPrefix(string(c.text), `\`))", KUnescaped);
      ("return types.NewStringElement(`'`)", KStringIs "'");
      ("return types.NewStringElement(`""`)", KStringIs """");
      ("return types.NewInlineElements(elements.([]interface{}))", KInline);
      ("return types.NewInlineElements(elements)", KInline);
      ("return types.NewSpecialCharacter(string(c.text))", KSpecial);
      ("return types.NewSymbol(""`\"""")", KElem (Symbol "`"""));
      ("return types.NewSymbol(""`'"")", KElem (Symbol "`'"));
      ("return types.NewSymbol(""\""`"")", KElem (Symbol """`"));
      ("return types.NewSymbol(""=>"")", KElem (Symbol "=>"));
      ("return types.NewSymbol(""<="")", KElem (Symbol "<="));
      ("return types.NewSymbol(""<-"")", KElem (Symbol "<-"));
      ("return types.NewSymbol(""..."")", KElem (Symbol "..."));
      ("return types.NewSymbol(""->"")", KElem (Symbol "->"));
      ("return types.NewSymbol(""--"")", KElem (Symbol "--"));
      ("return types.NewSymbol(""(TM)"")", KElem (Symbol "(TM)"));
      ("return types.NewSymbol(""(R)"")", KElem (Symbol "(R)"));
      ("return types.NewSymbol(""(C)"")", KElem (Symbol "(C)"));
      ("return types.NewSymbol(""'`"")", KElem (Symbol "'`"));
      ("return types.NewSymbol(""'"")", KElem (Symbol "'"));
      ("return types.NewSymbol("" -- "")", KElem (Symbol " -- "));
      ("return types.NewLineBreak()", KElem LineBreak);
      ("return types.NewThematicBreak()", KElem ThematicBreak);
      ("return types.NewBlankLine()", KElem BlankLine);
      ("return types.NewSinglelineComment(content.(string))", KComment);
      ("return strconv.Atoi(string(c.text))", KAtoi);
      ("return types.NewCallout(ref.(int))", KCallout);
      ("return types.Tip, nil", KConst "TIP");
      ("return types.Note, nil", KConst "NOTE");
      ("return types.Important, nil", KConst "IMPORTANT");
      ("return types.Warning, nil", KConst "WARNING");
      ("return types.Caution, nil", KConst "CAUTION");
      ("return types.LiteralParagraph, nil", KConst "literal_paragraph");
      ("return types.NewBlockDelimiter(types.Comment, len(delimiter.(string)), string(c.text))", KDelim "comment");
      ("return types.NewBlockDelimiter(types.Example, len(delimiter.(string)), string(c.text))", KDelim "example");
      ("return types.NewBlockDelimiter(types.Fenced, len(delimiter.(string)), string(c.text))", KDelim "fenced");
      ("return types.NewBlockDelimiter(types.Listing, len(delimiter.(string)), string(c.text))", KDelim "listing");
      ("return types.NewBlockDelimiter(types.Open, len(delimiter.(string)), string(c.text))", KDelim "open");
      ("return types.NewBlockDelimiter(types.Passthrough, len(delimiter.(string)), string(c.text))", KDelim "pass");
      ("return types.NewBlockDelimiter(types.Quote, len(delimiter.(string)), string(c.text))", KDelim "quote");
      ("return types.NewBlockDelimiter(types.Sidebar, len(delimiter.(string)), string(c.text))", KDelim "sidebar");
      ("return types.NewMarkdownCodeBlockDelimiter(language.(string), string(c.text))", KMdDelim);
      ("return types.NewDelimitedBlock(types.Comment, content.([]interface{}))", KBlock "comment");
      ("return types.NewDelimitedBlock(types.Example, content.([]interface{}))", KBlock "example");
      ("return types.NewDelimitedBlock(types.Fenced, content.([]interface{}))", KBlock "fenced");
      ("return types.NewDelimitedBlock(types.Listing, content.([]interface{}))", KBlock "listing");
      ("return types.NewDelimitedBlock(types.Literal, content.([]interface{}))", KBlock "literal");
      ("return types.NewDelimitedBlock(types.Open, content.([]interface{}))", KBlock "open");
      ("return types.NewDelimitedBlock(types.Passthrough, content.([]interface{}))", KBlock "pass");
      ("return types.NewDelimitedBlock(types.Quote, content.([]interface{}))", KBlock "quote");
      ("return types.NewDelimitedBlock(types.Sidebar, content.([]interface{}))", KBlock "sidebar");
      ("return types.NewDelimitedBlock(types.MarkdownQuote, append([]interface{}{firstLine}, otherLines.([]interface{})...))", KMdQuote);
      ("b, err := types.NewDelimitedBlock(types.Listing, content.([]interface{})) b.AddAttributes(delimiter.(*types.BlockDelimiter).Attributes) return b, err", KMdCode);
      ("return types.NewParagraph(style, append([]interface{}{firstLine}, otherLines.([]interface{})...)...)", KPara);
      ("return types.NewParagraph(style, content)", KParaContent);
      ("return types.NewParagraph(nil, rawLines.([]interface{})...)", KParaLines);
      ("return types.NewParagraph(nil, content)", KParaPlain);
      ("c.trackElement(element)", KTrack);
      ("c.disableFrontMatterRule() c.disableDocumentHeaderRule(element) if element, ok := element.(types.WithAttributes); ok && attributes != nil { element.AddAttributes(attributes.(types.Attributes)) }", KFragment);
      ("if element, ok := element.(types.WithAttributes); ok && attributes != nil { element.AddAttributes(attributes.(types.Attributes)) }", KAttach);
      ("return types.NewIfdefCondition(name.(string), attr)", KIf true);
      ("return types.NewIfndefCondition(name.(string), attr)", KIf false);
      ("return types.NewEndOfCondition()", KEndIf);
      ("return types.NewIfevalCondition(left, right, operand.(types.IfevalOperand))", KIfeval);
      ("return types.NewEqualOperand()", KOp OpEq);
      ("return types.NewNotEqualOperand()", KOp OpNe);
      ("return types.NewLessThanOperand()", KOp OpLt);
      ("return types.NewLessOrEqualOperand()", KOp OpLe);
      ("return types.NewGreaterThanOperand()", KOp OpGt);
      ("return types.NewGreaterOrEqualOperand()", KOp OpGe);
      ("return types.NewAttributeReference(name.(string), string(c.text))", KReference);
      ("return types.NewAttributeReset(name.(string), string(c.text))", KReset);
      ("return types.NewAttributeDeclaration(name.(string), value, string(c.text))", KDeclare);
      ("if otherElements, ok := otherElements.([]interface{}); ok { elements = append(elements.([]interface{}), otherElements...) } return types.Reduce(elements.([]interface{}), strings.TrimSpace), nil", KDeclared);
      ("return elements.([]interface{}), nil", KElements);
      ("return types.NewRawSection(level.(int), string(c.text))", KSection);
      ("return types.NewSection(level.(int), title.([]interface{}))", KNewSection);
      ("return types.NewDocumentHeader(title.([]interface{}), authorsAndRevision, extraElements.([]interface{}))", KHeader);
      ("return types.NewUnorderedListElementPrefix(style.(string))", KBullet);
      ("switch depth.(int) { case 1: return types.NewOrderedListElementPrefix(types.Arabic) case 2: return types.NewOrderedListElementPrefix(types.LowerAlpha) case 3: return types.NewOrderedListElementPrefix(types.LowerRoman) case 4: return types.NewOrderedListElementPrefix(types.UpperAlpha) default: return types.NewOrderedListElementPrefix(types.UpperRoman) }", KDots);
      ("return types.NewOrderedListElementPrefix(types.Arabic)", KNumber "arabic");
      ("return types.NewOrderedListElementPrefix(types.LowerAlpha)", KNumber "loweralpha");
      ("return types.NewOrderedListElementPrefix(types.UpperAlpha)", KNumber "upperalpha");
      ("return types.NewOrderedListElementPrefix(types.LowerRoman)", KNumber "lowerroman");
      ("return types.NewOrderedListElementPrefix(types.UpperRoman)", KNumber "upperroman");
      ("return types.NewRawLine(strings.TrimSpace(string(c.text)))", KTrimLine);
      ("return types.Unchecked, nil", KConst "unchecked");
      ("return types.Checked, nil", KConst "checked");
      ("return types.NewQuotedText(types.SingleQuoteBold, elements.([]interface{}))", KQuoted "*");
      ("return types.NewQuotedText(types.SingleQuoteItalic, elements.([]interface{}))", KQuoted "_");
      ("return types.NewQuotedText(types.SingleQuoteMonospace, elements.([]interface{}))", KQuoted "`");
      ("return types.NewQuotedText(types.SingleQuoteMarked, elements.([]interface{}))", KQuoted "#");
      ("return types.NewQuotedText(types.DoubleQuoteBold, elements.([]interface{}))", KQuoted "**");
      ("return types.NewQuotedText(types.DoubleQuoteItalic, elements.([]interface{}))", KQuoted "__");
      ("return types.NewQuotedText(types.DoubleQuoteMonospace, elements.([]interface{}))", KQuoted "``");
      ("return types.NewQuotedText(types.DoubleQuoteMarked, elements.([]interface{}))", KQuoted "##");
      ("return element.(*types.QuotedText).WithAttributes(attributes)", KQuotedWith);
      ("return types.NewUnorderedListElement(prefix.(types.UnorderedListElementPrefix), checkstyle, content)", KUnordered);
      ("return types.NewOrderedListElement(prefix.(types.OrderedListElementPrefix), content)", KOrdered);
      ("return types.Flatten(elements.([]interface{})), nil", KFlatten);
      ("return types.NewListElements(append([]interface{}{firstElement}, extraElements.([]interface{})...))", KList) ].

  (** the last byte of c.text *)
  Definition last_byte (t : list rune) : option N :=
    match rev t with
    | [] => None
    | r :: _ => match srev (encode_rune r) with String c _ => Some (N_of_ascii c) | EmptyString => None end
    end.
  (** document_processing_parse_fragments.go:99-106 disableDocumentHeaderRule: the elements after which a
      header is still allowed ([None]: an element this file does not know) *)
  Definition keeps_header (v : gv) : option bool :=
    match v with
    | Peg.VHost (HVal (BlankLine | FrontMatter _ | AttributeDeclaration _ _)) => Some true
    | Peg.VHost (HOther _) => None
    | _ => Some false
    end.

  (** what the action returns, and the store; [None]: this file does not know (see [go_act]).  The
      inner [None] is a panic *)
  Definition run_akind (k : akind) (en : env) (s : st) : option (option (gv * bool * gstore)) :=
    let g := c_store s in
    let ret v := Some (Some (v, false, g)) in
    let text := encode_runes (c_text s) in
    match k with
    | KLine l => match label en l with Peg.VStr t => ret (elem (newRawLine (encode_runes t))) | _ => Some None end
    | KTextLine => ret (elem (newRawLine text))
    | KString => ret (elem (StringElement text))
    | KStringIs c => ret (elem (StringElement c))
    | KUnescaped => ret (elem (StringElement (trim_prefix text "\")))
    | KInline => match vals (label en "elements") with
                 | Some l => ret (Peg.VList (map elem (newInlineElements l)))
                 | None => None
                 end
    | KSpecial => ret (elem (SpecialCharacter text))
    | KElem v => ret (elem v)
    | KComment => match label en "content" with Peg.VStr t => ret (elem (SinglelineComment (encode_runes t))) | _ => Some None end
    | KAtoi => (* an error keeps the nearest int64 *)
        match atoi text with
        | Some z => ret (Peg.VInt z)
        | None => Some (Some (Peg.VInt (if has_prefix text "-" then -9223372036854775808 else 9223372036854775807)%Z, true, g))
        end
    | KCallout => (* types.go:1045-1050 *) match label en "ref" with Peg.VInt z => ret (elem (Callout z)) | _ => Some None end
    | KConst c => ret (Peg.VStr (R c))
    | KDelim kind => match label en "delimiter" with
                     | Peg.VStr t => ret (Peg.VHost (HDelim kind (byte_len t) []))
                     | _ => Some None
                     end
    | KMdDelim => match label en "language" with
                  | Peg.VStr t => ret (Peg.VHost (HDelim "fenced" 3 [(AttrStyle, Types.VStr "source"); ("language", Types.VStr (encode_runes t))]))
                  | _ => Some None
                  end
    | KBlock kind => match vals (label en "content") with
                     | Some l => ret (elem (DelimitedBlock kind [] (end_lines l)))
                     | None => None
                     end
    | KMdQuote => match to_val (label en "firstLine"), vals (label en "otherLines") with
                  | Some x, Some l => ret (elem (DelimitedBlock "markdown-quote" [] (end_lines (x :: l))))
                  | _, _ => None
                  end
    | KMdCode => match vals (label en "content"), label en "delimiter" with
                 | Some l, Peg.VHost (HDelim _ _ a) =>
                     let '(k', a') := blockMap "listing" (aaddall [] a) in
                     ret (elem (DelimitedBlock k' a' (end_lines l)))
                 | _, _ => None
                 end
    | KPara => match to_val (label en "firstLine"), vals (label en "otherLines") with
               | Some x, Some l => match newParagraph (label en "style") (x :: l) with Some v => ret (elem v) | None => None end
               | _, _ => None
               end
    | KParaContent => match to_val (label en "content") with
                      | Some x => match newParagraph (label en "style") [x] with Some v => ret (elem v) | None => None end
                      | None => None
                      end
    | KParaLines => match vals (label en "rawLines") with
                    | Some l => match newParagraph Peg.VNil l with Some v => ret (elem v) | None => None end
                    | None => None
                    end
    | KParaPlain => match to_val (label en "content") with
                    | Some x => match newParagraph Peg.VNil [x] with Some v => ret (elem v) | None => None end
                    | None => None
                    end
    | KTrack => (* parser_ext.go:122-127 *)
        match last_byte (c_text s) with
        | Some b => Some (Some (Peg.VNil, false, set_suffix g (Some b)))
        | None => Some None
        end
    | KFragment => (* parser.peg:257-265 *)
        match keeps_header (label en "element") with
        | Some b =>
            let g1 := set_front g (Some false) in
            let g2 := if b then g1 else set_header g1 (Some false) in
            match label en "element", label en "attributes" with
            | _, Peg.VNil => Some (Some (Peg.VNil, false, g2))
            | Peg.VHost (HVal e), Peg.VHost (HVal (VAttributes a)) =>
                match addAttributes e a with
                | Some e' => Some (Some (elem e', false, g2))
                | None => None
                end
            | _, _ => None
            end
        | None => None
        end
    | KAttach => (* parser.peg:1553-1558 *)
        match label en "element", label en "attributes" with
        | _, Peg.VNil => ret Peg.VNil
        | Peg.VHost (HVal e), Peg.VHost (HVal (VAttributes a)) =>
            match addAttributes e a with
            | Some e' => ret (elem e')
            | None => None
            end
        | _, _ => None
        end
    | KIf d => (* types.go:2950-2959, 2980-2989 *)
        match label en "name" with
        | Peg.VStr t =>
            let subs := match label en "attr" with Peg.VStr u => encode_runes u | _ => "" end in
            ret (Peg.VHost (HCond (if d then Ifdef (encode_runes t) subs else Ifndef (encode_runes t) subs)))
        | _ => Some None
        end
    | KEndIf => ret (Peg.VHost HEndIf)
    | KIfeval => (* types.go:3008-3017 *)
        match to_val (label en "left"), to_val (label en "right"), label en "operand" with
        | Some l, Some r, Peg.VHost (HOp o) => ret (Peg.VHost (HCond (Ifeval l r o)))
        | _, _, _ => None
        end
    | KOp o => ret (Peg.VHost (HOp o))
    | KReference => (* types.go:668-680 *)
        match label en "name" with
        | Peg.VStr t => let n := encode_runes t in ret (elem (if isPredefinedAttribute n then PredefinedAttribute n else AttributeReference n))
        | _ => Some None
        end
    | KReset => (* types.go:650-656 *)
        match label en "name" with Peg.VStr t => ret (elem (AttributeReset (encode_runes t))) | _ => Some None end
    | KDeclare => (* types.go:628-637 *)
        match label en "name", to_val (label en "value") with
        | Peg.VStr t, Some v => ret (elem (AttributeDeclaration (encode_runes t) (reduceTrim v)))
        | Peg.VStr _, None => None
        | _, _ => Some None
        end
    | KDeclared => (* parser.peg:332-335 *)
        match vals (label en "elements"), label en "otherElements" with
        | Some l, Peg.VList _ =>
            match vals (label en "otherElements") with Some l' => ret (elem (reduceTrim (VSlice (l ++ l')))) | None => None end
        | Some l, _ => ret (elem (reduceTrim (VSlice l)))
        | None, _ => None
        end
    | KElements => match label en "elements" with Peg.VList l => ret (Peg.VList l) | _ => Some None end
    | KSection => match label en "level" with Peg.VInt z => ret (Peg.VHost (HSection z)) | _ => Some None end
    | KNewSection => (* types.go:2448-2455 NewSection, 2483-2497 SetTitle; a title that ends with an id is left to [other] *)
        match label en "level", vals (label en "title") with
        | Peg.VInt z, Some l =>
            match rev l with
            | [] => Some None
            | Attribute _ _ :: _ => None
            | _ => ret (elem (Section z [] (Some (TrimTrailingSpaces l)) []))
            end
        | _, _ => None
        end
    | KHeader => (* types.go:289-317 NewDocumentHeader; authors and revision are left to [other] *)
        match vals (label en "title"), label en "authorsAndRevision", vals (label en "extraElements") with
        | Some l, Peg.VNil, Some es => ret (elem (DocumentHeader (Some (TrimTrailingSpaces l)) [] es))
        | _, _, _ => None
        end
    | KBullet => (* types.go:1547-1556; the error case (which the grammar excludes) is left to [other] *)
        match label en "style" with
        | Peg.VStr t => match assoc bullets (encode_runes t) with Some b => ret (Peg.VHost (HPrefix b)) | None => None end
        | _ => Some None
        end
    | KDots => (* parser.peg:1583-1596 *)
        match label en "depth" with
        | Peg.VInt z => ret (Peg.VHost (HPrefix (if Z.eqb z 1 then "arabic" else if Z.eqb z 2 then "loweralpha" else if Z.eqb z 3 then "lowerroman"
                                                 else if Z.eqb z 4 then "upperalpha" else "upperroman")))
        | _ => Some None
        end
    | KTrimLine => ret (elem (newRawLine (trimSpace text)))
    | KNumber style => ret (Peg.VHost (HPrefix style))
    | KQuoted kind => (* types.go:2761-2769 NewQuotedText, 2736-2759 the kinds *)
        match vals (label en "elements") with
        | Some l => ret (elem (QuotedText kind (merge [VSlice l]) []))
        | None => None
        end
    | KQuotedWith => (* types.go:2802-2808 WithAttributes; with attributes it is left to [other] *)
        match label en "attributes", label en "element" with
        | Peg.VNil, Peg.VHost (HVal (QuotedText k es _)) => ret (elem (QuotedText k es []))
        | _, _ => None
        end
    | KUnordered => (* types.go:1317-1335 NewUnorderedListElement, 1483-1488 toCheckStyle *)
        match label en "prefix", to_val (label en "content") with
        | Peg.VHost (HPrefix b), Some p =>
            let cs := match label en "checkstyle" with Peg.VStr t => encode_runes t | _ => "nocheck" end in
            let p := match p with
                     | Paragraph a es => if String.eqb cs "nocheck" then p else Paragraph (mset a "checkstyle" (Types.VStr cs)) es
                     | _ => p
                     end in
            ret (elem (UnorderedListElement b cs [] [p]))
        | Peg.VHost (HPrefix _), None => None
        | _, _ => Some None
        end
    | KOrdered => (* types.go:1185-1193 NewOrderedListElement *)
        match label en "prefix", to_val (label en "content") with
        | Peg.VHost (HPrefix style), Some p => ret (elem (OrderedListElement style [] [p]))
        | Peg.VHost (HPrefix _), None => None
        | _, _ => Some None
        end
    | KFlatten => (* types_utils.go:62-73 *)
        match label en "elements" with
        | Peg.VList l => ret (Peg.VList (flat_map (fun v => match v with Peg.VList x => x | _ => [v] end) l))
        | _ => Some None
        end
    | KList => (* types.go:893-938; with an error comes a nil *ListElements, here a nil interface: the document is not parsed in any case *)
        match to_val (label en "firstElement"), vals (label en "extraElements") with
        | Some x, Some l =>
            match newListElements (x :: l) with
            | Ok es => ret (elem (ListElements es))
            | Err _ => Some (Some (Peg.VNil, true, g))
            | Panic _ => Some None
            end
        | _, _ => None
        end
    end.
  Definition go_act (code : string) (en : env) (s : st) : option (gv * bool * gstore) :=
    let unknown := match other code en s with Some (v, err) => Some (v, err, c_store s) | None => None end in
    match assoc known_acts code with
    | Some k => match run_akind k en s with Some r => r | None => unknown end
    | None => unknown
    end.

  Definition go_host : host :=
    Host (hv X) gstore (option (list string)) None cls low white go_act go_pred go_state.
End GoHost.
Arguments elem {X}.
