# Formal model of bytesparadise/libasciidoc in Rocq (Coq 8.16.1)

## Approach

The Go code is read as text and transcribed, function by function, into total
Gallina functions.  Pointer mutation becomes returning a new value; `(T, error)`
and panics become the constructors of a result type (`Ok`/`Err`/`Panic`); Go
maps become association lists with unique keys and iteration order is
universally quantified; loops become structural recursion, or recursion on
explicit fuel whose exhaustion is a distinct value excluded by the theorems.

Each area has a model file, a small specification file when the property needs
vocabulary of its own, lemma files, and a `P_*.v` file that contains only the
property theorems (closed by `exact`), non-vacuity examples and `Print
Assumptions`.  Where the code violates a property the violation is stated as a
theorem `..._refuted` with a concrete witness, and the strongest true part is
proved beside it.

## Plan per property

| id | property | model and proof method |
|----|----------|------------------------|
| C01 | Section ids are unique | Model ResolveID/resolveID/Reference and the fold done by Aggregate over sections (Ids). Proof: pigeonhole for termination of the suffix search, invariant over the fold for uniqueness; refinement to 'smallest free suffix'. |
| C02 | Table of contents lists every eligible section once, in document order | Model Add as a function on a rose tree (Toc). Invariant over fold: preorder after insertion = preorder before ++ [entry]. |
| C03 | Table of contents nesting follows section levels | Same model; full statement expected to be false for irregular levels (witness), proved for sequences where a level never drops below the first level of its group (well nested). |
| C04 | Section tree loses nothing and nests by level | Model Aggregate as a zipper/stack fold over a shared AST (Aggregate). Invariant: flatten(tree) = consumed input, stack levels strictly increase. |
| C05 | A failing fragment is reported | Same model with error fragments: expected refutation, plus a theorem saying precisely what survives. |
| C06 | Footnotes are numbered consecutively and references resolve | Model Footnotes state machine; induction over the macro sequence, refinement to a spec written over list positions. |
| C07 | Footnote macros are replaced at every depth | Model SubstituteFootnotes over the AST; refute in general (delimited blocks, tables, quoted text), prove for trees built of the supported containers. |
| C08 | Conditional directives select exactly the enabled lines | Model preprocess as step function over classified lines (Preproc) with condition stack; spec: bracket matching over the line sequence. |
| C09 | A disabled region has no effect | Same model; refutation witnesses (attribute declaration, include in disabled region) and a positive theorem for emitted text. |
| C10 | ifeval comparisons form a total order per type | Model the six operator closures over int/float/string/other values, proof by cases; parser's operator table modelled as ordered choice. |
| C11 | Level offsets compose additively | Model offsets as a heap of mutable cells shared by clones; theorem by induction on the include nesting. |
| C12 | Included line ranges select exactly the lines listed | Model sort+Match+readWithinLines; spec is plain membership; proof by induction on the sorted list. |
| C13 | Included tag regions select exactly the tagged lines | Model TagRanges.Match with the map as an association list; Permutation invariance + declarative spec. |
| C14 | Reading a tagged file never crashes | Same model with explicit Panic result; refutation witness and exact characterisation of non-crashing files. |
| C15 | API attributes take precedence over document attributes | Model contextAttributes; refinement to 'latest write' spec over histories. |
| C16 | Attribute scopes are isolated by cloning | Model clone with two independent stores; non-interference by induction on interleaved histories; shared counters shown separately. |
| C17 | Conversions are independent | Render.v threads the configuration attributes through the whole renderer; RenderStateSpec.v says which names a document may change; one traversal of the renderer (RenderKit.v) shows that no other is touched; refutation witnesses for full independence. |
| C18 | Settings of the caller are honoured | Same model and traversal; exact exceptions (captions) as refutation. |
| C19 | Substitution lists mean what they say | Model newSubstitutions/append/prepend/remove/substitutionsFor; refinement to list spec. |
| C20 | Substitution phases cover the substitutions | Model split; equation with 'last occurrence' spec. |
| C21 | Counters count | Model valueForCounter state machine; induction on history. |
| C22 | Placeholder round trip | Model serialize/parse/restore of placeholders; round trip under no-replacement-char hypothesis, refutation otherwise. |
| C23 | Filtering removes exactly comments and blank lines | Model doFilterOut over the AST; structural induction. |
| C24 | List arrangement conserves elements | Model arrangeListElements/listStack over the AST; invariant on the stack; flatten equality. |
| C25 | Equal markers give siblings | Same model; refutation witness for skipped levels, positive theorem for a style sequence. |
| C26 | Attribute merging laws | Model Attributes as finite maps; algebraic laws, Permutation invariance. |
| C27 | Merging inline content preserves text | Model merge/Append/Reduce over nested values; induction; refutation for adjacent strings. |
| C28 | HTML escaping is safe and stable | Model strings.NewReplacer generic algorithm; induction over the string. |
| C29 | ASCII output is pure ASCII | Model asciiEntify over runes, by induction on the text; the whole output as an instance of C58 with conversion (AlphaSpec.v, AlphaRender.v). |
| C30 | Generated ids use a safe alphabet | Model replaceNonAlphanumerics over runes with an abstract letter/number predicate (section variable); induction. |
| C31 | Natural cross references find their section | Model both sides; equality theorem. |
| C32 | Tables keep all cells in rows of equal length | Model organizeTableCells/scan/reorganize; induction with modulo invariant. |
| C33 | Column widths add up to one hundred percent | Model Columns with integer fixed point arithmetic (floats abstracted, stated). |
| C34 | Rendering a table never crashes | Model rows()/renderTable index computations with Panic results; refutation witnesses + characterisation. |
| C35 | Section numbers are hierarchical and unique | Model traverseElements; induction over trees. |
| C36 | The preamble contains exactly what precedes the first section | Model insertPreamble; list lemmas. |
| C37 | The document title is never lost | Model Header/BodyElements; refutation witness and positive theorem. |
| C38 | The parsing pipeline is deterministic and does not deadlock | Small-step semantics of a chain of stages with bounded buffers (Pipeline); confluence by invariant, progress, measure. |
| C39 | No goroutine is left behind | Same semantics with the done channel; which sends select on done decides; witness or theorem. |
| C40 | Validation never crashes and downgrades invalid manpages | Model Validate with Panic; witnesses and exact characterisation. |
| C41 | Author lists expand to numbered attributes | Model Expand/Authors; induction; witnesses for nil names. |
| C42 | Delimited blocks nest | Model track; refinement to a stack spec. |
| C43 | Indentation removal keeps relative indentation | Model indentation functions over lines; induction. |
| C44 | Image paths get the images directory exactly once | Model SetPathPrefix/getImageSrc; refutation of idempotence, positive theorem for a single rendering. |
| C45 | Command line attributes keep their value | Model parseAttributes with Go Split; refutation for values with '='; positive otherwise. |
| C46 | Captions are numbered consecutively | Counters of the rendering state in Render.v: every number handed out is the previous one plus one, over the whole rendering of any document; refutation for document order. |
| C47 | Preprocessing keeps plain documents | Preproc model specialised to lines classified as plain. |
| C48 | File inclusion restores the working directory and terminates | Model cwd as state, open/close in all paths; termination by rank function on files; refutation for self inclusion. |
| C49 | Attribute references | Model replaceAttributeRefs over inline elements; induction. |
| C50 | Predefined attributes and symbols have renderings | Finite tables: complete enumeration by vm_compute, lifted to all keys. |
| C51 | Table of contents links hit their headings | Combine Ids, ToC and escaping; refutation witnesses (case folding, special characters) and positive theorem for safe lower-case ids. |
| C52 | Configuration settings compose | Model settings as state transformers; laws and witness for WithAttributes discarding. |
| C53 | Splitting inline content into lines loses nothing | Merge.v (SplitElementsPerLine, InsertAt); induction on the content (P_Merge.v). |
| C54 | Rendering terminates | The renderer model is indexed by the depth of the call stack; induction on a rank of the reference graph of titles; witness of a self-referring title. |
| C55 | The output is well-formed markup | HtmlSpec.v: inductive grammar of well-formed markup; HtmlMachine.v: an equivalent stack automaton; TmplCheck.v: a checker that runs a template on abstract values, proved sound (HtmlTmpl.v); HtmlRender.v: induction on the depth over every element; refutation witnesses for the excluded constructs. |
| C56 | Gathering the lines of a list | ListCollect.v: NewListElements as a loop over the run; ListCollectSpec.v: contents (items, lines and blocks in order), stray lines; induction on the run with the open element as state; refutations for stray lines and comments. |
| C57 | No text is lost in rendering | TextSpec.v: words and 'appear in order'; TextDocSpec.v: the words of every element, with the losses spelled out; TextTmpl.v: a checker, proved sound, that a template prints given fields in order; TextRender.v: Hoare triples over the renderer by induction on the depth; the losses are also refuted on concrete documents. |
| C58 | The renderer invents no characters | AlphaSpec.v: alphabets and the documents written in one; AlphaOps.v: every string operation and every template keeps to an alphabet; AlphaRender.v: Hoare triples over the renderer by induction on the depth. |
| C59 | Ids and links are in the output | MarkSpec.v: the quoted attributes (ids, hrefs, sources, footnote anchors) of every element, with the elements that lose theirs left out; MarkOps.v: a checker, proved sound, that a template prints a given attribute when its field is known; MarkRender.v: Hoare triples over the renderer by induction on the depth; counterexamples for each element left out. |
| C60 | The table of contents is shown | TocShownSpec.v: the words and the links of a tree of entries; TocShown.v: the entries rendered in advance, then written, by induction on the tree; P_TocShown.v: the attributes that place the table are unchanged when the body starts, and the page around it. |
| C61 | Parsing always ends | Peg.v: an interpreter for pigeon's expressions with the embedded Go code as a parameter (`host`); PegGrammar.v: the grammar, generated from the table in parser.go; PegAna.v/PegTable.v: a table that says, for each rule and each kind of next rune, whether it can fail, succeed without reading, and what can follow, checked by `vm_compute`; P_PegAna.v: the checks imply the table is right; P_PegTerm.v: lexicographic induction on (runes left, rank of the rule, size). |
| C62 | Inline content and included lines are always accepted | Read off the checked table (PegTable.v) for the entry points; P_PegSym.v: a symbolic run that collects the outcomes of one text for every host, for the counterexample. |
| C63 | A document is cut into consecutive fragments | PegDoc.v: the loop of ParseDocumentFragments; by induction on the runes left. |
| C64 | Comparison operators of ifeval | Symbolic runs (P_PegSym.v) of the raw-line rule. |
| C65 | Delimited blocks are verbatim | PegHost.v: the Go code of the grammar (all predicates and state blocks, the actions that build blocks, paragraphs and lines; the others stay a parameter); PegBlockSpec.v: what the lines of a block are; P_PegRun.v: run rules for success and failure of expressions, proved sound against the interpreter; P_PegLines.v, P_PegBlocks.v, P_PegFragment.v: every alternative before the block fails, the block succeeds. |
| C66 | Paragraphs and documents of blocks | P_PegPara.v, P_PegDocs.v: the same for paragraphs and blank lines, then induction on the document. |
| C67 | Verbatim content is kept character by character | PegInlineSpec.v: the elements of a text (callouts, special characters, runs), without the grammar; P_PegInline.v: run rules for NormalGroup, every alternative before the right one fails, induction on the text; counterexamples for the two hypotheses. |
| C68 | Ordinary paragraph text is kept, with exactly the documented replacements | PegInlineSpec.v (Section Ordinary): the reading of a text, on characters only; P_PegDodge.v: a sound analysis showing that no alternative but AnyChar starts with a foreign character; P_PegNormal.v: run rules per construct, induction on the reading, and the two merges of NewInlineElements; counterexamples for the byte-based lookbehind. |
| C69 | From the text to the HTML: a whole document | Convert.v: ParseDocument and Convert as a function of the text, every stage instantiated by its own model (Peg + PegHost, Refs, ApplySubs, Merge, Footnotes, Lists, Filter, Aggregate, Toc, Validator, Render, Tmpl). ConvertSpec.v: what each element is shown as, on characters and HTML only. P_Convert.v composes C66, C67 and C68 with run lemmas for every later stage. |
| C70 | From the source to the HTML: conditional lines | ConvertSource.v: Preprocess with the rule DocumentRawLine of the grammar (Peg.v, PegGrammar.v, PegHost.v) as the parser of a line, then Convert.v. SourceSpec.v: lines of a source, declarations, conditions and the relation `chosen`, on characters only. P_Source.v: what the grammar reads on each kind of line (run rules of P_PegRun, symbolic failures, and inversion of the evaluation for lines that are no directive), then induction on `chosen` over the loop, then C69. |
| C71 | From the text to the HTML: sections | SectionDocSpec.v: texts with titles, the ids and the nesting, on characters and HTML only. P_PegSections.v: what the grammar reads on a title (run rules of P_PegRun; the text of a title by induction on its pieces). SectionText.v: trimming and ids of titles. P_SectionDocs.v: the aggregator builds the tree (invariant: open sections with increasing levels), ids by an invariant between the references and the ids already used, the table of contents is prepared without effect, rendering by induction on the nesting; composed with the lemmas of C69. |
| C72 | From the text to the HTML: title, preamble and page | TitledSpec.v: texts with a title, the preamble and the page, on characters and HTML only. P_PegHeader.v: what the grammar reads on the title line, and that no author, revision or declaration is read on an empty line (symbolic runs). P_Titled.v: the header passes through every stage; preamble by C36; the page by executing the article template, with an induction on the stylesheets, whatever noheader, nofooter, description and revnumber; composed with the lemmas of C71. |
| C73 | Lists: from the text to the HTML | PegHost.v: the list actions of the grammar; PegBlockSpec.v: marks, items and their lines on characters only; ConvertSpec.v: `list_html`, a writer that sees one item after the other. P_PegList.v: what the grammar reads on items, continued lines, blank lines and the end of the list. P_ListHtml.v: the stack of open lists of the arrangement and the text written so far (invariant), lines stripped. P_Convert.v: the tree passes through the other stages and is rendered as that text; P_ListText.v: the theorems, and well-formedness of `list_html` by induction on the items. |
| C74 | Bold, italic, monospace and marked words: from the text to the HTML | QuotedSpec.v: sentences as chunks, with their text and their HTML as two independent functions. P_Quoted.v: the reading of C68 is built by induction on the chunks, then C69. P_PegNormal.v (Section Marked, Section Rule): what the rules of the four quotes read, with the byte tracked by the parser. |
| C75 | Comments, thematic breaks and admonitions | PegBlockSpec.v: three more pieces of documents; P_PegBreak.v: what the grammar reads on them (all earlier alternatives fail); ConvertSpec.v: three more cases of `shown`; P_Convert.v: they pass through every stage; P_Breaks.v: the theorems on texts. |
| C76 | Id, roles and title on the frame | FrameSpec.v: the HTML of a block of each kind, from its id, roles, title, attribution and content, written without the templates; P_Frames.v: running the template of each kind, by cases on which fields are empty. Rendering of content and title is a hypothesis (`all_rendered`); refuted for literal blocks (roles outside of the class) and quote/verse paragraphs (roles dropped) |
| C77 | Inline elements and images: exactly their HTML | TagSpec.v: the HTML of each element, written without the templates; P_Tags.v: templates run node by node (`by_nodes`), menus by induction on the path. Refuted for the class of mail links without text and the ids of links |
| C78 | Labeled lists, lists of callouts, items with check marks: exactly their HTML | ItemSpec.v: terms, contents and callouts as relations on rendered text, the three layouts as HTML; P_Items.v: induction on the entries with the flag of the open row as accumulator. Found: a horizontal list whose last term has no content leaves its row open |
| C79 | Tables: exactly their HTML | CellSpec.v: blocks in cells, cells with their columns and rows as relations, the table as HTML; P_TableHtml.v: induction on cells (with the columns already passed as prefix) and rows, the table template node by node with its range over the columns. Refuted for a header without rows |
| C80 | Sections, preambles, icons and admonitions with icons: exactly their HTML | PartSpec.v: the HTML of each, written without the templates; P_Parts.v: templates run node by node (conditions on numbers, booleans and alternatives included). Refuted for icon images with empty text and for the roles of icons |
| C81 | Documents with title, authors, revision and footnotes: exactly their HTML | LayoutSpec.v: notes, authors and revision as relations on attributes and rendered text, the page as HTML; P_Layout.v: authors through C41, footnotes by induction, the page template node by node |

## What is modelled

| Go code | Model |
|---|---|
| pkg/types/types.go, types_utils.go, attributes.go | Types.v (values), Elements.v (interfaces), Attrs.v, Authors.v, Toc.v, Ids.v, SectNum.v, Merge.v, Locations.v, Cond.v, Lists.v, ListCollect.v, Tables.v, TableWidths.v |
| pkg/parser/document_preprocessing*.go, parts of the grammar for raw lines | RawLine.v, Preprocess.v, Include.v, Context.v, CtxHeap.v |
| pkg/parser/document_substitutions.go and the substitution of attribute references, counters and placeholders | Subs.v, Refs.v |
| pkg/parser/document_processing*.go (goroutines, footnotes, lists, filter, aggregation) | Pipeline.v, Footnotes.v, Lists.v, Filter.v, Aggregate.v |
| pkg/parser/parser.go: the generated parser (its interpreter and its whole grammar table, without the bodies of the code blocks), parser_ext.go, document_processing_parse_fragments.go | Peg.v, PegGrammar.v (generated), PegDoc.v, PegHost.v |
| pkg/validator | Validator.v |
| pkg/configuration, the -a arguments of the command | Config.v |
| pkg/renderer/sgml (all elements), the templates of html5 and xhtml5 (verbatim copies) and the part of text/template they use | RenderAttrs.v, Escape.v, Indent.v, TocRender.v, Templates.v, Tmpl.v, Render.v |

Parameters of the renderer model (record `renv`): strings.ToLower, fmt's %v,
the computation of columns, image sources and icon paths, user macros,
RawText, syntax highlighting, the element references and section numbers.  They
are arbitrary functions in the theorems, with stated hypotheses where needed.

## Not modelled

The Go code blocks embedded in the grammar (`pkg/parser/parser.peg`) are a
parameter of the model of the generated parser (record `host`): the theorems
hold whatever they return, or panic; only the blocks that decide how the parser
moves have a fixed meaning (`action`, `pred` in Peg.v).  For C65 to C68 all
predicates and state blocks and the actions for blocks, paragraphs, lines, callouts and special characters are
modelled (PegHost.v); the remaining actions may return anything.  Input is a list of
runes (no invalid UTF-8).  The link from the text through
the parser to the values the other models start from, and on to the HTML, is made in Convert.v
(C69), from the preprocessed text on, from the source (C70), with sections (C71), with a title and the page around (C72), with lists (C73), with words in marks (C74) and with comments, thematic breaks and admonitions (C75); it is proved for the documents described there.  Chroma highlighting, logging, YAML, the fairness of the Go
scheduler, int overflow and the operating system are not modelled beyond what is
said in the comments of the model files.  Templates that the renderer never
uses and the test helpers are left out.

## Trusted base

- Coq 8.16.1's kernel (and its VM, used by `vm_compute` on closed terms).
- `Print Assumptions` of every property theorem, printed by the build at the end
  of each `P_*.v`: *Closed under the global context* for all of them, except the
  theorems of `P_Widths.v` (C33), which rest on the axioms of the standard
  library's real numbers and classical logic, through Flocq:
  `ClassicalDedekindReals.sig_not_dec`, `ClassicalDedekindReals.sig_forall_dec`,
  `FunctionalExtensionality.functional_extensionality_dep`,
  `Classical_Prop.classic`.
- The faithfulness of the transcription: each definition cites the lines of Go
  it models and says what it simplifies.  `Templates.v` was generated from the
  Go sources, `PegGrammar.v` from the grammar table of parser.go (each rule
  cites its lines in parser.go and parser.peg).
- The specifications: `*Spec.v` and the statements of the `P_*.v` files.
