{"id": "C01", "title": "Section ids are unique", "statement": "When a document is aggregated, every section with a title gets a non-empty-id that differs from the id of every other section registered before it; a colliding id gets the suffix _2, _3, ... with the smallest free number, and ids already assigned are never changed.", "quantifier": "every sequence of sections (any titles, custom ids, idprefix/idseparator), any set of already registered references", "why_tests_cant": "Collisions depend on the whole history of earlier titles (including titles that themselves end in _2); the search loop is unbounded.", "anchors": ["pkg/types/types.go:Section.ResolveID", "pkg/types/types.go:Section.resolveID", "pkg/types/types.go:Section.Reference", "pkg/parser/document_processing_aggregate.go:Aggregate"]}
{"id": "C02", "title": "Table of contents lists every eligible section once, in document order", "statement": "After aggregation the table of contents, read in preorder, is exactly the sequence of (id, level, title) of the sections whose level is at most toclevels, in document order, each exactly once.", "quantifier": "every finite sequence of sections with arbitrary levels and every maximum depth", "why_tests_cant": "Insertion walks down a tree whose shape depends on all previous levels; tests sample a few shapes.", "anchors": ["pkg/types/types.go:TableOfContents.Add", "pkg/types/types.go:NewTableOfContents"]}
{"id": "C03", "title": "Table of contents nesting follows section levels", "statement": "In the table of contents a child entry has a greater level than its parent exactly when the levels of the entries, in order, only go back up to the level of an entry still open (each level is deeper than the previous one, or was reached before with only deeper ones since); then every entry is nested under the closest preceding entry of smaller level. For other sequences (such as 2,1 or 1,3,2) the nesting is wrong.", "quantifier": "every document (every sequence of section levels and toclevels declarations)", "why_tests_cant": "it ranges over all sequences of section levels", "anchors": ["pkg/types/types.go:TableOfContents.Add", "pkg/parser/document_processing_aggregate.go:Aggregate"]}
{"id": "C04", "title": "Section tree loses nothing and nests by level", "statement": "Aggregation turns a flat stream of blocks into a tree whose flattening is the input stream, in order, nothing lost or duplicated; a section's parent has a strictly smaller level, and a non-section block belongs to the closest preceding section.", "quantifier": "every stream of fragments of any length and any level sequence", "why_tests_cant": "Parent lookup depends on the whole stack of open sections.", "anchors": ["pkg/parser/document_processing_aggregate.go:Aggregate", "pkg/parser/document_processing_aggregate.go:indexOfParent"]}
{"id": "C05", "title": "A failing fragment is dropped without disturbing the rest", "statement": "If parsing or processing some fragments fails, ParseDocument does not report it (against what a user expects: the content is silently missing), and the document is exactly the one obtained from the other fragments: ids, table of contents, tree and references are not disturbed.", "quantifier": "every stream of fragments with any number of failing ones anywhere", "why_tests_cant": "it ranges over every position and number of failing fragments", "anchors": ["pkg/parser/document_processing_aggregate.go:Aggregate", "pkg/parser/document_processing.go:ParseDocument"]}
{"id": "C06", "title": "Footnotes are numbered consecutively and references resolve", "statement": "The footnote macros in paragraphs, section titles, list terms and list items are handled in document order: each one with content is a note, and the notes get ids 1,2,3...; one without content gets the id of the first note before it with the same reference (for footnote:[] that is the first anonymous note), or is marked invalid if there is none; a second definition of a reference is a note of its own; every valid number in the text is the id of exactly one note; nothing else in the document changes.", "quantifier": "every sequence of footnote macros (anonymous, named, duplicate, dangling)", "why_tests_cant": "Numbering depends on the whole history of macros.", "anchors": ["pkg/types/types.go:Footnotes.Reference", "pkg/types/types.go:Footnotes.indexOf", "pkg/types/types.go:sequence.nextVal", "pkg/parser/document_processing_collect_footnotes.go:collectFootnotes"]}
{"id": "C07", "title": "Which footnote macros are replaced", "statement": "After the footnote collection stage a raw footnote macro remains in the document exactly when it stood elsewhere than directly in the text of a paragraph, a section title, a list term or a list item (so in delimited blocks, tables, list continuations, quoted text, the document title); and one remains in the notes exactly when a collected macro had one in its text.", "quantifier": "every element tree", "why_tests_cant": "Elements nest arbitrarily deeply.", "anchors": ["pkg/types/types.go:WithFootnotes", "pkg/types/types.go:Section.SubstituteFootnotes", "pkg/types/types.go:Paragraph.SubstituteFootnotes", "pkg/types/types.go:ListElements.SubstituteFootnotes", "pkg/parser/document_processing_collect_footnotes.go:CollectFootnotes"]}
{"id": "C08", "title": "Conditional directives select exactly the enabled lines", "statement": "A content line is emitted by preprocessing iff every ifdef/ifndef/ifeval enclosing it in the same file was true when it was opened; an extra endif has no effect; the emitted lines keep their order.", "quantifier": "every sequence of source lines, every nesting depth, every attribute set", "why_tests_cant": "Nesting is unbounded and conditions are evaluated against an attribute state that changes along the file.", "anchors": ["pkg/parser/document_preprocessing.go:preprocess", "pkg/parser/document_preprocessing.go:conditions", "pkg/types/types.go:IfdefCondition.Eval", "pkg/types/types.go:IfndefCondition.Eval", "pkg/types/types.go:IfevalCondition.Eval"]}
{"id": "C09", "title": "What a disabled conditional region can do", "statement": "A region whose condition is false is processed exactly like an enabled one except that none of its lines is emitted: text lines and nested conditionals in it leave no trace at all, attribute declarations in it still take effect on what follows, and files it names are still opened, so that a missing file in a disabled region fails the conversion.", "quantifier": "every document and every disabled region", "why_tests_cant": "Effects may appear arbitrarily far from the region.", "anchors": ["pkg/parser/document_preprocessing.go:preprocess", "pkg/parser/document_preprocessing.go:includeFile"]}
{"id": "C10", "title": "ifeval comparisons form a total order per type", "statement": "For two operands of an ifeval directive of the same type (integers or strings) exactly one of <, ==, > holds, == is equality, < is the usual order (numeric, resp. bytewise lexicographic) and is transitive, <= is < or ==, >= is > or ==, != is the negation of ==; operands of different types never satisfy any comparison, not even !=; the directive's verdict is the comparison of its substituted operands; and no directive that uses <= or >= is recognised.", "quantifier": "all pairs of operands the grammar produces (integers, strings, attribute references), all operators", "why_tests_cant": "The operand space is infinite and each operator has a hand written switch per type.", "anchors": ["pkg/types/types.go:NewEqualOperand", "pkg/types/types.go:NewLessThanOperand", "pkg/types/types.go:NewLessOrEqualOperand", "pkg/types/types.go:NewGreaterOrEqualOperand", "pkg/parser/parser.peg:IfevalOperand"]}
{"id": "C11", "title": "Level offsets compose additively", "statement": "A section line (equal signs, one space, title) outside delimited blocks in a file included through nested include directives with relative leveloffset values o1..on is emitted at its own level plus o1+...+on; an absolute offset puts the first section of the file at that level and shifts the following ones by the same amount. It fails only if some resulting level is below -1, where the conversion panics; a section line written with a tab is not moved.", "quantifier": "every nesting of includes, every list of offsets, every section level", "why_tests_cant": "Offsets are applied through a mutable shared stack; the result depends on the history.", "anchors": ["pkg/parser/context.go:levelOffsets", "pkg/parser/document_preprocessing.go:levelOffsets", "pkg/parser/document_preprocessing.go:absoluteOffset", "pkg/parser/document_preprocessing.go:relativeOffset"]}
{"id": "C12", "title": "Included line ranges select exactly the lines listed", "statement": "With lines=..., exactly the lines of the included file that belong to one of the ranges are kept, in file order, whatever the order and overlap of the ranges.", "quantifier": "every set of ranges (in any order, overlapping, open-ended) and every file", "why_tests_cant": "Early exit relies on sorting; the interplay is over all permutations.", "anchors": ["pkg/types/types.go:LineRanges.Match", "pkg/types/types.go:NewLineRanges", "pkg/parser/document_preprocessing.go:readWithinLines"]}
{"id": "C13", "title": "Included tag regions select exactly the tagged lines", "statement": "With tags=..., a line is kept iff the verdict of the tag list includes it: the last rule that names an open tag decides, wildcards stand for every tag and for untagged lines as documented, except that `!**` does not exclude anything. Tag directives themselves are never kept, and the outcome does not depend on the iteration order of the table of open tags.", "quantifier": "every tag rule list, every file, every map iteration order", "why_tests_cant": "Go map iteration order is random; nesting of regions is unbounded.", "anchors": ["pkg/types/types.go:TagRanges.Match", "pkg/parser/document_preprocessing.go:readWithinTags"]}
{"id": "C14", "title": "Outcome of reading a tagged file", "statement": "A tag filtered inclusion panics exactly when the file holds an end tag with no start tag of that name before it; otherwise it returns lines exactly when every line can be read and every tag named in the list occurs in the file, and reports an error in all other cases.", "quantifier": "every included file", "why_tests_cant": "Crash needs an unusual tag order in the file.", "anchors": ["pkg/parser/document_preprocessing.go:readWithinTags"]}
{"id": "C15", "title": "API attributes take precedence over document attributes", "statement": "While a document is parsed, an attribute supplied through the configuration keeps its value whatever the document declares or resets; other attributes have the value of their latest declaration or reset.", "quantifier": "every history of attribute declarations and resets", "why_tests_cant": "The claim is over all histories.", "anchors": ["pkg/parser/context.go:contextAttributes", "pkg/parser/context.go:ParseContext"]}
{"id": "C16", "title": "Attribute scopes are isolated by cloning", "statement": "Setting or resetting an attribute in a cloned context never changes the parent context, and conversely.", "quantifier": "every history of operations on both contexts", "why_tests_cant": "Aliasing bugs appear only for particular interleavings.", "anchors": ["pkg/parser/context.go:contextAttributes.clone", "pkg/parser/context.go:ParseContext.Clone"]}
{"id": "C17", "title": "Conversions change only what the document declares", "statement": "A conversion changes, in the attribute map of the configuration it is given, no attribute except the four captions, the author and revision attributes when the header has authors or a revision, and the attributes that something in the document declares or resets; for a document that declares nothing, the map afterwards is the given one with the four captions set, and a second conversion with the same configuration gives the same result. (The stronger independence of conversions is false: declarations leak into the configuration.)", "quantifier": "all documents, configurations, attribute maps and formats", "why_tests_cant": "The leak depends on the pair of documents.", "anchors": ["pkg/renderer/sgml/context.go:newContext", "pkg/renderer/sgml/sgml.go:Render", "pkg/configuration/configuration.go:Configuration"]}
{"id": "C18", "title": "Attributes of the caller are those used when rendering", "statement": "An attribute given through the configuration that the document neither declares nor resets (nor defines by its authors or revision) has the value given by the caller when rendering begins and after every rendered element; the exceptions are the four captions (figure-caption, table-caption, example-caption, version-label), which always start with the built-in values whatever the caller gives.", "quantifier": "all documents, elements of them and attribute maps", "why_tests_cant": "Defaults and overrides interact.", "anchors": ["pkg/renderer/sgml/context.go:newContext"]}
{"id": "C19", "title": "Substitution lists mean what they say", "statement": "subs=a,b,c applies exactly the listed substitutions (groups expanded) in the order listed (repetitions are kept), subs=+x / x+ / -x modifies the block default by appending, prepending or removing and never otherwise reorders it, an unknown name is an error, and every kind of block, the header and attribute values have their documented defaults.", "quantifier": "every block kind, every list of substitution names", "why_tests_cant": "The name lists are unbounded and incremental modifiers interact with defaults.", "anchors": ["pkg/parser/document_substitutions.go:newSubstitutions", "pkg/parser/document_substitutions.go:substitutionsFor", "pkg/parser/document_substitutions.go:defaultSubstitutions"]}
{"id": "C20", "title": "Substitution phases cover the substitutions", "statement": "Splitting a substitution list for the two-phase application loses no substitution that must run after attribute replacement: phase one is the whole list, and phase two, when there is one, is exactly what follows the last attribute replacement that is not the final entry of the list; there is no phase two exactly when no such entry exists. (If attributes is both the final entry and listed before, phase two starts after the earlier one.)", "quantifier": "every substitution list", "why_tests_cant": "Lists are unbounded.", "anchors": ["pkg/parser/document_substitutions.go:substitutions.split"]}
{"id": "C21", "title": "Counters count", "statement": "The n-th use of {counter:x} without a new start value yields n (or the n-th successor of the start value), a start value of {counter:x:v} resets it, different counters are independent, and {counter2:x} yields nothing but counts; a start value given to {counter2} is ignored. Values stay within the range of Go's int.", "quantifier": "every history of counter uses", "why_tests_cant": "Histories are unbounded.", "anchors": ["pkg/parser/document_processing_apply_substitutions.go:valueForCounter", "pkg/parser/context.go:ParseContext"]}
{"id": "C22", "title": "Placeholder round trip", "statement": "Serialising inline content with placeholders and restoring after re-parsing gives back the same text and every original element at its place, at every depth of quoted text; placeholders the parser put inside index terms and footnotes are not restored, and text that already holds the placeholder delimiter U+FFFD may be taken for a placeholder.", "quantifier": "every inline content whose text is valid UTF-8 without U+FFFD, every nesting of quoted text in the re-parsed result", "why_tests_cant": "Content can contain anything, including text looking like placeholders.", "anchors": ["pkg/parser/document_processing_apply_substitutions.go:placeholders", "pkg/types/types.go:ElementPlaceHolder"]}
{"id": "C23", "title": "Filtering removes exactly comments and blank lines", "statement": "After the filter stage nothing reached through the elements of elements is a blank line or a comment, everything else is preserved in order (but for headers left empty), a document without comments and blank lines is unchanged, and filtering twice equals filtering once. The header and footer rows of a table are never filtered.", "quantifier": "every element tree", "why_tests_cant": "Trees nest arbitrarily.", "anchors": ["pkg/parser/document_processing_filter_elements.go:doFilterOut"]}
{"id": "C24", "title": "List arrangement conserves elements", "statement": "Arranging a flat run of list items and attached blocks into nested lists keeps each of them exactly once and in source order (preorder), also for runs inside delimited blocks, and puts in one list only items of the same kind and marker. It fails exactly when a continuation comes after at least as many blank lines as there are open lists. Runs inside a block attached to an item are left as they are.", "quantifier": "every run of list elements of any kinds, markers and attachments", "why_tests_cant": "Nested stacks of lists depend on the entire prefix.", "anchors": ["pkg/parser/document_processing_arrange_lists.go:arrangeListElements", "pkg/types/types.go:List.CanAddElement", "pkg/types/types.go:List.AddElement", "pkg/types/types.go:NewList"]}
{"id": "C25", "title": "Markers decide the nesting of list items", "statement": "The nesting depth of each item follows from the markers of the run: an item goes to the innermost open list with its marker, or else opens a list inside the current one, whose marker is that of the item, except that directly inside an unordered list a new unordered list gets the bullet that follows the outer one, whatever bullet was written. So two items with the same marker with only deeper items between them are neighbours in one list, unless that replacement of bullets intervenes.", "quantifier": "every run of list items", "why_tests_cant": "Marker styles are rewritten according to depth.", "anchors": ["pkg/types/types.go:UnorderedListElement.AdjustStyle", "pkg/parser/document_processing_arrange_lists.go:listStack"]}
{"id": "C26", "title": "Attribute merging laws", "statement": "Merging attribute sets keeps all roles in order (a value of `roles` that is a plain string is ignored), adds single options and lets a later `options` replace them, lets the last value of every other name win, numbers positional values 1,2,... in order of appearance, alters no other key, and fails exactly on what is not an attribute. It does not depend on the iteration order of a map, exactly when the map does not mix `role` with `roles` or `option` with `options` (no map filled by Set does). Moving positional values to their names removes the positional entries, never overwrites a given name, and does not depend on the order of the mapping.", "quantifier": "all attribute lists", "why_tests_cant": "Go map order is random and lists are unbounded.", "anchors": ["pkg/types/attributes.go:NewAttributes", "pkg/types/attributes.go:MergeAttributes", "pkg/types/attributes.go:Attributes.Set", "pkg/types/attributes.go:Attributes.AddAll", "pkg/types/attributes.go:toAttributesWithMapping"]}
{"id": "C27", "title": "Merging inline content preserves text", "statement": "Merging parsed inline content keeps the concatenated text and the other elements, in order, whatever the nesting in slices; only spaces directly in front of the symbol ` -- ` may be dropped, so content without it is unchanged. It leaves two adjacent strings exactly when text directly follows the last nested slice and what precedes ends in text; merging the result once more never leaves any.", "quantifier": "every list of inline content (nested slices, strings, nil, elements)", "why_tests_cant": "Inputs nest arbitrarily.", "anchors": ["pkg/types/types_utils.go:merge", "pkg/types/types_utils.go:Append", "pkg/types/types_utils.go:Reduce"]}
{"id": "C28", "title": "HTML escaping is safe and stable", "statement": "Escaped text never contains a raw <, >, quote or double quote, every ampersand in it starts an entity, escaping is the identity on text without special characters and on escaped text, and escaped text reads (entities turned back into characters) exactly as the source itself reads; so it reads back as the source exactly when the source has no entity of its own.", "quantifier": "every string", "why_tests_cant": "All strings.", "anchors": ["pkg/renderer/sgml/html_escape.go:escapeString", "pkg/renderer/sgml/html_escape.go"]}
{"id": "C29", "title": "ASCII output is pure ASCII", "statement": "When Unicode output is off (attribute unicode=false), the rendered document consists of ASCII only, whatever the text of the document (titles, paragraphs, lists, tables, notes, quoted text...), provided that the strings the renderer never converts (attribute values, link targets, passthroughs, source blocks, verse paragraphs, the page title) are ASCII; printable ASCII text is unchanged and every converted character can be read back from its character reference.", "quantifier": "every document, every configuration, every string", "why_tests_cant": "All documents and all Unicode strings: a single element kind or string that skips the conversion breaks the claim.", "anchors": ["pkg/renderer/sgml/string.go:asciiEntify", "pkg/renderer/sgml/sgml.go:Render", "pkg/renderer/sgml/context.go:UseUnicode"]}
{"id": "C30", "title": "Generated ids use a safe alphabet", "statement": "An id generated from a title begins with the prefix; the rest is made of letters, digits and the separator only. Without separators it is exactly the sequence of letters and digits the title shows (its text, also inside quoted text, link addresses, icon texts), in order; of a plain-text title it is the words joined by single separators. It does not end with the separator if the last part of the title that counts has a letter or a digit, and never for a plain-text title.", "quantifier": "every title (nested elements of any kind), prefix, one-character or empty separator, classification of Unicode letters and digits", "why_tests_cant": "All Unicode titles.", "anchors": ["pkg/types/non_alphanumerics_replacement.go:ReplaceNonAlphanumerics", "pkg/types/non_alphanumerics_replacement.go:replaceNonAlphanumerics"]}
{"id": "C31", "title": "Natural cross references find their section", "statement": "Every cross reference <<s>> with a space in s points to the id generated from the text s with the idprefix/idseparator in force at the end of the document; a section without explicit id gets the id generated from its title with the values in force where it stands (numbered when taken). Hence <<Some Title>> points to the section titled Some Title whenever the title is plain text and the document does not change prefix or separator afterwards; references without a space are left alone.", "quantifier": "every document, every section without explicit id, all declarations, resets and front matter, all caller-given attributes, every reference text", "why_tests_cant": "All titles.", "anchors": ["pkg/types/types.go:InternalCrossReference.ResolveID", "pkg/types/types.go:Section.resolveID"]}
{"id": "C32", "title": "Tables keep all cells in rows of equal length", "statement": "Organising table cells keeps all cells in order; all rows (header and footer included) have the same number of cells, except possibly the last, which may be shorter. With column definitions this is the number of columns; without, it is the number of cells of the first source row, and the table has as many columns as the first body row has cells (the same number unless that is the last row).", "quantifier": "every list of cells and rows", "why_tests_cant": "All shapes.", "anchors": ["pkg/types/types.go:organizeTableCells", "pkg/types/types.go:scanTableElements", "pkg/types/types.go:Table.reorganizeRows", "pkg/types/types.go:Table.SetColumnDefinitions"]}
{"id": "C33", "title": "Column widths add up to one hundred percent", "statement": "Each column but the last gets its weight's share of 100% to within 10^-9; the last gets its share plus what truncation of the others left over, at most 0.0002% per other column; the widths add up to 100% to within 0.0003% per column (they need not add up exactly, and the displayed digits need not add up to 100).", "quantifier": "every list of non-negative weights whose sum is between 1 and 2^30", "why_tests_cant": "All lists of weights; rounding must be compensated.", "anchors": ["pkg/types/types.go:Table.Columns"]}
{"id": "C34", "title": "Exactly which tables crash", "statement": "Going from the source of a table to its output crashes exactly when: without column definitions, there are rows but no more than are asked to be header and footer; with column definitions, they ask for no column (or fewer), or there are fewer rows than are asked to be header and footer. Every other table gives output or an error.", "quantifier": "every table source, attributes (options not withdrawn by a later attribute group), column definitions, and any crash-free rendering of single cells", "why_tests_cant": "Index arithmetic at corner shapes.", "anchors": ["pkg/renderer/sgml/table.go:renderTable", "pkg/renderer/sgml/table.go:renderTableRow", "pkg/types/types.go:Table.rows", "pkg/types/types.go:organizeTableCells"]}
{"id": "C35", "title": "Section numbers are hierarchical", "statement": "With sectnums, numbered sections get numbers 1, 2, ... among the numbered siblings, a nested section's number is its parent's number followed by a dot and its rank, and sections where numbering is off have none. When numbering is on and not switched in the body, every section is numbered by its position and numbers are distinct; switching it in the body can repeat numbers.", "quantifier": "every section tree with sectnums declarations and resets anywhere", "why_tests_cant": "Numbering depends on the whole traversal.", "anchors": ["pkg/types/types.go:Document.SectionNumbers", "pkg/types/types.go:traverseElements"]}
{"id": "C36", "title": "The preamble contains exactly what precedes the first section", "statement": "Inserting the preamble keeps all elements in order, wraps exactly the content between header and first section, and does nothing for documents without header or without such content.", "quantifier": "every list of top level elements", "why_tests_cant": "All shapes.", "anchors": ["pkg/parser/document_processing_aggregate.go:insertPreamble", "pkg/parser/document_processing_aggregate.go:newPreamble"]}
{"id": "C37", "title": "The document title is lost exactly when something other than front matter or blank lines precedes the header", "statement": "The header of a document (hence its title, in metadata and output) is found if and only if everything before it is front matter or blank lines, and preamble insertion keeps it; with one or more attribute declarations before the header, there is no header at all, no preamble is inserted and the header is not among the rendered body elements, so the title disappears.", "quantifier": "every document with a header", "why_tests_cant": "Depends on what precedes the header.", "anchors": ["pkg/types/types.go:Document.Header", "pkg/types/types.go:Document.BodyElements"]}
{"id": "C38", "title": "The parsing pipeline is deterministic and does not deadlock", "statement": "For every interleaving of the goroutines of ParseDocument, the resulting document is that of running the stages one after another on the fragments in order, every non-finished state can make a step, and every execution terminates.", "quantifier": "every schedule, every number of fragments, every buffer capacity", "why_tests_cant": "Schedules cannot be enumerated by tests.", "anchors": ["pkg/parser/document_processing.go:ParseDocument", "pkg/parser/document_processing_filter_elements.go:FilterOut", "pkg/parser/document_processing_arrange_lists.go:ArrangeLists", "pkg/parser/document_processing_collect_footnotes.go:CollectFootnotes", "pkg/parser/document_processing_aggregate.go:Aggregate"]}
{"id": "C39", "title": "No goroutine is left behind", "statement": "When ParseDocument returns, with or without an error, all the goroutines it started terminate.", "quantifier": "every schedule and every error position", "why_tests_cant": "Leak needs a particular schedule.", "anchors": ["pkg/parser/document_processing.go:ParseDocument", "pkg/parser/document_processing_parse_fragments.go:ParseDocumentFragments"]}
{"id": "C40", "title": "Validation of manpages", "statement": "Validation finds no problem in a manpage exactly when a header is followed by a Name section with one element and a Synopsis section; it panics exactly when nothing follows the header or only a proper Name section does, and otherwise returns problems. A document configured as manpage that does not have the shape is rendered as an article, unless declarations at the start of the document (which are not validated) decide otherwise.", "quantifier": "every document", "why_tests_cant": "All document shapes.", "anchors": ["pkg/validator/validator.go:Validate", "libasciidoc.go:validate"]}
{"id": "C41", "title": "Author lists expand to numbered attributes", "statement": "An author list expands exactly if every author has a name, and panics otherwise; it then defines author, author_2, ... firstname, middlename, lastname, authorinitials and email, one group per author with her own data, and nothing else. The meta tag names all of them in order. The detail block lists author, author_2, ... with their emails up to the first undefined number, whatever the configuration; so it shows exactly the document's authors unless the configuration defines such attributes itself. The revision expands to its non-empty parts. Exceptions, proved: an author line without a name stops the conversion; attributes left over from an earlier document with more authors are shown too.", "quantifier": "every list of authors", "why_tests_cant": "All lists; missing parts.", "anchors": ["pkg/types/types.go:DocumentAuthors.Expand", "pkg/types/types.go:key", "pkg/types/types.go:DocumentHeader.Authors", "pkg/renderer/sgml/document_details.go"]}
{"id": "C42", "title": "Delimited blocks nest", "statement": "The block tracker says it is within a block iff some opening delimiter, taken as the (kind, length) pair the grammar reports, has no matching closing one; a matching closing delimiter restores the state before the opening. The grammar reports a literal delimiter (....) as a listing delimiter (----), so these two close each other.", "quantifier": "every sequence of delimiters", "why_tests_cant": "All nestings.", "anchors": ["pkg/parser/document_preprocessing.go:blockDelimiterTracker", "pkg/parser/document_preprocessing.go:blockDelimiterTracker.track"]}
{"id": "C43", "title": "Indentation removal keeps relative indentation", "statement": "Literal content loses exactly the common leading indentation: all lines keep their text and their relative indentation and at least one line starts in column 0.", "quantifier": "every list of lines", "why_tests_cant": "All inputs.", "anchors": ["pkg/renderer/sgml/literal_blocks.go", "pkg/renderer/sgml/paragraph.go"]}
{"id": "C44", "title": "Image paths get the images directory, once per rendering", "statement": "Each time an image is rendered, imagesdir (with a trailing slash) is put in front of its path exactly when the image has no scheme and its current path is relative and parses as a URL; it is never put in front of absolute paths, URLs, or paths that do not parse, however often they are rendered. The change is kept in the document, so the source written by the k-th rendering is the path with the directory put in front k times as long as the result stays relative (once, if the directory itself is absolute or a URL). Exceptions, proved: an image rendered twice gets the directory twice; a path with an invalid escape gets none.", "quantifier": "every location, every prefix, any number of renderings", "why_tests_cant": "Prefixing mutates a shared location.", "anchors": ["pkg/types/types.go:Location.SetPathPrefix", "pkg/renderer/sgml/image.go:getImageSrc"]}
{"id": "C45", "title": "Command line attributes: value up to the second '='", "statement": "Whatever the list of -a arguments, the attributes are exactly: for each name (the text of an argument before its first '='), the value of the last argument of this name, which is the text between its first and its second '=' (empty if there is no '='), and there is no other attribute. Hence -a name=value sets name to value if and only if value has no '='; a longer value is cut. Exception, proved: -a '!name' does not unset name, it sets an attribute of that odd name.", "quantifier": "every list of arguments", "why_tests_cant": "All strings.", "anchors": ["cmd/libasciidoc/root_cmd.go:parseAttributes"]}
{"id": "C46", "title": "Captions are numbered consecutively", "statement": "In every conversion the numbers given to figures, tables and example blocks are 1, 2, 3, ... per kind in the order in which they are given; a figure (table, example block) with a title and no caption of its own shows the label, the next number of its kind and the title; figures and tables are numbered before anything inside or after them, example blocks after their content.", "quantifier": "all documents, rendering states and element attributes", "why_tests_cant": "All sequences.", "anchors": ["pkg/renderer/sgml/context.go:getAndIncrementCounter"]}
{"id": "C47", "title": "Preprocessing keeps plain documents", "statement": "A document without any directive whose lines are shorter than 64 KB is unchanged by preprocessing except for line terminators (CR LF becomes LF, the last terminator is dropped); from the first line of 64 KB or more on, the rest of the document is silently dropped.", "quantifier": "every document without directives", "why_tests_cant": "All documents.", "anchors": ["pkg/parser/document_preprocessing.go:preprocess", "pkg/parser/document_preprocessing.go:builder"]}
{"id": "C48", "title": "File inclusion restores the working directory and terminates", "statement": "Including a file, whether it succeeds or fails, leaves the process working directory unchanged; inclusion of a finite set of files that do not include themselves terminates.", "quantifier": "every tree of included files and every failing position", "why_tests_cant": "Errors can occur at each point; nesting is unbounded.", "anchors": ["pkg/parser/document_preprocessing.go:open", "pkg/parser/document_preprocessing.go:includeFile", "pkg/parser/document_preprocessing.go:contentOf"]}
{"id": "C49", "title": "Attribute references", "statement": "A reference {name} is replaced by the value of the attribute if it is set and is left as it is otherwise, in text, in quoted text of any depth, in the attributes of inline elements and in the locations of links and images; counters in between take their values in reading order; content in which a set reference was replaced is parsed again for the remaining substitutions, and nothing else changes.", "quantifier": "every inline content and attribute state with string values", "why_tests_cant": "All texts.", "anchors": ["pkg/parser/document_processing_apply_substitutions.go:replaceAttributeRefsInSlice", "pkg/parser/document_processing_apply_substitutions.go:valueForAttributeRef"]}
{"id": "C50", "title": "Predefined attributes and symbols have renderings", "statement": "Every predefined attribute recognised by the parser and every symbol and special character produced by the parser has a rendering, so that rendering never fails on them.", "quantifier": "every predefined attribute, symbol and special character", "why_tests_cant": "Two tables in distinct packages must agree.", "anchors": ["pkg/types/predefined_attributes.go", "pkg/renderer/sgml/predefined_attribute.go", "pkg/renderer/sgml/symbol.go:renderSymbol", "pkg/renderer/sgml/special_character.go:renderSpecialCharacter"]}
{"id": "C51", "title": "Table of contents links hit their headings", "statement": "The headings carry the lower-cased, HTML-escaped ids of the sections in order; the links of the table of contents target the lower-cased ids of sections. So every link has a heading when ids have no HTML special characters, and headings are distinct exactly when the ids stay different in lower case (sections with titles). Not so for the first section of a manpage.", "quantifier": "every document (article), every lower-casing function", "why_tests_cant": "Ids are processed by different functions on the two sides.", "anchors": ["pkg/renderer/sgml/table_of_contents.go", "pkg/renderer/sgml/section.go:renderSection", "pkg/renderer/sgml/element_id.go:renderElementID", "pkg/renderer/sgml/html5/section.go"]}
{"id": "C52", "title": "Configuration settings compose", "statement": "Settings given to NewConfiguration apply left to right, the last one winning, and settings of different fields commute.", "quantifier": "every list of settings", "why_tests_cant": "All lists.", "anchors": ["pkg/configuration/configuration.go:NewConfiguration", "pkg/configuration/configuration.go:Setting"]}
{"id": "C53", "title": "Splitting inline content into lines loses nothing", "statement": "Splitting the content of a source block into lines keeps all text and elements in order (joining the lines with newlines gives the content back up to one trailing newline), no line contains a newline, and inserting an element at a position keeps all the others in order.", "quantifier": "every list of inline elements, every position", "why_tests_cant": "it must hold for every content and every mixture of strings with newlines and elements; tests cover a few listings", "anchors": ["pkg/types/types_utils.go: SplitElementsPerLine, InsertAt", "pkg/renderer/sgml/delimited_block_source.go"]}
{"id": "C54", "title": "Rendering terminates", "statement": "If the titles of a document do not refer to one another in a cycle, rendering any element needs only a bounded depth of the call stack, whatever the state of the context: the stack is never exhausted and a deeper stack gives the same result; a title that refers to itself exhausts every stack.", "quantifier": "all elements, tables of titles with acyclic references, rendering states", "why_tests_cant": "the recursion through cross references depends on the whole table of titles; no finite set of documents covers all reference graphs", "anchors": ["pkg/renderer/sgml/cross_reference.go:renderInternalCrossReference", "pkg/renderer/sgml/elements.go:renderElement"]}
{"id": "C55", "title": "The output is well-formed markup", "statement": "For every document whose text and attribute values contain no raw '<' (and, for values, no quote or line feed) and that avoids the listed exceptions, the output of the HTML5 and XHTML5 backends, with or without header and footer, is well-formed: every tag opened is closed in the right order, attribute values are quoted, and text contains no '<'. Exceptions, all of which do give malformed output: a horizontal labeled list whose last term has no description, roles of a literal block, the predefined attribute lt, a button without label, an empty menu, markup in the title of an inline image, icons shown as images, quotes inside attribute values.", "quantifier": "all documents of any size and nesting, both backends, all configurations and rendering states", "why_tests_cant": "it ranges over every nesting of blocks and inline elements and every combination of optional attributes in some 90 templates", "anchors": ["pkg/renderer/sgml/sgml.go:Render", "pkg/renderer/sgml/elements.go:renderElement", "pkg/renderer/sgml/html5/html5.go:templates", "pkg/renderer/sgml/xhtml5/xhtml5.go"]}
{"id": "C56", "title": "Gathering the lines of a list keeps everything, in its place", "statement": "When the lines of a list (a first item, then items, block attributes, `+` continuations, comments and lines of text, as the grammar reads them) are gathered into list items: (a) it succeeds exactly when no line of text or comment directly follows an attached block other than a paragraph, and fails otherwise; (b) every item, line, comment and attached block is kept once, in source order, and the result is a valid input of the arrangement into nested lists (C24); (c) the lines after an item's marker line, or after the first line of an attached paragraph, become one paragraph with it, one line each; (d) block attributes go, merged, to the item directly after them and to no other. Exceptions, proved: any line directly after an attached block fails the whole fragment; a comment inside the text of an item splits its paragraph in two.", "quantifier": "all sequences of list elements the grammar can produce, any length, any text", "why_tests_cant": "unbounded runs of items, lines, continuations and attributes in any order", "anchors": ["pkg/types/types.go:NewListElements", "pkg/types/types.go:ListContinuation.AddElement", "pkg/types/types.go:Paragraph.AddElement", "pkg/parser/parser.peg:ListElements ExtraListElement"]}
{"id": "C57", "title": "No text is lost in rendering", "statement": "Every word of the text of a document (title, section titles, paragraphs, block titles, list terms and items, table cells, quotations and their attribution, footnotes) is in the output, exactly as written, and the words are in the order of the document: whatever the document, the depth of nesting, the backend, with or without the surrounding page; and the words of the title are in the title of the metadata. Exceptions, spelled out in the specification and proved to be lost on concrete documents: the title of a paragraph that begins a list item or is inside a fenced, listing or verse block or a table cell, or of a passthrough paragraph or block; the title of an admonition paragraph without content; the header and footer of a table without rows; the work of a quotation whose author is the empty string; what follows the first paragraph of the NAME section of a manpage, and that whole section in a page without header.", "quantifier": "all documents, elements of every kind at any depth, attributes, configurations and both backends; all results of the external packages (syntax highlighter, macros)", "why_tests_cant": "the text is carried through some sixty templates and renderers that trim, escape and reorder; a loss shows only for some combination of element, position and attributes", "anchors": ["pkg/renderer/sgml/sgml.go:Render", "pkg/renderer/sgml/elements.go:renderElement", "pkg/renderer/sgml/html5/templates.go", "pkg/renderer/sgml/xhtml5/xhtml5.go"]}
{"id": "C58", "title": "The renderer invents no characters", "statement": "Every byte of the rendered output is either printable ASCII or a line feed, or a byte of the document (its text, its attributes, the configuration): a document written in a given set of bytes that has printable ASCII and line feeds renders into that set. The only exception is a NUL byte in an id or a style, written as U+FFFD.", "quantifier": "every document, every set of bytes, both backends, with or without the surrounding page", "why_tests_cant": "Ranges over all documents and all sets of bytes; one template or element that writes a control or non-ASCII byte in a rare case breaks it.", "anchors": ["pkg/renderer/sgml/sgml.go:Render", "pkg/renderer/sgml/html5/templates.go", "pkg/renderer/sgml/string.go"]}
{"id": "C59", "title": "Ids and links are in the output", "statement": "Every id, link target, image source, cross reference and footnote anchor that the document model holds (ids of sections, paragraphs, blocks, lists, tables, quoted text, index anchors; href of links; # targets of internal cross references; both anchors of each footnote) is in the output as a quoted attribute, and an internal cross reference to a section points at the id written on that section's heading. The elements for which it fails (ids of list items, fenced blocks, table cells, passthroughs, inline images, verse paragraphs, upper-case ids of non-sections) are each shown by a counterexample.", "quantifier": "every document of any size and nesting, every attribute map, both backends, with or without the surrounding page", "why_tests_cant": "Ranges over all documents: one element, nested anywhere, whose template drops the id, or one place where the anchor and the link to it are written differently, leaves a dangling link.", "anchors": ["pkg/renderer/sgml/sgml.go:Render", "pkg/renderer/sgml/section.go:renderSection", "pkg/renderer/sgml/cross_reference.go:renderInternalCrossReference", "pkg/renderer/sgml/footnote_reference.go:renderFootnoteReference", "pkg/renderer/sgml/link.go:renderLink", "pkg/renderer/sgml/html5/templates.go"]}
{"id": "C60", "title": "The table of contents is shown", "statement": "When a document has a table of contents and the attribute 'toc' is set without a value, the output holds, before the body, the heading of the table (the attribute 'toc-title', or 'Table of Contents'), then for every entry in order the section's number (when numbered) and the words of its title, and a link to the id written on that section's heading; with the value 'preamble' it is between the preamble and the rest. Any other placement makes the rendering fail; with 'preamble' and no preamble no table is shown (counterexamples).", "quantifier": "every document, every tree of entries, any titles (with any inline content), both backends, with or without the surrounding page, articles and manpages", "why_tests_cant": "Ranges over all documents and all trees of entries at any depth: one level at which the sub-entries, the numbers or the links are dropped or reordered breaks it.", "anchors": ["pkg/renderer/sgml/table_of_contents.go:prerenderTableOfContents", "pkg/renderer/sgml/table_of_contents.go:renderTableOfContents", "pkg/renderer/sgml/sgml.go:renderDocumentBody", "pkg/renderer/sgml/preamble.go:renderPreamble", "pkg/renderer/sgml/html5/table_of_contents.go"]}
{"id": "C61", "title": "Parsing always ends", "statement": "Whatever text is given to any entry point of the generated parser (a document, a raw line, inline content, an attribute value, a table's columns, line ranges, an included file's line...), and whatever the Go code embedded in the grammar returns, the parser stops after finitely many steps, with one outcome: it never loops and its recursion is never infinite.", "quantifier": "every text (any runes, any length), every entry point and every rule of the grammar, every behaviour of the embedded Go code", "why_tests_cant": "Pigeon accepts left recursion and loops over expressions that match nothing: one text that leads a loop through an empty match hangs the program, and no finite set of documents rules that out.", "anchors": ["pkg/parser/parser.go:parseExpr", "pkg/parser/parser.go:parseZeroOrMoreExpr", "pkg/parser/parser.peg", "pkg/parser/generate.go"]}
{"id": "C62", "title": "Inline content and included lines are always accepted, and read to their end", "statement": "Any non-empty inline content, any attribute value and any line of an included file is accepted by the parser and read to its last character, unless embedded Go code panics. For the entry points of raw lines, inline content, attribute values, delimited block contents, included lines, table columns, line ranges and tag ranges, a success always means that the whole text was read. This is not so of a whole document: a document made of one no-break space is refused (counterexample).", "quantifier": "every text, every behaviour of the embedded Go code", "why_tests_cant": "One character or combination of markers that no alternative takes would make the conversion of a whole document fail, or would silently drop the end of a paragraph.", "anchors": ["pkg/parser/parser.peg", "pkg/parser/parser.go:parseExpr", "pkg/parser/document_processing_apply_substitutions.go:parseWithSubstitutions", "pkg/parser/document_preprocessing.go:preprocess"]}
{"id": "C63", "title": "A document is cut into consecutive fragments", "statement": "Reading the fragments of any document ends; the fragments sent are not empty, each one starts where the previous one ended, the first one at 0; when the loop ends at the end of the input the last one ends there: no part of the document is skipped or read twice. The loop may also stop without an error before the end (counterexample: a block attribute followed by a line with a no-break space drops the rest of the document).", "quantifier": "every document, every behaviour of the embedded Go code", "why_tests_cant": "Ranges over all documents: a rule that matches without reading anything makes the loop endless, and one that stops early loses the end of the document.", "anchors": ["pkg/parser/document_processing_parse_fragments.go:ParseDocumentFragments", "pkg/parser/parser_ext.go:next", "pkg/parser/parser.peg"]}
{"id": "C64", "title": "Comparison operators of ifeval", "statement": "An ifeval directive that compares two integers is recognised with the operators ==, !=, < and >. It is recognised with <= and >= as well: this is refuted, the directive is then left as text.", "quantifier": "every behaviour of the embedded Go code", "why_tests_cant": "The order of the alternatives of an ordered choice hides some of them for every input: only reasoning over all inputs shows that an alternative can never be taken.", "anchors": ["pkg/parser/parser.peg", "pkg/parser/document_preprocessing.go:preprocess"]}
{"id": "C65", "title": "Delimited blocks are verbatim", "statement": "A line made of four or more of the characters = - . + _ * (or three or more back quotes), possibly followed by spaces and tabs, opens a delimited block of the corresponding kind. The block's lines are all the following lines, without their trailing spaces and tabs and without any interpretation, up to the first line made of exactly as many of the same character (again possibly followed by blanks), or up to the end of the text. The same holds for open blocks (two dashes on both ends), comment blocks (closed by four or more slashes) and Markdown code blocks (a language after the back quotes). Parsing goes on right after the closing line.", "quantifier": "every text, every number of delimiter characters, every line ending (LF, CR LF, CR, end of text), every state of the parser before the block, every behaviour of the other embedded Go code", "why_tests_cant": "Whether some line inside a block, among unboundedly many, is taken for a delimiter, a section or an attribute depends on the order of all the alternatives of the grammar and on the length kept in the global store.", "anchors": ["pkg/parser/parser.peg", "pkg/parser/parser_ext.go:setBlockDelimiterLength,matchBlockDelimiterLength", "pkg/types/types.go:NewDelimitedBlock,NewRawLine", "pkg/parser/parser.go"]}
{"id": "C66", "title": "Paragraphs and documents of blocks", "statement": "A text that is a sequence of blank lines, delimited blocks, paragraphs of plain lines, lists (C73), and single-line comments, thematic breaks and admonitions (C75) is parsed into exactly these elements, in order, and the parsing ends normally at the end of the text. A paragraph that starts with a letter or a digit (and is not a list item, an admonition, a block macro or a labeled item) keeps all its lines up to the next blank line, block delimiter or end of text.", "quantifier": "every such document, of any length, with any line endings; every initial state of the parser; every behaviour of the other embedded Go code", "why_tests_cant": "The claim covers unboundedly many lines and blocks, and every earlier alternative of every ordered choice must fail on each of them.", "anchors": ["pkg/parser/parser.peg", "pkg/parser/document_processing_parse_fragments.go:ParseDocumentFragments", "pkg/parser/parser_ext.go:next", "pkg/types/types.go:NewParagraph,NewRawLine"]}
{"id": "C67", "title": "Verbatim content is kept character by character", "statement": "Under substitutions without macros, quotes, replacements, attributes, post replacements and inline passthroughs, parsing a text as inline content succeeds, reads it to its end, records no error and yields exactly: one callout per `<n>` that is followed, after blanks, by the end of the line or another callout (if callouts are enabled), one special character per remaining <, > and & (if special characters are enabled), and the characters between them, in order, as one string per run. Without callouts the contents of the elements concatenate to the text. Hypotheses shown necessary by counterexamples: no backslash-apostrophe-letter (the backslash disappears), no number beyond int64 after `<` (the conversion fails).", "quantifier": "every text of any length, every set of such substitutions, every assignment of Unicode classes that agrees with ASCII", "why_tests_cant": "the grammar tries 16 alternatives at each position with arbitrary lookahead (callouts look ahead over any number of callouts); tests only try a few listings", "anchors": ["pkg/parser/parser.peg:NormalGroup", "pkg/parser/parser.peg:InlineText", "pkg/parser/parser.peg:Callout", "pkg/parser/parser.peg:SpecialCharacter", "pkg/types/types.go:NewInlineElements", "pkg/types/types.go:NewCallout", "pkg/types/types_utils.go:merge", "pkg/parser/parser_ext.go:trackElement"]}
{"id": "C68", "title": "Ordinary paragraph text is kept, with exactly the documented replacements", "statement": "With special characters, replacements and quotes enabled (and any other substitutions except callouts, in particular the normal substitutions of a paragraph, with any user macros), parsing a text made of words, blanks, line ends, ordinary punctuation, non-ASCII characters, isolated < > &, (C) (TM) (R) ... -> <- => <=, apostrophes, dashes, and words in single marks (*bold*, _italic_, `monospace`, #marked#) - in places where they do not begin another quote, a macro, a URL, an e-mail address, an attribute reference, a passthrough or an escape - succeeds, reads it to its end, records no error and yields exactly: one special character per < > &, one symbol per replacement, one quoted text per marked words, a typographic apostrophe between an ASCII letter or digit and a letter, a dash symbol for -- between an ASCII word and a word or an end of line, a spaced dash symbol that replaces one blank on each side, and the characters between them, in order, as one string per run. Refuted on the way: the typographic apostrophe depends on the last byte of the preceding word rather than its last letter (missing after an accented e, present after another), a dash directly after a final a with a grave accent is taken for a spaced one, and two blanks before a dash are both lost.", "quantifier": "every such text of any length, every set of substitutions with those three and without callouts, every list of user macros, every assignment of Unicode classes that agrees with ASCII", "why_tests_cant": "at each position 16 alternatives with arbitrary lookahead compete and the result depends on what precedes; tests try a few sentences", "anchors": ["pkg/parser/parser.peg:NormalGroup", "pkg/parser/parser.peg:InlineText", "pkg/parser/parser.peg:Symbol", "pkg/parser/parser.peg:Mdash", "pkg/parser/parser.peg:TypographicQuote", "pkg/parser/parser.peg:EmailAddress", "pkg/types/types.go:NewInlineElements", "pkg/types/types_utils.go:merge", "pkg/parser/parser_ext.go:trackElement", "pkg/parser/parser_ext.go:isPrecededByAlphanum", "pkg/parser/parser_ext.go:isPrecededBySpace", "pkg/parser/parser_ext.go:isInlineMacro"]}
{"id": "C69", "title": "From the text to the HTML: a whole document", "statement": "Converting a (preprocessed) text made of paragraphs of ordinary text (C68), listing, literal, fenced, language and pass blocks of verbatim text (C67), comment blocks, blank lines, lists (C73), single-line comments, thematic breaks, admonitions (C75), and example, sidebar, open and quote blocks whose lines are again such a text, to any depth, without header and footer (no wrapping) and with a configuration that sets none of doctype, unicode, options, hardbreaks, source-highlighter, icons and the five captions of admonitions (tip-caption, ...), succeeds and writes exactly, in the order of the text: for each paragraph <div class=\"paragraph\"><p>...</p></div> with its characters, &amp; &lt; &gt; for the special characters the documented entity for each symbol and the element (strong, em, code, mark) around each words in marks, for each verbatim block its frame with its text, the same entities and its callouts, for each pass block its text unchanged, for each compound block its frame around the HTML of its elements, for each list the nested lists of C73, for a thematic break and an admonition what C75 says, and nothing for comments and blank lines; each text without the line feeds at its ends; and the title is empty. Refuted on the way: a listing that contains < followed by a number that does not fit in an int vanishes from the page without an error.", "quantifier": "every such text of any length and any number of elements and any depth of nesting, every configuration that leaves those attributes unset (any other attributes, any user macros), every assignment of Unicode classes that agrees with ASCII", "why_tests_cant": "it composes ten stages over all texts; the tests compare the output on a finite set of documents", "anchors": ["libasciidoc.go:Convert", "pkg/parser/document_processing.go:ParseDocument", "pkg/parser/document_processing_parse_fragments.go:ParseDocumentFragments", "pkg/parser/document_processing_apply_substitutions.go:ApplySubstitutions", "pkg/parser/document_processing_arrange_lists.go:ArrangeLists", "pkg/parser/document_processing_filter_elements.go:FilterOut", "pkg/parser/document_processing_aggregate.go:Aggregate", "pkg/renderer/sgml/sgml.go:Render"]}
{"id": "C70", "title": "From the source to the HTML: conditional lines", "statement": "Whatever the source, made of lines that end with LF or CR LF, which are declarations (:name: or :name: value), resets (:!name: or :name!:), ifdef/ifndef directives on one line or opening a region closed by endif (regions nested to any depth), and lines that begin as no directive: preprocessing succeeds, reads no file, leaves the working directory and yields exactly the lines that are chosen, in order, joined with LF. A conditional line or region is kept if and only if its attribute is (ifdef) or is not (ifndef) given in the configuration or declared and not reset in the lines before; a region that is left out drops the regions within; directives themselves never appear. If these lines form a document of C69, converting the source writes exactly the HTML that C69 gives for it. Refuted on the way: a blank after the value makes a declaration ordinary text, and the attribute stays undeclared.", "quantifier": "every such source of any length and depth of regions, every configuration, every file system and working directory, every assignment of Unicode classes that agrees with ASCII", "why_tests_cant": "the choice of lines depends on the history of declarations and of open regions; the tests use a finite set of sources", "anchors": ["pkg/parser/document_preprocessing.go:Preprocess", "pkg/parser/document_preprocessing.go:preprocess", "pkg/parser/document_preprocessing.go:conditions", "pkg/parser/parser.peg:DocumentRawLine", "libasciidoc.go:Convert"]}
{"id": "C71", "title": "From the text to the HTML: sections", "statement": "Converting a (preprocessed) text made of the blocks of C69 and of section titles (two to six equal signs, blanks, and a title of words, blanks and plain punctuation, possibly followed by spaces), without wrapping and with a configuration that sets none of doctype, unicode, options, hardbreaks, source-highlighter, toc, idprefix and idseparator, succeeds and writes exactly: the blocks as in C69, each section as <div class=\"sectN\"> with its title in <hN+1 id=...> followed by its content (inside <div class=\"sectionbody\"> for level 1), where the content of a section goes on up to the next title of the same or of a higher rank; the id of a title is an underscore and its words (letters and digits, separated at blanks, hyphens and dots) joined by underscores, or the first of id_2, id_3... that no earlier title has; the title is shown without the spaces at its end. Every such text whose blocks are covered by C69 has such an HTML.", "quantifier": "every such text: any number of titles at any levels in any order (levels may be skipped), any titles, any repetition of titles, any configuration that leaves those eight attributes unset, every assignment of Unicode classes that agrees with ASCII, every function for strings.ToLower", "why_tests_cant": "nesting and ids depend on the whole sequence of titles before; the tests fix a few sequences", "anchors": ["libasciidoc.go:Convert", "pkg/parser/document_processing.go:ParseDocument", "pkg/parser/parser.peg", "pkg/parser/document_processing_aggregate.go:Aggregate", "pkg/types/types.go:ResolveID", "pkg/renderer/sgml/section.go:renderSection", "pkg/renderer/sgml/table_of_contents.go:prerenderTableOfContents"]}
{"id": "C72", "title": "From the text to the HTML: title, preamble and page", "statement": "Converting a (preprocessed) text that starts with a document title (one equal sign, blanks, a title as in C71, then an empty line or the end) followed by a text as in C71, with a configuration that sets none of the attributes of C71 nor authors, succeeds; the title of the returned metadata is that title without the spaces at its end; without header and footer, what is written is the HTML of C71, where what comes before the first section, if anything is shown there, is inside <div id=\"preamble\"><div class=\"sectionbody\"> (nothing is marked if there is no section); with header and footer, it is inside exactly one page: doctype, head with the meta tags, one link per stylesheet in order, <title> the title, <body class=\"article\">, the header with <h1> the title, <div id=\"content\"> and the footer with the date given, with empty tags closed by > for HTML and /> for XHTML; the attribute noheader leaves the header out, nofooter the footer; revnumber shows a version line in the footer, and description a meta tag (in HTML only). A text without title as in C71 is written in the same page, with the title Untitled and no header, and an empty title in the metadata.", "quantifier": "every such text, every configuration that leaves those attributes unset (any description, revision number, noheader, nofooter, stylesheets, date, wrapping or not), both backends, every assignment of Unicode classes that agrees with ASCII, every function for strings.ToLower", "why_tests_cant": "whether a preamble is marked depends on the whole sequence of elements and on which of them are shown; the tests fix a few documents and one stylesheet", "anchors": ["libasciidoc.go:Convert", "pkg/parser/parser.peg", "pkg/parser/document_processing_aggregate.go:Aggregate", "pkg/parser/document_processing_aggregate.go:insertPreamble", "pkg/types/types.go:NewDocumentHeader", "pkg/renderer/sgml/sgml.go:Render", "pkg/renderer/sgml/preamble.go:renderPreamble"]}
{"id": "C73", "title": "Lists: from the text to the HTML", "statement": "A text that starts with an item of an unordered list (-, * to *****) or of an ordered list (. to ....., a number and a point, a letter and a point, a roman number and a parenthesis) is read as one list: its items with their marks, each with all its lines up to the next item, a blank line, a block delimiter or the end; items may be separated by blank lines, and may be indented; the parsing goes on after the last item. Converted without header and footer, each item becomes <li><p>...</p>: an item whose mark is that of an open list goes on in the innermost such list, after closing the lists inside it; otherwise it opens a list inside the current item (div.ulist/ul, or div.olist/ol with the class and type of its style; directly inside an unordered list, an unordered item gets the bullet after that of the outer list); all open lists are closed at the end; each line of a text is stripped of the blanks in front of it. So the HTML is well formed: every list and item is closed inside what it was opened in, and every text is written once, in the order of the source. Refuted on the way: a number of several digits (12.) or a roman number of several letters (ii)) is the mark of an item after another item, but does not start a list.", "quantifier": "every such text, with any number of items and lines, any sequence of marks, any line endings, any depth of nesting; every state of the parser without errors; every configuration that leaves the attributes of C69 unset; every assignment of Unicode classes that agrees with ASCII", "why_tests_cant": "the nesting depends on the whole sequence of marks, and every earlier alternative of the grammar must fail on every line; the tests have a few dozen lists", "anchors": ["libasciidoc.go:Convert", "pkg/parser/parser.peg", "pkg/parser/document_processing_arrange_lists.go:ArrangeLists", "pkg/types/types.go:NewListElements", "pkg/types/types.go:NewUnorderedListElement", "pkg/types/types.go:NewOrderedListElement", "pkg/renderer/sgml/list.go:renderList", "pkg/renderer/sgml/elements.go:renderListElements"]}
{"id": "C74", "title": "Bold, italic, monospace and marked words: from the text to the HTML", "statement": "A paragraph whose first word is plain and whose other chunks, each after one blank, are either a plain word or words between two equal marks (* _ ` #) - letters, digits and blanks inside, the first character a letter or digit and the last one an ASCII letter or digit - each maybe followed by one of , . ; ! ?, is converted to one HTML paragraph with exactly the same words, blanks and punctuation, in which the marks have become <strong>, <em>, <code> and <mark> elements around exactly their words; no mark is left and nothing is lost, swapped or nested. Refuted on the way: the same words are not quoted when the last byte of their last letter is a white space (a final a with a grave accent), nor when the opening mark directly follows one of ! , ; }.", "quantifier": "every such sentence, with any number of chunks and words of any length and any letters; every configuration that leaves the attributes of C69 unset; every assignment of Unicode classes that agrees with ASCII", "why_tests_cant": "the sentences are unbounded, and whether a mark opens or closes a quote depends on a byte tracked across backtracking in the grammar; tests show a handful of literals", "anchors": ["pkg/parser/parser.peg", "pkg/parser/parser_ext.go:isSingleQuotedTextAllowed", "pkg/types/types.go:NewQuotedText", "pkg/renderer/sgml/quoted_text.go:renderQuotedText", "pkg/renderer/sgml/html5/quoted_text.go"]}
{"id": "C75", "title": "Comments, thematic breaks and admonitions: from the text to the HTML", "statement": "A line that starts with two slashes (not four, without two colons in it), at the start of a text or between its elements, adds nothing: the text converts to the same HTML as without that line. A line that is one of ''' *** * * * --- - - - ___ _ _ _ (and blanks), followed by an empty line or the end, becomes <hr> (<hr/> in XHTML), and the rest of the text is converted as if it stood alone. A paragraph of ordinary text that starts with TIP: NOTE: IMPORTANT: WARNING: or CAUTION: becomes the admonition table with that class and caption and exactly the characters, symbols and words in marks of its lines (not trimmed of line feeds at its end). Refuted on the way: without an empty line after it, a thematic break is not recognised and is shown as text.", "quantifier": "every such line and paragraph, of any length and with any line endings, followed by every document of C69; every configuration that leaves the attributes of C69 unset; HTML and XHTML; every assignment of Unicode classes that agrees with ASCII", "why_tests_cant": "every earlier alternative of the grammar (lists, delimited blocks, titles, attribute declarations, labeled items) must fail on every such line, whatever its text; the tests have a few literals", "anchors": ["libasciidoc.go:Convert", "pkg/parser/parser.peg", "pkg/types/types.go:NewSinglelineComment", "pkg/types/types.go:NewThematicBreak", "pkg/parser/document_processing_filter_elements.go:FilterOut", "pkg/renderer/sgml/delimited_block_admonition.go:renderAdmonitionParagraph", "pkg/renderer/sgml/icon.go:renderIcon", "pkg/types/types.go:NewParagraph"]}
{"id": "C76", "title": "Id, roles and title are written on the frame of the block", "statement": "Rendering a listing, fenced, open, sidebar, example, quote, Markdown quote or verse block, a source block (without highlighter), an admonition block, a paragraph (outside of lists and verbatim blocks) or a list gives exactly a <div> whose id is the id of the block with HTML characters escaped (no id attribute when it has none), whose class is the class of the kind followed by the roles in order, then the title line (rendered, and none when there is no title; inside the content for a sidebar; after the label for an example), the content, and for quotes and verses the attribution line (with <br/> in XHTML). Line feeds around verbatim content are dropped. The frame of a list with id, roles and title holds the same content as the list without them. The title is rendered after the content, and the state of the renderer is otherwise the one left by content and title. Exceptions found: the roles of a literal block are written outside of its class, and those of a quote or verse paragraph are dropped.", "quantifier": "every kind of block, id, list of roles, title (text or elements), attribution, content, renderer state and nesting depth; HTML5 and XHTML5", "why_tests_cant": "ids, roles and titles are arbitrary strings, present or absent in any combination on every kind of block, around arbitrary content", "anchors": ["pkg/renderer/sgml/element_id.go: renderElementID", "pkg/renderer/sgml/element_role.go: renderElementRoles", "pkg/renderer/sgml/paragraph.go: renderRegularParagraph, renderElementTitle", "pkg/renderer/sgml/delimited_block.go: renderDelimitedBlock", "pkg/renderer/sgml/list.go: renderOrderedList, renderUnorderedList, renderLabeledList, renderCalloutList"]}
{"id": "C77", "title": "Inline elements and images: exactly their HTML", "statement": "Rendering bold, italic, marked, monospace, sub- and superscript text gives the tag of its kind around its rendered content, with the escaped id and the roles as class (marked text with roles becomes a span); a link gives an anchor with id, escaped target, roles, window (and rel=noopener for _blank or the option) around its text, a link without text its own target with class bare; an image (inline or block) gives an img with its source, alternative text, width and height, inside a link when it has one, in a span or frame whose classes are float, alignment and roles, with label and title below for a block and as title attribute inline; a menu of any length gives its first item, the items below and the last one; a footnote gives the link to its note where it is written, where it is used again, and a mark where it is unknown; a cross reference gives a link to the lower-case id with its label, the title referred to, or the id in brackets; a button its label. Empty attributes are not written. Exceptions found: the class of a mail link without text and with roles begins with a blank; the id of a link is not escaped.", "quantifier": "every content, id, list of roles, target, text, size, title, menu path, footnote number and name, label, renderer state and nesting depth; HTML5 and XHTML5", "why_tests_cant": "every attribute may be present or absent independently with arbitrary text, and menus and contents have any length", "anchors": ["pkg/renderer/sgml/quoted_text.go: renderQuotedText", "pkg/renderer/sgml/link.go: renderLink", "pkg/renderer/sgml/image.go: renderImageBlock, renderInlineImage", "pkg/renderer/sgml/footnote_reference.go: renderFootnoteReference", "pkg/renderer/sgml/cross_reference.go: renderInternalCrossReference"]}
{"id": "C78", "title": "Labeled lists, lists of callouts and items with check marks: exactly their HTML", "statement": "Rendering a labeled list gives, in order and once each, its terms and contents: as a definition list (a term without content has no <dd>), as questions and answers when its style is qanda, as a two-column table when its style is horizontal (terms without content share the row of the next content, separated by line breaks), in a frame with the escaped id, the class of the layout, the roles, and the title above. A list of callouts gives one <li> per callout in order, in such a frame. The paragraph of an item is one <p> with the mark of its check style (none, checked, unchecked, and the two interactive ones) before its lines, each without the white space around it. Exception found: a horizontal list whose last term has no content leaves its row and cell open.", "quantifier": "every number of terms and callouts, every term, content, id, list of roles, title, renderer state and nesting depth; HTML5 and XHTML5", "why_tests_cant": "lists have any number of entries, each with or without content, and the layout of one row depends on the entry before it", "anchors": ["pkg/renderer/sgml/list.go: renderLabeledList, renderLabeledListItem, getLabeledListTmpl, renderCalloutList, renderCalloutListElement", "pkg/renderer/sgml/paragraph.go: renderEmbeddedParagraph, renderCheckStyle"]}
{"id": "C79", "title": "Tables: exactly their HTML", "statement": "Rendering a table gives one <table> whose classes are its frame and grid (all by default), its stripes, how it fits (stretch at full width or without width, fit-content with the autowidth option, none otherwise), float and roles, with the escaped id and the width as style when it is between 1 and 99 percent; the caption, label first; one <col> per column with its width; the header row, every row of the body and the footer row, each cell once, from left to right, with the alignment of its column, as <th> in the header and in heading columns and as <td> elsewhere; inside a cell of the body each paragraph is a <p class=tableblock> with its check mark and any other block is a content division. Exception found: a table that has a header or a footer but no rows is written empty.", "quantifier": "every number of rows, columns and cells, every cell content (any blocks), alignments, widths, styles, id, roles, title, own caption, frame, grid, stripes, float, width from 1 to 100 percent with or without sign, renderer state and nesting depth; HTML5 and XHTML5", "why_tests_cant": "tables have any number of rows and columns, every cell has arbitrary blocks, and the classes are optional independently of each other", "anchors": ["pkg/renderer/sgml/table.go: renderTable, renderTableHeader, renderTableHeaderCell, renderTableFooter, renderTableFooterCell, renderTableBody, renderTableRow, renderTableCell, renderTableCellBlock", "pkg/renderer/sgml/html5/table.go: tableTmpl"]}
{"id": "C80", "title": "Sections, preambles, icons and admonitions with icons: exactly their HTML", "statement": "Rendering a section gives one division with class sect<level> and its roles, that contains the heading <h(level+1)> with the lower-case escaped id, the number of the section if it has one and the stripped title, and then the rendered content, which is in a division of its own exactly at level 1; a preamble is its content, in the division of the preamble exactly when the document has a header; an icon gives, in a span with its id and inside its link, its text in brackets, a font icon or an image, as the icons attribute of the document says, with size, rotation, flip, title, width and height; an admonition block gives its frame with the icon (caption, font icon or image) beside title and content. Exceptions found: an icon image with an empty text is not well-formed HTML (a stray quote); the roles of an icon are written as the list is printed by Go, in brackets.", "quantifier": "every level, id, list of roles, number, title, content, icon name and attributes, kind of admonition, kind of icons, renderer state and nesting depth; HTML5 and XHTML5", "why_tests_cant": "content and attributes are arbitrary and optional independently of each other, in three ways to show icons", "anchors": ["pkg/renderer/sgml/section.go: renderSection, renderSectionTitle", "pkg/renderer/sgml/preamble.go: renderPreamble", "pkg/renderer/sgml/icon.go: renderInlineIcon, renderIcon", "pkg/renderer/sgml/delimited_block_admonition.go: renderAdmonitionBlock", "pkg/renderer/sgml/html5/icon.go: iconImageTmpl"]}
{"id": "C81", "title": "Documents with title, authors, revision and footnotes: exactly their HTML", "statement": "Rendering a document with a header, without table of contents, gives its rendered elements followed by its footnotes, in order and once each, every one in one line with its number and the link back to where it is written; no division of footnotes when there are none. With header and footer this is the content of the page: the head with description (HTML5 only), names of the authors, one link per style sheet in order and the title that is also returned as metadata; the body with the id and the roles of the header; the title; author, author_2, ... with their emails, each on a line of its own, up to the first number that is not defined; number (with label), date and remark of the revision; the content; and the last lines with revision and date, unless noheader or nofooter is set.", "quantifier": "every title, list of authors, revision, list of body elements and of footnotes, id, roles, style sheets, attributes, renderer state and nesting depth; HTML5 and XHTML5, full page or only the content", "why_tests_cant": "any number of authors, elements, footnotes and style sheets, with optional parts that are independent of each other", "anchors": ["pkg/renderer/sgml/sgml.go: renderDocumentHeader, renderDocumentBody", "pkg/renderer/sgml/document_details.go: renderDocumentDetails, renderDocumentAuthorsDetails", "pkg/renderer/sgml/footnote_reference.go: renderFootnotes, renderFootnoteElement", "pkg/renderer/sgml/html5/article.go: articleTmpl"]}
