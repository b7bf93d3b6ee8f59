(** The templates of the HTML and XHTML renderers, copied verbatim (generated by tools/gen_templates.py from
    pkg/renderer/sgml/html5/*.go and pkg/renderer/sgml/xhtml5/*.go; the fields are those of sgml.Templates,
    pkg/renderer/sgml/templates.go:5-81). *)
From Verif Require Import GoBase.

Inductive tname :=
| TAdmonitionBlock
| TAdmonitionParagraph
| TArticle
| TArticleHeader
| TBlockImage
| TBoldText
| TCalloutList
| TCalloutListElement
| TCalloutRef
| TDocumentDetails
| TDocumentAuthorDetails
| TEmbeddedParagraph
| TExternalCrossReference
| TExampleBlock
| TFencedBlock
| TFootnote
| TFootnoteElement
| TFootnoteRef
| TFootnotes
| TIconFont
| TIconImage
| TIconText
| TInlineButton
| TInlineIcon
| TInlineImage
| TInlineMenu
| TInternalCrossReference
| TInvalidFootnote
| TItalicText
| TLabeledList
| TLabeledListElement
| TLabeledListHorizontal
| TLabeledListHorizontalElement
| TLineBreak
| TLink
| TListingBlock
| TLiteralBlock
| TManpageHeader
| TManpageNameParagraph
| TMarkdownQuoteBlock
| TMarkedText
| TMonospaceText
| TOpenBlock
| TOrderedList
| TOrderedListElement
| TPassthroughBlock
| TParagraph
| TPreamble
| TQAndAList
| TQAndAListElement
| TQuoteBlock
| TQuoteParagraph
| TSectionContent
| TSectionTitle
| TSidebarBlock
| TSourceBlock
| TSubscriptText
| TSuperscriptText
| TTable
| TTableBody
| TTableCell
| TTableCellBlock
| TTableHeader
| TTableHeaderCell
| TTableFooter
| TTableFooterCell
| TTableRow
| TThematicBreak
| TTocRoot
| TTocEntry
| TTocSection
| TUnorderedList
| TUnorderedListElement
| TVerseBlock
| TVerseParagraph.

(** html5/delimited_block_admonition_tmpl.go:4-12 admonitionBlockTmpl *)
Definition html5_AdmonitionBlock : string :=
"<div {{ if .ID }}id=""{{ .ID}}"" {{ end }}class=""admonitionblock {{ .Kind }}{{ if .Roles }} {{ .Roles }}{{ end }}"">
<table>
<tr>
<td class=""icon"">
{{ .Icon }}
</td>
<td class=""content"">
{{ if .Title }}<div class=""title"">{{ .Title }}</div>
{{ end }}{{ .Content }}</td>
</tr>
</table>
</div>
".

(** html5/paragraph.go:10-19 admonitionParagraphTmpl *)
Definition html5_AdmonitionParagraph : string :=
"{{ if .Content }}<div {{ if .ID }}id=""{{ .ID }}"" {{ end }}class=""admonitionblock {{ .Kind }}{{ if .Roles }} {{ .Roles }}{{ end }}"">
<table>
<tr>
<td class=""icon"">
{{ if .Icon }}{{ .Icon }}{{ end }}
</td>
<td class=""content"">
{{ if .Title }}<div class=""title"">{{ .Title }}</div>
{{ end }}{{ .Content }}
</td>
</tr>
</table>
</div>
{{ end }}".

(** html5/article.go:4-27 articleTmpl *)
Definition html5_Article : string :=
"<!DOCTYPE html>
<html lang=""en"">
<head>
<meta charset=""UTF-8"">
<meta http-equiv=""X-UA-Compatible"" content=""IE=edge"">
<meta name=""viewport"" content=""width=device-width, initial-scale=1.0"">
{{ if .Generator }}<meta name=""generator"" content=""{{ .Generator }}"">
{{ end }}{{ if .Description }}<meta name=""description"" content=""{{ .Description }}"">
{{ end }}{{ if .Authors }}<meta name=""author"" content=""{{ .Authors }}"">
{{ end }}{{ range $css := .CSS }}<link type=""text/css"" rel=""stylesheet"" href=""{{ $css }}"">
{{ end }}<title>{{ .Title }}</title>
</head>
<body{{ if .ID }} id=""{{ .ID }}""{{ end }} class=""{{ .Doctype }}{{ if .Roles }} {{ .Roles }}{{ end }}"">
{{ if .IncludeHTMLBodyHeader }}{{ .Header }}{{ end }}<div id=""content"">
{{ .Content }}</div>
{{ if .IncludeHTMLBodyFooter }}<div id=""footer"">
<div id=""footer-text"">
{{ if .RevNumber }}Version {{ .RevNumber }}<br>
{{ end }}Last updated {{ .LastUpdated }}
</div>
</div>
{{ end }}</body>
</html>
".

(** html5/article.go:29-32 articleHeaderTmpl *)
Definition html5_ArticleHeader : string :=
"<div id=""header"">
<h1>{{ .Header }}</h1>
{{ if.Details }}{{ .Details }}{{ end }}</div>
".

(** html5/image.go:4-11 blockImageTmpl *)
Definition html5_BlockImage : string :=
"<div{{ if .ID }} id=""{{ .ID }}""{{ end }} class=""imageblock{{ if .Roles }} {{ .Roles }}{{ end }}"">
<div class=""content"">
{{ if ne .Href """" }}<a class=""image"" href=""{{ .Href }}"">{{ end }}<img src=""{{ .Src }}"" alt=""{{ .Alt }}""{{ if .Width }} width=""{{ .Width }}""{{ end }}{{ if .Height }} height=""{{ .Height }}""{{ end }}>{{ if ne .Href """" }}</a>{{ end }}
</div>{{ if .Title }}
<div class=""title"">{{ .Caption }}{{ .Title }}</div>
{{ else }}
{{ end }}</div>
".

(** html5/quoted_text.go:4-4 boldTextTmpl *)
Definition html5_BoldText : string :=
"<strong{{ if .ID }} id=""{{ .ID }}""{{ end }}{{ if .Roles }} class=""{{ .Roles }}""{{ end }}>{{ .Content }}</strong>".

(** html5/callout_list.go:5-11 calloutListTmpl *)
Definition html5_CalloutList : string :=
"<div{{ if .ID }} id=""{{ .ID }}""{{ end }} class=""colist arabic{{ if .Roles }} {{ .Roles }}{{ end}}"">
{{ if .Title }}<div class=""title"">{{ .Title }}</div>
{{ end }}<ol>
{{ .Content }}</ol>
</div>
".

(** html5/callout_list.go:14-14 calloutListElementTmpl *)
Definition html5_CalloutListElement : string :=
"<li>
{{ .Content }}</li>
".

(** html5/callout_list.go:17-17 calloutRefTmpl *)
Definition html5_CalloutRef : string :=
"<b class=""conum"">({{ .Ref }})</b>".

(** html5/document_details.go:4-10 documentDetailsTmpl *)
Definition html5_DocumentDetails : string :=
"<div class=""details"">{{ if .Authors }}
{{ .Authors }}{{ end }}{{ if .RevNumber }}
<span id=""revnumber"">{{ if .RevLabel }}{{ .RevLabel }} {{ end }}{{ .RevNumber }}{{ if .RevDate }},{{ end }}</span>{{ end }}{{ if .RevDate }}
<span id=""revdate"">{{ .RevDate }}</span>{{ end }}{{ if .RevRemark }}
<br><span id=""revremark"">{{ .RevRemark }}</span>{{ end }}
</div>
".

(** html5/document_details.go:12-13 documentAuthorDetailsTmpl *)
Definition html5_DocumentAuthorDetails : string :=
"{{ if .Name }}<span id=""author{{ .Index }}"" class=""author"">{{ .Name }}</span><br>{{ end }}{{ if .Email }}
<span id=""email{{ .Index }}"" class=""email""><a href=""mailto:{{ .Email }}"">{{ .Email }}</a></span><br>{{ end }}".

(** html5/paragraph.go:21-21 embeddedParagraphTmpl *)
Definition html5_EmbeddedParagraph : string :=
"<p{{ if .Class }} class=""{{ .Class }}""{{ end }}>{{ .CheckStyle }}{{ .Content }}</p>
".

(** html5/cross_reference.go:5-5 externalCrossReferenceTmpl *)
Definition html5_ExternalCrossReference : string :=
"<a href=""{{ .Href }}"">{{ .Label }}</a>".

(** html5/delimited_block_example_tmpl.go:4-10 exampleBlockTmpl *)
Definition html5_ExampleBlock : string :=
"<div {{ if .ID }}id=""{{ .ID }}"" {{ end }}class=""exampleblock{{ if .Roles }} {{ .Roles }}{{ end }}"">
{{ if .Title }}<div class=""title"">{{ .Caption }}{{ .Title }}</div>
{{ end }}<div class=""content"">
{{ .Content }}</div>
</div>
".

(** html5/delimited_block_fenced_tmpl.go:4-10 fencedBlockTmpl *)
Definition html5_FencedBlock : string :=
"<div {{ if .ID }}id=""{{ .ID }}"" {{ end }}class=""listingblock{{ if .Roles }} {{ .Roles }}{{ end }}"">
{{ if .Title }}<div class=""title"">{{ .Title }}</div>
{{ end }}<div class=""content"">
<pre class=""highlight""><code>{{ .Content }}</code></pre>
</div>
</div>
".

(** html5/footnote_reference.go:4-4 footnoteTmpl *)
Definition html5_Footnote : string :=
"<sup class=""footnote""{{ if .Ref }} id=""_footnote_{{ .Ref }}""{{ end }}>[<a id=""_footnoteref_{{ .ID }}"" class=""footnote"" href=""#_footnotedef_{{ .ID }}"" title=""View footnote."">{{ .ID }}</a>]</sup>".

(** html5/footnote_reference.go:10-12 footnoteElementTmpl *)
Definition html5_FootnoteElement : string :=
"<div class=""footnote"" id=""_footnotedef_{{ .ID }}"">
<a href=""#_footnoteref_{{ .ID }}"">{{ .ID }}</a>. {{ .Content }}
</div>
".

(** html5/footnote_reference.go:5-5 footnoteRefTmpl *)
Definition html5_FootnoteRef : string :=
"<sup class=""footnoteref"">[<a class=""footnote"" href=""#_footnotedef_{{ .ID }}"" title=""View footnote."">{{ .ID }}</a>]</sup>".

(** html5/footnote_reference.go:7-7 footnotesTmpl *)
Definition html5_Footnotes : string :=
"<div id=""footnotes"">
<hr>
{{ .Content }}</div>
".

(** html5/icon.go:25-30 iconFontTmpl *)
Definition html5_IconFont : string :=
"<i class=""fa{{ if .Admonition }} icon-{{ .Class }}{{ else }} fa-{{ .Class }}{{ end }}{{ if .Size }} fa-{{ .Size }}{{ end }}{{ if .Rotate }} fa-rotate-{{ .Rotate }}{{ end }}{{ if .Flip }} fa-flip-{{ .Flip }}{{ end }}""{{ if .Title }} title=""{{ .Title }}""{{ end }}></i>".

(** html5/icon.go:14-23 iconImageTmpl *)
Definition html5_IconImage : string :=
"<img src=""{{ .Src }}""{{ if .Alt }} alt=""{{ .Alt }}{{ end }}""{{ if .Width }} width=""{{ .Width }}""{{ end }}{{ if .Height }} height=""{{ .Height }}""{{ end }}{{ if .Title }} title=""{{ .Title }}""{{ end }}{{ if or .Size .Rotate .Flip }} class=""{{ if .Size }}fa-{{ .Size }}{{ end }}{{ if .Rotate }}{{ if .Size }} {{ end }}fa-rotate-{{ .Rotate }}{{ end }}{{ if .Flip }}{{ if or .Size .Rotate }} {{ end }}fa-flip-{{ .Flip }}{{ end }}""{{ end }}>".

(** html5/icon.go:32-32 iconTextTmpl *)
Definition html5_IconText : string :=
"{{ if .Admonition }}<div class=""title"">{{ .Alt }}</div>{{ else }}[{{ .Alt }}]{{ end }}".

(** html5/inline_button.go:5-5 inlineButtonTmpl *)
Definition html5_InlineButton : string :=
"<b class=""button"">{{ . }}</b>".

(** html5/icon.go:8-12 inlineIconTmpl *)
Definition html5_InlineIcon : string :=
"<span {{ if .ID }}id=""{{ .ID }}"" {{ end}}class=""icon{{ if .Role }} {{ .Role }}{{ end }}"">{{ if .Link }}<a class=""image"" href=""{{ .Link }}""{{ if .Window }} target=""{{ .Window }}""{{ end }}>{{ end }}{{ .Icon }}{{ if .Link }}</a>{{ end }}</span>".

(** html5/image.go:12-12 inlineImageTmpl *)
Definition html5_InlineImage : string :=
"<span class=""image{{ if .Roles }} {{ .Roles }}{{ end }}"">{{ if ne .Href """" }}<a class=""image"" href=""{{ .Href }}"">{{ end }}<img src=""{{ .Src }}"" alt=""{{ .Alt }}""{{ if .Width }} width=""{{ .Width }}""{{ end }}{{ if .Height }} height=""{{ .Height }}""{{ end }}{{ if .Title }} title=""{{ .Title }}""{{ end }}>{{ if ne .Href """" }}</a>{{ end }}</span>".

(** html5/inline_menu.go:5-20 inlineMenuTmpl *)
Definition html5_InlineMenu : string :=
"{{ if len .Path | eq 1 }}<b class=""menuref"">{{ index .Path 0 }}</b>{{ else }}<span class=""menuseq"">{{ with $path := .Path }}{{ range $index, $element := $path }}{{ if eq $index 0 }}<b class=""menu"">{{ $element }}</b>{{ else if lastInStrings $path $index }}&#160;<b class=""caret"">&#8250;</b> <b class=""menuitem"">{{ $element }}</b>{{ else }}&#160;<b class=""caret"">&#8250;</b> <b class=""submenu"">{{ $element }}</b>{{ end }}{{ end }}</span>{{ end }}{{ end }}".

(** html5/cross_reference.go:4-4 internalCrossReferenceTmpl *)
Definition html5_InternalCrossReference : string :=
"<a href=""#{{ toLower .Href }}"">{{ .Label }}</a>".

(** html5/footnote_reference.go:6-6 invalidFootnoteTmpl *)
Definition html5_InvalidFootnote : string :=
"<sup class=""footnoteref red"" title=""Unresolved footnote reference."">[{{ .Ref }}]</sup>".

(** html5/quoted_text.go:5-5 italicTextTmpl *)
Definition html5_ItalicText : string :=
"<em{{ if .ID }} id=""{{ .ID }}""{{ end }}{{ if .Roles }} class=""{{ .Roles }}""{{ end }}>{{ .Content }}</em>".

(** html5/labeled_list.go:4-8 labeledListTmpl *)
Definition html5_LabeledList : string :=
"<div{{ if .ID }} id=""{{ .ID }}""{{ end }} class=""dlist{{ if .Roles }} {{ .Roles }}{{ end }}"">
{{ if .Title }}<div class=""title"">{{ .Title }}</div>
{{ end }}<dl>
{{ .Content }}</dl>
</div>
".

(** html5/labeled_list.go:10-11 labeledListElementTmpl *)
Definition html5_LabeledListElement : string :=
"<dt class=""hdlist1"">{{ .Term }}</dt>
{{ if .Content }}<dd>
{{ .Content }}</dd>
{{ end }}".

(** html5/labeled_list.go:13-17 labeledListHorizontalTmpl *)
Definition html5_LabeledListHorizontal : string :=
"<div{{ if .ID }} id=""{{ .ID }}""{{ end }} class=""hdlist{{ if .Roles }} {{ .Roles }}{{ end }}"">
{{ if .Title }}<div class=""title"">{{ .Title }}</div>
{{ end }}<table>
{{ .Content }}</table>
</div>
".

(** html5/labeled_list.go:20-23 labeledListHorizontalElementTmpl *)
Definition html5_LabeledListHorizontalElement : string :=
"{{ if not .Continuation }}<tr>
<td class=""hdlist1"">
{{ else }}<br>
{{ end }}{{ .Term }}
{{ if .Content }}</td>
<td class=""hdlist2"">
{{ .Content }}</td>
</tr>
{{ end }}".

(** html5/blank_line.go:4-4 lineBreakTmpl *)
Definition html5_LineBreak : string :=
"<br>".

(** html5/link.go:4-4 linkTmpl *)
Definition html5_Link : string :=
"<a{{ if .ID }} id=""{{ .ID }}""{{ end }}{{ if .URL }} href=""{{ .URL }}""{{ end }}{{if .Class}} class=""{{ .Class }}""{{ end }}{{if .Target}} target=""{{ .Target }}""{{ end }}{{ if .NoOpener}} rel=""noopener""{{ end }}>{{ .Text }}</a>".

(** html5/delimited_block_listing_tmpl.go:4-10 listingBlockTmpl *)
Definition html5_ListingBlock : string :=
"<div {{ if .ID }}id=""{{ .ID }}"" {{ end }}class=""listingblock{{ if .Roles }} {{ .Roles }}{{ end }}"">
{{ if .Title }}<div class=""title"">{{ .Title }}</div>
{{ end }}<div class=""content"">
<pre>{{ .Content }}</pre>
</div>
</div>
".

(** html5/delimited_block_literal_tmpl.go:4-10 literalBlockTmpl *)
Definition html5_LiteralBlock : string :=
"<div {{ if .ID }}id=""{{ .ID }}"" {{ end }}class=""literalblock""{{ if .Roles }} {{ .Roles }}{{ end }}>
{{ if .Title }}<div class=""title"">{{ .Title }}</div>
{{ end }}<div class=""content"">
<pre>{{ .Content }}</pre>
</div>
</div>
".

(** html5/manpage.go:4-10 manpageHeaderTmpl *)
Definition html5_ManpageHeader : string :=
"{{ if.IncludeH1 }}<div id=""header"">
<h1>{{ .Header }} Manual Page</h1>
{{ end }}<h2 id=""_name"">{{ .Name }}</h2>
<div class=""sectionbody"">
{{ .Content }}</div>
{{ if .IncludeH1 }}</div>
{{ end }}".

(** html5/paragraph.go:39-39 manpageNameParagraphTmpl *)
Definition html5_ManpageNameParagraph : string :=
"<p>{{ .Content }}</p>
".

(** html5/delimited_block_markdown_quote_tmpl.go:4-16 markdownQuoteBlockTmpl *)
Definition html5_MarkdownQuoteBlock : string :=
"<div {{ if .ID }}id=""{{ .ID }}"" {{ end }}class=""quoteblock{{ if .Roles }} {{ .Roles }}{{ end }}"">
{{ if .Title }}<div class=""title"">{{ .Title }}</div>
{{ end }}<blockquote>
{{ if .Content }}<div class=""paragraph"">
<p>{{ .Content }}</p>
</div>
{{ end }}</blockquote>
{{ if .Attribution.First }}<div class=""attribution"">
&#8212; {{ .Attribution.First }}{{ if .Attribution.Second }}<br>
<cite>{{ .Attribution.Second }}</cite>{{ end }}
</div>
{{ end }}</div>
".

(** html5/quoted_text.go:9-9 markedTextTmpl *)
Definition html5_MarkedText : string :=
"{{ if .Roles }}<span{{ else }}<mark{{ end }}{{ if .ID }} id=""{{ .ID }}""{{ end }}{{ if .Roles }} class=""{{ .Roles }}""{{ end }}>{{ .Content }}{{ if .Roles }}</span>{{ else }}</mark>{{ end }}".

(** html5/quoted_text.go:6-6 monospaceTextTmpl *)
Definition html5_MonospaceText : string :=
"<code{{ if .ID }} id=""{{ .ID }}""{{ end }}{{ if .Roles }} class=""{{ .Roles }}""{{ end }}>{{ .Content }}</code>".

(** html5/delimited_block_open_tmpl.go:4-10 openBlockTmpl *)
Definition html5_OpenBlock : string :=
"<div {{ if .ID }}id=""{{ .ID }}"" {{ end }}class=""openblock{{ if .Roles }} {{ .Roles }}{{ end }}"">
{{ if .Title }}<div class=""title"">{{ .Title }}</div>
{{ end }}<div class=""content"">
{{ .Content }}</div>
</div>
".

(** html5/ordered_list.go:4-14 orderedListTmpl *)
Definition html5_OrderedList : string :=
"<div{{ if .ID }} id=""{{ .ID }}""{{ end }} class=""olist {{ .Style }}{{ if .Roles }} {{ .Roles }}{{ end }}"">
{{ if .Title }}<div class=""title"">{{ .Title }}</div>
{{ end }}<ol class=""{{ .Style }}""{{ if .ListStyle }} type=""{{ .ListStyle }}""{{ end }}{{ if .Start }} start=""{{ .Start }}""{{ end }}{{ if .Reversed }} reversed{{ end }}>
{{ .Content }}</ol>
</div>
".

(** html5/ordered_list.go:16-16 orderedListElementTmpl *)
Definition html5_OrderedListElement : string :=
"<li>
{{ .Content }}</li>
".

(** html5/delimited_block_passthrough_tmpl.go:6-6 passthroughBlock *)
Definition html5_PassthroughBlock : string :=
"{{ .Content }}
".

(** html5/paragraph.go:4-8 paragraphTmpl *)
Definition html5_Paragraph : string :=
"<div{{ if .ID }} id=""{{ .ID }}""{{ end }} class=""paragraph{{ if .Roles }} {{ .Roles }}{{ end }}"">
{{ if .Title  }}<div class=""title"">{{ .Title }}</div>
{{ end }}<p>{{ .Content }}</p>
</div>
".

(** html5/preamble.go:4-8 preambleTmpl *)
Definition html5_Preamble : string :=
"{{ if .Wrapper }}<div id=""preamble"">
<div class=""sectionbody"">
{{ end }}{{ .Content }}{{ if .Wrapper }}</div>
{{ if .ToC }}{{ .ToC }}{{ end }}</div>
{{ end }}".

(** html5/labeled_list.go:25-29 qAndAListTmpl *)
Definition html5_QAndAList : string :=
"<div{{ if .ID }} id=""{{ .ID }}""{{ end }} class=""qlist qanda{{ if .Roles }} {{ .Roles }}{{ end }}"">
{{ if .Title }}<div class=""title"">{{ .Title }}</div>
{{ end }}<ol>
{{ .Content }}</ol>
</div>
".

(** html5/labeled_list.go:31-31 qAndAListElementTmpl *)
Definition html5_QAndAListElement : string :=
"<li>
<p><em>{{ .Term }}</em></p>
{{ .Content }}</li>
".

(** html5/delimited_block_quote_tmpl.go:4-14 quoteBlockTmpl *)
Definition html5_QuoteBlock : string :=
"<div {{ if .ID }}id=""{{ .ID }}"" {{ end }}class=""quoteblock{{ if .Roles }} {{ .Roles }}{{ end }}"">
{{ if .Title }}<div class=""title"">{{ .Title }}</div>
{{ end }}<blockquote>
{{ .Content }}</blockquote>
{{ if .Attribution.First }}<div class=""attribution"">
&#8212; {{ .Attribution.First }}{{ if .Attribution.Second }}<br>
<cite>{{ .Attribution.Second }}</cite>{{ end }}
</div>
{{ end }}</div>
".

(** html5/paragraph.go:30-37 quoteParagraphTmpl *)
Definition html5_QuoteParagraph : string :=
"<div {{ if .ID }}id=""{{ .ID }}"" {{ end }}class=""quoteblock"">
{{ if .Title }}<div class=""title"">{{ .Title }}</div>
{{ end }}<blockquote>
{{ .Content }}
</blockquote>
{{ if .Attribution.First }}<div class=""attribution"">
&#8212; {{ .Attribution.First }}{{ if .Attribution.Second }}<br>
<cite>{{ .Attribution.Second }}</cite>
{{ else }}
{{ end }}</div>
{{ end }}</div>
".

(** html5/section.go:5-9 sectionContentTmpl *)
Definition html5_SectionContent : string :=
"<div class=""sect{{ .Level }}{{ if .Roles }} {{ .Roles }}{{ end }}"">
{{ .Header }}{{ if eq .Level 1 }}<div class=""sectionbody"">
{{ end }}{{ .Content }}{{ if eq .Level 1 }}</div>
{{ end }}</div>
".

(** html5/section.go:10-11 sectionTitleTmpl *)
Definition html5_SectionTitle : string :=
"<h{{ .LevelPlusOne }} id=""{{ toLower .ID }}"">{{ if .Number }}{{ .Number }}. {{ end }}{{ .Content }}</h{{ .LevelPlusOne }}>
".

(** html5/delimited_block_sidebar_tmpl.go:4-10 sidebarBlockTmpl *)
Definition html5_SidebarBlock : string :=
"<div {{ if .ID }}id=""{{ .ID }}"" {{ end }}class=""sidebarblock{{ if .Roles }} {{ .Roles }}{{ end }}"">
<div class=""content"">
{{ if .Title }}<div class=""title"">{{ .Title }}</div>
{{ end }}{{ .Content }}</div>
</div>
".

(** html5/delimited_block_source_tmpl.go:4-17 sourceBlockTmpl *)
Definition html5_SourceBlock : string :=
"<div {{ if .ID }}id=""{{ .ID }}"" {{ end }}class=""listingblock{{ if .Roles }} {{ .Roles }}{{ end }}"">
{{ if .Title }}<div class=""title"">{{ .Title }}</div>
{{ end }}<div class=""content"">
<pre class=""{{ if .SyntaxHighlighter }}{{ .SyntaxHighlighter }} {{ end }}highlight{{ if .Nowrap }} nowrap{{ end }}""><code{{ if .Language }}{{ if not .SyntaxHighlighter }} class=""language-{{ .Language}}""{{ end }} data-lang=""{{ .Language}}""{{ end }}>{{ .Content }}</code></pre>
</div>
</div>
".

(** html5/quoted_text.go:7-7 subscriptTextTmpl *)
Definition html5_SubscriptText : string :=
"<sub{{ if .ID }} id=""{{ .ID }}""{{ end }}{{ if .Roles }} class=""{{ .Roles }}""{{ end }}>{{ .Content }}</sub>".

(** html5/quoted_text.go:8-8 superscriptTextTmpl *)
Definition html5_SuperscriptText : string :=
"<sup{{ if .ID }} id=""{{ .ID }}""{{ end }}{{ if .Roles }} class=""{{ .Roles }}""{{ end }}>{{ .Content }}</sup>".

(** html5/table.go:4-23 tableTmpl *)
Definition html5_Table : string :=
"<table {{ if .ID }}id=""{{ .ID }}"" {{ end }}class=""tableblock frame-{{ .Frame }} grid-{{ .Grid }}{{ if .Stripes }} stripes-{{ .Stripes }}{{ end }}{{ if .Fit }} {{ .Fit }}{{ end }}{{ if .Float }} {{ .Float }}{{ end }}{{ if .Roles }} {{ .Roles }}{{ end }}""{{ if .Width }} style=""width: {{ .Width }}%;""{{ end }}>
{{ if .Title }}<caption class=""title"">{{ .Caption }}{{ .Title }}</caption>
{{ end }}{{ if .Body }}<colgroup>
{{ range $i, $w := .Columns }}<col{{ if $w.Width }} style=""width: {{ $w.Width }}%;""{{ end }}>
{{ end}}</colgroup>
{{ .Header }}{{ .Body }}{{ .Footer }}{{ end }}</table>
".

(** html5/table.go:25-25 tableBodyTmpl *)
Definition html5_TableBody : string :=
"{{ if .Content }}<tbody>
{{ .Content }}</tbody>
{{ end }}".

(** html5/table.go:37-37 tableCellTmpl *)
Definition html5_TableCell : string :=
"<td class=""tableblock {{ halign .HAlign }} {{ valign .VAlign }}"">{{ .Content }}</td>
".

(** html5/table.go:39-39 tableCellBlockTmpl *)
Definition html5_TableCellBlock : string :=
"<div class=""content"">{{ trimLineFeedSuffix .Content }}</div>".

(** html5/table.go:27-27 tableHeaderTmpl *)
Definition html5_TableHeader : string :=
"{{ if .Content }}<thead>
<tr>
{{ .Content }}</tr>
</thead>
{{ end }}".

(** html5/table.go:29-29 tableHeaderCellTmpl *)
Definition html5_TableHeaderCell : string :=
"<th class=""tableblock {{ halign .HAlign }} {{ valign .VAlign }}"">{{ .Content }}</th>
".

(** html5/table.go:31-31 tableFooterTmpl *)
Definition html5_TableFooter : string :=
"{{ if .Content }}<tfoot>
<tr>
{{ .Content }}</tr>
</tfoot>
{{ end }}".

(** html5/table.go:33-33 tableFooterCellTmpl *)
Definition html5_TableFooterCell : string :=
"<td class=""tableblock {{ halign .HAlign }} {{ valign .VAlign }}""><p class=""tableblock"">{{ .Content }}</p></td>
".

(** html5/table.go:35-35 tableRowTmpl *)
Definition html5_TableRow : string :=
"<tr>
{{ .Content }}</tr>
".

(** html5/paragraph.go:41-41 thematicBreakTmpl *)
Definition html5_ThematicBreak : string :=
"<hr>
".

(** html5/table_of_contents.go:4-7 tocRootTmpl *)
Definition html5_TocRoot : string :=
"<div id=""toc"" class=""toc"">
<div id=""toctitle"">{{ .Title }}</div>
{{ .Sections }}</div>
".

(** html5/table_of_contents.go:11-12 tocEntryTmpl *)
Definition html5_TocEntry : string :=
"<li><a href=""#{{ toLower .ID }}"">{{ if .Number }}{{ .Number }}. {{ end }}{{ .Title }}</a>{{ if .Content }}
{{ .Content }}{{ end }}</li>
".

(** html5/table_of_contents.go:9-9 tocSectionTmpl *)
Definition html5_TocSection : string :=
"<ul class=""sectlevel{{ .Level }}"">
{{ .Content }}</ul>
".

(** html5/unordered_list.go:4-11 unorderedListTmpl *)
Definition html5_UnorderedList : string :=
"<div{{ if .ID }} id=""{{ .ID }}""{{ end }} class=""ulist{{ if .Checklist }} checklist{{ end }}{{ if .Style }} {{ .Style }}{{ end }}{{ if .Roles }} {{ .Roles }}{{ end }}"">
{{ if .Title }}<div class=""title"">{{ .Title }}</div>
{{ end }}<ul{{ if .Checklist }} class=""checklist""{{ else if .Style }} class=""{{ .Style }}""{{ end }}>
{{ .Content }}</ul>
</div>
".

(** html5/unordered_list.go:13-13 unorderedListElementTmpl *)
Definition html5_UnorderedListElement : string :=
"<li>
{{ .Content }}</li>
".

(** html5/delimited_block_verse_tmpl.go:4-11 verseBlockTmpl *)
Definition html5_VerseBlock : string :=
"<div {{ if .ID }}id=""{{ .ID }}"" {{ end }}class=""verseblock{{ if .Roles }} {{ .Roles }}{{ end }}"">
{{ if .Title }}<div class=""title"">{{ .Title }}</div>
{{ end }}<pre class=""content"">{{ .Content }}</pre>
{{ if .Attribution.First }}<div class=""attribution"">
&#8212; {{ .Attribution.First }}{{ if .Attribution.Second }}<br>
<cite>{{ .Attribution.Second }}</cite>{{ end }}
</div>
{{ end }}</div>
".

(** html5/paragraph.go:23-28 verseParagraphTmpl *)
Definition html5_VerseParagraph : string :=
"<div {{ if .ID }}id=""{{ .ID }}"" {{ end }}class=""verseblock"">
{{ if .Title }}<div class=""title"">{{ .Title }}</div>
{{ end }}<pre class=""content"">{{ .Content }}</pre>
{{ if .Attribution.First }}<div class=""attribution"">
&#8212; {{ .Attribution.First }}{{ if .Attribution.Second }}<br>
<cite>{{ .Attribution.Second }}</cite>
{{ else }}
{{ end }}</div>
{{ end }}</div>
".

(** xhtml5/article.go:4-29 articleTmpl *)
Definition xhtml5_Article : string :=
"<!DOCTYPE html>
<html xmlns=""https://www.w3.org/1999/xhtml"" lang=""en"">
<head>
<meta charset=""UTF-8""/>
<meta http-equiv=""X-UA-Compatible"" content=""IE=edge""/>
<meta name=""viewport"" content=""width=device-width, initial-scale=1.0""/>
{{ if .Generator }}<meta name=""generator"" content=""{{ .Generator }}""/>
{{ end }}{{ if .Authors }}<meta name=""author"" content=""{{ .Authors }}""/>
{{ end }}{{ range $css := .CSS }}<link type=""text/css"" rel=""stylesheet"" href=""{{ $css }}""/>
{{ end }}<title>{{ .Title }}</title>
</head>
<body{{ if .ID }} id=""{{ .ID }}""{{ end }} class=""{{ .Doctype }}{{ if .Roles }} {{ .Roles }}{{ end }}"">
{{ if .IncludeHTMLBodyHeader }}{{ .Header }}{{ end }}<div id=""content"">
{{ .Content }}</div>
{{ if .IncludeHTMLBodyFooter }}<div id=""footer"">
<div id=""footer-text"">
{{ if .RevNumber }}Version {{ .RevNumber }}<br/>
{{ end }}Last updated {{ .LastUpdated }}
</div>
</div>
{{ end }}</body>
</html>
".

(** xhtml5/image.go:4-15 blockImageTmpl *)
Definition xhtml5_BlockImage : string :=
"<div{{ if .ID }} id=""{{ .ID }}""{{ end }} class=""imageblock{{ if .Roles }} {{ .Roles }}{{ end }}"">
<div class=""content"">
{{ if .Href }}<a class=""image"" href=""{{ .Href }}"">{{ end }}<img src=""{{ .Src }}"" alt=""{{ .Alt }}""{{ if .Width }} width=""{{ .Width }}""{{ end }}{{ if .Height }} height=""{{ .Height }}""{{ end }}/>{{ if .Href }}</a>{{ end }}
</div>
{{ if .Title }}<div class=""title"">{{ .Caption }}{{ .Title }}</div>
{{ end }}</div>
".

(** xhtml5/blank_line.go:4-4 lineBreakTmpl *)
Definition xhtml5_LineBreak : string :=
"<br/>".

(** xhtml5/document_details.go:12-13 documentAuthorDetailsTmpl *)
Definition xhtml5_DocumentAuthorDetails : string :=
"{{ if .Name }}<span id=""author{{ .Index }}"" class=""author"">{{ .Name }}</span><br/>{{ end }}{{ if .Email }}
<span id=""email{{ .Index }}"" class=""email""><a href=""mailto:{{ .Email }}"">{{ .Email }}</a></span><br/>{{ end }}".

(** xhtml5/document_details.go:4-10 documentDetailsTmpl *)
Definition xhtml5_DocumentDetails : string :=
"<div class=""details"">{{ if .Authors }}
{{ .Authors }}{{ end }}{{ if .RevNumber }}
<span id=""revnumber"">{{ if .RevLabel }}{{ .RevLabel }} {{ end }}{{ .RevNumber }}{{ if .RevDate }},{{ end }}</span>{{ end }}{{ if .RevDate }}
<span id=""revdate"">{{ .RevDate }}</span>{{ end }}{{ if .RevRemark }}
<br/><span id=""revremark"">{{ .RevRemark }}</span>{{ end }}
</div>
".

(** xhtml5/footnote_reference.go:4-4 footnotesTmpl *)
Definition xhtml5_Footnotes : string :=
"<div id=""footnotes"">
<hr/>
{{ .Content }}</div>
".

(** xhtml5/icon.go:11-20 iconImageTmpl *)
Definition xhtml5_IconImage : string :=
"<img src=""{{ .Src }}""{{ if .Alt }} alt=""{{ .Alt }}{{ end }}""{{ if .Width }} width=""{{ .Width }}""{{ end }}{{ if .Height }} height=""{{ .Height }}""{{ end }}{{ if .Title }} title=""{{ .Title }}""{{ end }}{{ if or .Size .Rotate .Flip }} class=""{{ if .Size }}fa-{{ .Size }}{{ end }}{{ if .Rotate }}{{ if .Size }} {{ end }}fa-rotate-{{ .Rotate }}{{ end }}{{ if .Flip }}{{ if or .Size .Rotate }} {{ end }}fa-flip-{{ .Flip }}{{ end }}""{{ end }}/>".

(** xhtml5/image.go:17-23 inlineImageTmpl *)
Definition xhtml5_InlineImage : string :=
"<span class=""image{{ if .Roles }} {{ .Roles }}{{ end }}"">{{ if .Href }}<a class=""image"" href=""{{ .Href }}"">{{ end }}<img src=""{{ .Src }}"" alt=""{{ .Alt }}""{{ if .Width }} width=""{{ .Width }}""{{ end }}{{ if .Height }} height=""{{ .Height }}""{{ end }}{{ if .Title }} title=""{{ .Title }}""{{ end }}/>{{ if .Href }}</a>{{ end }}</span>".

(** xhtml5/labeled_list.go:4-7 labeledListHorizontalItemTmpl *)
Definition xhtml5_LabeledListHorizontalElement : string :=
"{{ if not .Continuation }}<tr>
<td class=""hdlist1"">
{{ else }}<br/>
{{ end }}{{ .Term }}
{{ if .Content }}</td>
<td class=""hdlist2"">
{{ .Content }}</td>
</tr>
{{ end }}".

(** xhtml5/table.go:4-23 tableTmpl *)
Definition xhtml5_Table : string :=
"<table {{ if .ID }}id=""{{ .ID }}"" {{ end }}class=""tableblock frame-{{ .Frame }} grid-{{ .Grid }}{{ if .Stripes }} stripes-{{ .Stripes }}{{ end }}{{ if .Fit }} {{ .Fit }}{{ end }}{{ if .Float }} {{ .Float }}{{ end }}{{ if .Roles }} {{ .Roles }}{{ end }}""{{ if .Width }} style=""width: {{ .Width }}%;""{{ end }}>
{{ if .Title }}<caption class=""title"">{{ .Caption }}{{ .Title }}</caption>
{{ end }}{{ if .Body }}<colgroup>
{{ range $i, $w := .Columns }}<col{{ if $w.Width }} style=""width: {{ $w.Width }}%;""{{ end }}/>
{{ end}}</colgroup>
{{ .Header }}{{ .Body }}{{ .Footer }}{{ end }}</table>
".

(** xhtml5/paragraph.go:20-20 thematicBreakTmpl *)
Definition xhtml5_ThematicBreak : string :=
"<hr/>
".

(** xhtml5/delimited_block_quote_tmpl.go:4-14 quoteBlockTmpl *)
Definition xhtml5_QuoteBlock : string :=
"<div {{ if .ID }}id=""{{ .ID }}"" {{ end }}class=""quoteblock{{ if .Roles }} {{ .Roles }}{{ end }}"">
{{ if .Title }}<div class=""title"">{{ .Title }}</div>
{{ end }}<blockquote>
{{ .Content }}</blockquote>
{{ if .Attribution.First }}<div class=""attribution"">
&#8212; {{ .Attribution.First }}{{ if .Attribution.Second }}<br/>
<cite>{{ .Attribution.Second }}</cite>{{ end }}
</div>
{{ end }}</div>
".

(** xhtml5/paragraph.go:11-18 quoteParagraphTmpl *)
Definition xhtml5_QuoteParagraph : string :=
"<div {{ if .ID }}id=""{{ .ID }}"" {{ end }}class=""quoteblock"">
{{ if .Title }}<div class=""title"">{{ .Title }}</div>
{{ end }}<blockquote>
{{ .Content }}
</blockquote>
{{ if .Attribution.First }}<div class=""attribution"">
&#8212; {{ .Attribution.First }}{{ if .Attribution.Second }}<br/>
<cite>{{ .Attribution.Second }}</cite>
{{ else }}
{{ end }}</div>
{{ end }}</div>
".

(** xhtml5/delimited_block_verse_tmpl.go:4-11 verseBlockTmpl *)
Definition xhtml5_VerseBlock : string :=
"<div {{ if .ID }}id=""{{ .ID }}"" {{ end }}class=""verseblock{{ if .Roles }} {{ .Roles }}{{ end }}"">
{{ if .Title }}<div class=""title"">{{ .Title }}</div>
{{ end }}<pre class=""content"">{{ .Content }}</pre>
{{ if .Attribution.First }}<div class=""attribution"">
&#8212; {{ .Attribution.First }}{{ if .Attribution.Second }}<br/>
<cite>{{ .Attribution.Second }}</cite>{{ end }}
</div>
{{ end }}</div>
".

(** xhtml5/paragraph.go:4-9 verseParagraphTmpl *)
Definition xhtml5_VerseParagraph : string :=
"<div {{ if .ID }}id=""{{ .ID }}"" {{ end }}class=""verseblock"">
{{ if .Title }}<div class=""title"">{{ .Title }}</div>
{{ end }}<pre class=""content"">{{ .Content }}</pre>
{{ if .Attribution.First }}<div class=""attribution"">
&#8212; {{ .Attribution.First }}{{ if .Attribution.Second }}<br/>
<cite>{{ .Attribution.Second }}</cite>
{{ else }}
{{ end }}</div>
{{ end }}</div>
".

(** html5/templates.go:13-89 *)
Definition html5 (t : tname) : string :=
  match t with
  | TAdmonitionBlock => html5_AdmonitionBlock
  | TAdmonitionParagraph => html5_AdmonitionParagraph
  | TArticle => html5_Article
  | TArticleHeader => html5_ArticleHeader
  | TBlockImage => html5_BlockImage
  | TBoldText => html5_BoldText
  | TCalloutList => html5_CalloutList
  | TCalloutListElement => html5_CalloutListElement
  | TCalloutRef => html5_CalloutRef
  | TDocumentDetails => html5_DocumentDetails
  | TDocumentAuthorDetails => html5_DocumentAuthorDetails
  | TEmbeddedParagraph => html5_EmbeddedParagraph
  | TExternalCrossReference => html5_ExternalCrossReference
  | TExampleBlock => html5_ExampleBlock
  | TFencedBlock => html5_FencedBlock
  | TFootnote => html5_Footnote
  | TFootnoteElement => html5_FootnoteElement
  | TFootnoteRef => html5_FootnoteRef
  | TFootnotes => html5_Footnotes
  | TIconFont => html5_IconFont
  | TIconImage => html5_IconImage
  | TIconText => html5_IconText
  | TInlineButton => html5_InlineButton
  | TInlineIcon => html5_InlineIcon
  | TInlineImage => html5_InlineImage
  | TInlineMenu => html5_InlineMenu
  | TInternalCrossReference => html5_InternalCrossReference
  | TInvalidFootnote => html5_InvalidFootnote
  | TItalicText => html5_ItalicText
  | TLabeledList => html5_LabeledList
  | TLabeledListElement => html5_LabeledListElement
  | TLabeledListHorizontal => html5_LabeledListHorizontal
  | TLabeledListHorizontalElement => html5_LabeledListHorizontalElement
  | TLineBreak => html5_LineBreak
  | TLink => html5_Link
  | TListingBlock => html5_ListingBlock
  | TLiteralBlock => html5_LiteralBlock
  | TManpageHeader => html5_ManpageHeader
  | TManpageNameParagraph => html5_ManpageNameParagraph
  | TMarkdownQuoteBlock => html5_MarkdownQuoteBlock
  | TMarkedText => html5_MarkedText
  | TMonospaceText => html5_MonospaceText
  | TOpenBlock => html5_OpenBlock
  | TOrderedList => html5_OrderedList
  | TOrderedListElement => html5_OrderedListElement
  | TPassthroughBlock => html5_PassthroughBlock
  | TParagraph => html5_Paragraph
  | TPreamble => html5_Preamble
  | TQAndAList => html5_QAndAList
  | TQAndAListElement => html5_QAndAListElement
  | TQuoteBlock => html5_QuoteBlock
  | TQuoteParagraph => html5_QuoteParagraph
  | TSectionContent => html5_SectionContent
  | TSectionTitle => html5_SectionTitle
  | TSidebarBlock => html5_SidebarBlock
  | TSourceBlock => html5_SourceBlock
  | TSubscriptText => html5_SubscriptText
  | TSuperscriptText => html5_SuperscriptText
  | TTable => html5_Table
  | TTableBody => html5_TableBody
  | TTableCell => html5_TableCell
  | TTableCellBlock => html5_TableCellBlock
  | TTableHeader => html5_TableHeader
  | TTableHeaderCell => html5_TableHeaderCell
  | TTableFooter => html5_TableFooter
  | TTableFooterCell => html5_TableFooterCell
  | TTableRow => html5_TableRow
  | TThematicBreak => html5_ThematicBreak
  | TTocRoot => html5_TocRoot
  | TTocEntry => html5_TocEntry
  | TTocSection => html5_TocSection
  | TUnorderedList => html5_UnorderedList
  | TUnorderedListElement => html5_UnorderedListElement
  | TVerseBlock => html5_VerseBlock
  | TVerseParagraph => html5_VerseParagraph
  end.

(** xhtml5/xhtml5.go:13-33 Render: the templates of html5, some of them overridden *)
Definition xhtml5 (t : tname) : string :=
  match t with
  | TArticle => xhtml5_Article
  | TBlockImage => xhtml5_BlockImage
  | TLineBreak => xhtml5_LineBreak
  | TDocumentAuthorDetails => xhtml5_DocumentAuthorDetails
  | TDocumentDetails => xhtml5_DocumentDetails
  | TFootnotes => xhtml5_Footnotes
  | TIconImage => xhtml5_IconImage
  | TInlineImage => xhtml5_InlineImage
  | TLabeledListHorizontalElement => xhtml5_LabeledListHorizontalElement
  | TTable => xhtml5_Table
  | TThematicBreak => xhtml5_ThematicBreak
  | TQuoteBlock => xhtml5_QuoteBlock
  | TQuoteParagraph => xhtml5_QuoteParagraph
  | TVerseBlock => xhtml5_VerseBlock
  | TVerseParagraph => xhtml5_VerseParagraph
  | t => html5 t
  end.

Definition all_templates : list tname :=
  [TAdmonitionBlock; TAdmonitionParagraph; TArticle; TArticleHeader; TBlockImage; TBoldText; TCalloutList; TCalloutListElement; TCalloutRef; TDocumentDetails; TDocumentAuthorDetails; TEmbeddedParagraph; TExternalCrossReference; TExampleBlock; TFencedBlock; TFootnote; TFootnoteElement; TFootnoteRef; TFootnotes; TIconFont; TIconImage; TIconText; TInlineButton; TInlineIcon; TInlineImage; TInlineMenu; TInternalCrossReference; TInvalidFootnote; TItalicText; TLabeledList; TLabeledListElement; TLabeledListHorizontal; TLabeledListHorizontalElement; TLineBreak; TLink; TListingBlock; TLiteralBlock; TManpageHeader; TManpageNameParagraph; TMarkdownQuoteBlock; TMarkedText; TMonospaceText; TOpenBlock; TOrderedList; TOrderedListElement; TPassthroughBlock; TParagraph; TPreamble; TQAndAList; TQAndAListElement; TQuoteBlock; TQuoteParagraph; TSectionContent; TSectionTitle; TSidebarBlock; TSourceBlock; TSubscriptText; TSuperscriptText; TTable; TTableBody; TTableCell; TTableCellBlock; TTableHeader; TTableHeaderCell; TTableFooter; TTableFooterCell; TTableRow; TThematicBreak; TTocRoot; TTocEntry; TTocSection; TUnorderedList; TUnorderedListElement; TVerseBlock; TVerseParagraph].
