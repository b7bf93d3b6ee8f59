-Q theories Verif
theories/AggDoc.v
theories/AggLemmas.v
theories/Aggregate.v
theories/AlphaOps.v
theories/AlphaRender.v
theories/AlphaSpec.v
theories/ApplySubs.v
theories/AttrLemmas.v
theories/AttrSpec.v
theories/Attrs.v
theories/Authors.v
theories/AuthorsLemmas.v
theories/AuthorsSpec.v
theories/CellSpec.v
theories/Cond.v
theories/Config.v
theories/ConfigSpec.v
theories/Context.v
theories/Convert.v
theories/ConvertSource.v
theories/ConvertSpec.v
theories/CtxHeap.v
theories/CtxHeapLemmas.v
theories/CtxLemmas.v
theories/CtxSpec.v
theories/Elements.v
theories/Escape.v
theories/EscapeSpec.v
theories/Filter.v
theories/FilterSpec.v
theories/Footnotes.v
theories/FootnotesSpec.v
theories/FrameSpec.v
theories/GoBase.v
theories/GoLemmas.v
theories/HtmlDocSpec.v
theories/HtmlMachine.v
theories/HtmlOps.v
theories/HtmlRender.v
theories/HtmlSpec.v
theories/HtmlTmpl.v
theories/Ids.v
theories/IdsAlpha.v
theories/IdsLemmas.v
theories/IdsShown.v
theories/IdsSpec.v
theories/IdsTail.v
theories/InclLemmas.v
theories/InclOutcome.v
theories/Include.v
theories/Indent.v
theories/ItemSpec.v
theories/LayoutSpec.v
theories/ListCollect.v
theories/ListCollectSpec.v
theories/ListLemmas.v
theories/ListSib.v
theories/ListSpec.v
theories/Lists.v
theories/Locations.v
theories/MarkOps.v
theories/MarkRender.v
theories/MarkSpec.v
theories/Merge.v
theories/MergeLemmas.v
theories/MergeSpec.v
theories/P_Alphabet.v
theories/P_Attrs.v
theories/P_Authors.v
theories/P_Breaks.v
theories/P_Config.v
theories/P_Convert.v
theories/P_Ctx.v
theories/P_Escape.v
theories/P_Filter.v
theories/P_Footnotes.v
theories/P_Frames.v
theories/P_Html.v
theories/P_Ids.v
theories/P_Indent.v
theories/P_Items.v
theories/P_Layout.v
theories/P_ListCollect.v
theories/P_ListHtml.v
theories/P_ListText.v
theories/P_Lists.v
theories/P_Locations.v
theories/P_Marks.v
theories/P_Merge.v
theories/P_Parts.v
theories/P_PegAna.v
theories/P_PegBlocks.v
theories/P_PegBreak.v
theories/P_PegDocs.v
theories/P_PegDodge.v
theories/P_PegExamples.v
theories/P_PegFragment.v
theories/P_PegHeader.v
theories/P_PegInline.v
theories/P_PegLines.v
theories/P_PegList.v
theories/P_PegNested.v
theories/P_PegNormal.v
theories/P_PegPara.v
theories/P_PegParse.v
theories/P_PegRun.v
theories/P_PegSections.v
theories/P_PegSym.v
theories/P_PegTerm.v
theories/P_Pipeline.v
theories/P_Placeholders.v
theories/P_Pre.v
theories/P_Quoted.v
theories/P_Refs.v
theories/P_RenderState.v
theories/P_SectNum.v
theories/P_SectionDocs.v
theories/P_Sections.v
theories/P_Source.v
theories/P_Subs.v
theories/P_TableHtml.v
theories/P_Tables.v
theories/P_Tags.v
theories/P_Text.v
theories/P_Titled.v
theories/P_TocLinks.v
theories/P_TocShown.v
theories/P_Validator.v
theories/P_Widths.v
theories/P_XrefDepth.v
theories/PartSpec.v
theories/Peg.v
theories/PegAna.v
theories/PegBlockSpec.v
theories/PegDoc.v
theories/PegGrammar.v
theories/PegHost.v
theories/PegInlineSpec.v
theories/PegSpec.v
theories/PegSym.v
theories/PegTable.v
theories/Pipeline.v
theories/PipelineLemmas.v
theories/PipelineSpec.v
theories/PreDisabled.v
theories/PreLemmas.v
theories/PreMore.v
theories/PreOffsets.v
theories/PreSpec.v
theories/Preamble.v
theories/Preprocess.v
theories/QuotedSpec.v
theories/RawLine.v
theories/Refs.v
theories/RefsSpec.v
theories/Render.v
theories/RenderAttrs.v
theories/RenderKit.v
theories/RenderState.v
theories/RenderStateSpec.v
theories/SecSpec.v
theories/SectNum.v
theories/SectNumLemmas.v
theories/SectNumSpec.v
theories/SectionDocSpec.v
theories/SectionText.v
theories/SourceSpec.v
theories/Subs.v
theories/SubsSpec.v
theories/TableExact.v
theories/TableLemmas.v
theories/TableSpec.v
theories/TableWidths.v
theories/Tables.v
theories/TagSpec.v
theories/Templates.v
theories/TextDocSpec.v
theories/TextRender.v
theories/TextSpec.v
theories/TextTmpl.v
theories/TextWords.v
theories/TitledSpec.v
theories/Tmpl.v
theories/TmplCheck.v
theories/Toc.v
theories/TocLemmas.v
theories/TocNest.v
theories/TocRender.v
theories/TocShown.v
theories/TocShownSpec.v
theories/Types.v
theories/Utf8.v
theories/Utf8Lemmas.v
theories/Validator.v
theories/XrefGen.v
theories/XrefLemmas.v
theories/XrefSpec.v
