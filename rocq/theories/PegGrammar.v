(** The grammar the parser runs: the table [g] of pkg/parser/parser.go:26-47330, which pigeon generated
    from pkg/parser/parser.peg with -optimize-grammar.  Generated from that table by a script: one
    definition [g_X] for each of the rules of the table, one definition [x_X] for each rule of
    parser.peg that pigeon inlined.  A literal is kept as in parser.go; a code block is kept as its
    text (without comments and debug logging), except for the ones that Peg.v gives a meaning to. *)
From Coq Require Import List String NArith ZArith.
From Verif Require Import Peg.
Import ListNotations.
Local Open Scope string_scope.
Local Open Scope N_scope.

(** parser.peg:318-320 AttributeName, inlined at parser.go:62-89 *)
Definition x_AttributeName : expr :=
  EAct AText (ESeq [
      (ECls [95] [] ["L"; "N"] false);
      (EStar (ECls [45] [] ["L"; "N"] false))]).
(** parser.peg:2852-2854 Space, inlined at parser.go:99-109 *)
Definition x_Space : expr :=
  EAct AText (ECls [9; 32] [] [] false).
(** parser.peg:2861-2863 Newline, inlined at parser.go:114-140 *)
Definition x_Newline : expr :=
  EAct AText (EAlt [
      (ELit [10] false);
      (ELit [13; 10] false);
      (ELit [13] false)]).
(** parser.peg:2871-2871 EOF, inlined at parser.go:141-146 *)
Definition x_EOF : expr :=
  ENot EAny.
(** parser.peg:2874-2874 EOL, inlined at parser.go:111-148 *)
Definition x_EOL : expr :=
  EAlt [
    x_Newline;
    x_EOF].
(** parser.peg:360-364 AttributeReset, inlined at parser.go:47-151 *)
Definition x_AttributeReset : expr :=
  EAct (AHost "return types.NewAttributeReset(name.(string), string(c.text))") (ESeq [
      (ELit (R ":!") false);
      (ELab "name" x_AttributeName);
      (ELit (R ":") false);
      (EStar x_Space);
      x_EOL]).
(** parser.peg:360-364 AttributeReset, inlined at parser.go:152-256 *)
Definition x_AttributeReset_2 : expr :=
  EAct (AHost "return types.NewAttributeReset(name.(string), string(c.text))") (ESeq [
      (ELit (R ":") false);
      (ELab "name" x_AttributeName);
      (ELit (R "!:") false);
      (EStar x_Space);
      x_EOL]).
(** parser.peg:127-129 ConditionalVariableName, inlined at parser.go:276-289 *)
Definition x_ConditionalVariableName : expr :=
  EAct AText (EPlus (ECls [13; 10; 32; 91] [] [] true)).
(** parser.peg:78-80 ConditionalInclusionAttribute, inlined at parser.go:302-315 *)
Definition x_ConditionalInclusionAttribute : expr :=
  EAct AText (EPlus (ECls [13; 10; 93] [] [] true)).
(** parser.peg:70-72 Ifdef, inlined at parser.go:261-346 *)
Definition x_Ifdef : expr :=
  EAct (AHost "return types.NewIfdefCondition(name.(string), attr)") (ESeq [
      (ELit (R "ifdef::") false);
      (ELab "name" x_ConditionalVariableName);
      (ELit (R "[") false);
      (ELab "attr" (EOpt x_ConditionalInclusionAttribute));
      (ELit (R "]") false);
      (EStar x_Space);
      x_EOF]).
(** parser.peg:74-76 Ifndef, inlined at parser.go:347-432 *)
Definition x_Ifndef : expr :=
  EAct (AHost "return types.NewIfndefCondition(name.(string), attr)") (ESeq [
      (ELit (R "ifndef::") false);
      (ELab "name" x_ConditionalVariableName);
      (ELit (R "[") false);
      (ELab "attr" (EOpt x_ConditionalInclusionAttribute));
      (ELit (R "]") false);
      (EStar x_Space);
      x_EOF]).
(** parser.peg:643-654 AttributeReferenceValue, inlined at parser.go:466-576 *)
Definition x_AttributeReferenceValue : expr :=
  EAlt [
    (EAct (AHost "return types.NewStringElement(strings.TrimPrefix(string(c.text), `\`))") (ESeq [
        (ELit (R "\{") false);
        (ELab "name" x_AttributeName);
        (ELit (R "}") false)]));
    (EAct (AHost "return types.NewAttributeReference(name.(string), string(c.text))") (ESeq [
        (ELit (R "{") false);
        (ELab "name" x_AttributeName);
        (ELit (R "}") false)]))].
(** parser.peg:2844-2846 Integer, inlined at parser.go:922-949 *)
Definition x_Integer : expr :=
  EAct (AHost "return strconv.Atoi(string(c.text))") (ESeq [
      (EOpt (ELit (R "-") false));
      (EPlus (ECls [] [(48, 57)] [] false))]).
(** parser.peg:91-97 IfevalExpressionMember, inlined at parser.go:448-951 *)
Definition x_IfevalExpressionMember : expr :=
  EAlt [
    (EAct (ALabel "s") (ESeq [
        (ELit (R """") false);
        (ELab "s" x_AttributeReferenceValue);
        (ELit (R """") false)]));
    (EAct (ALabel "s") (ESeq [
        (ELit (R "'") false);
        (ELab "s" x_AttributeReferenceValue);
        (ELit (R "'") false)]));
    (EAct (ALabel "s") (ELab "s" x_AttributeReferenceValue));
    (EAct (ALabel "w") (ESeq [
        (ELit (R """") false);
        (ELab "w" (EAct AText (EPlus (ECls [44; 63; 33; 59; 95; 45] [] ["L"; "N"] false))));
        (ELit (R """") false)]));
    (EAct (ALabel "w") (ESeq [
        (ELit (R "'") false);
        (ELab "w" (EAct AText (EPlus (ECls [44; 63; 33; 59; 95; 45] [] ["L"; "N"] false))));
        (ELit (R "'") false)]));
    x_Integer].
(** parser.peg:99-117 IfevalExpressionOperand, inlined at parser.go:970-1034 *)
Definition x_IfevalExpressionOperand : expr :=
  EAlt [
    (EAct (AHost "return types.NewEqualOperand()") (ELit (R "==") false));
    (EAct (AHost "return types.NewNotEqualOperand()") (ELit (R "!=") false));
    (EAct (AHost "return types.NewLessThanOperand()") (ELit (R "<") false));
    (EAct (AHost "return types.NewLessOrEqualOperand()") (ELit (R "<=") false));
    (EAct (AHost "return types.NewGreaterThanOperand()") (ELit (R ">") false));
    (EAct (AHost "return types.NewGreaterOrEqualOperand()") (ELit (R ">=") false))].
(** parser.peg:82-89 Ifeval, inlined at parser.go:433-1586 *)
Definition x_Ifeval : expr :=
  EAct (AHost "return types.NewIfevalCondition(left, right, operand.(types.IfevalOperand))") (ESeq [
      (ELit (R "ifeval::[") false);
      (ELab "left" x_IfevalExpressionMember);
      (EStar x_Space);
      (ELab "operand" x_IfevalExpressionOperand);
      (EStar x_Space);
      (ELab "right" x_IfevalExpressionMember);
      (ELit (R "]") false);
      (EStar x_Space);
      x_EOF]).
(** parser.peg:123-125 EndIf, inlined at parser.go:1587-1675 *)
Definition x_EndIf : expr :=
  EAct (AHost "return types.NewEndOfCondition()") (ESeq [
      (ELit (R "endif::") false);
      (ELab "name" (EOpt x_ConditionalVariableName));
      (ELit (R "[") false);
      (ELab "attr" (EOpt x_ConditionalInclusionAttribute));
      (ELit (R "]") false);
      (EStar x_Space);
      x_EOF]).
(** parser.peg:739-744 CommentBlockDelimiter, inlined at parser.go:1698-1786 *)
Definition x_CommentBlockDelimiter : expr :=
  EAct (AHost "return types.NewBlockDelimiter(types.Comment, len(delimiter.(string)), string(c.text))") (ESeq [
      (ELab "delimiter" (EAct AText (ESeq [
            (ELit (R "////") false);
            (EStar (ELit (R "/") false))])));
      (EStar x_Space);
      x_EOL]).
(** parser.peg:746-751 ExampleBlockDelimiter, inlined at parser.go:1787-1875 *)
Definition x_ExampleBlockDelimiter : expr :=
  EAct (AHost "return types.NewBlockDelimiter(types.Example, len(delimiter.(string)), string(c.text))") (ESeq [
      (ELab "delimiter" (EAct AText (ESeq [
            (ELit (R "====") false);
            (EStar (ELit (R "=") false))])));
      (EStar x_Space);
      x_EOL]).
(** parser.peg:764-766 Language, inlined at parser.go:1891-1904 *)
Definition x_Language : expr :=
  EAct AText (EPlus (ECls [13; 10; 96; 32] [] [] true)).
(** parser.peg:760-762 MarkdownCodeDelimiter, inlined at parser.go:1876-1960 *)
Definition x_MarkdownCodeDelimiter : expr :=
  EAct (AHost "return types.NewMarkdownCodeBlockDelimiter(language.(string), string(c.text))") (ESeq [
      (ELit (R "```") false);
      (ELab "language" x_Language);
      (EStar x_Space);
      x_EOL]).
(** parser.peg:753-758 FencedBlockDelimiter, inlined at parser.go:1961-2049 *)
Definition x_FencedBlockDelimiter : expr :=
  EAct (AHost "return types.NewBlockDelimiter(types.Fenced, len(delimiter.(string)), string(c.text))") (ESeq [
      (ELab "delimiter" (EAct AText (ESeq [
            (ELit (R "```") false);
            (EStar (ELit (R "`") false))])));
      (EStar x_Space);
      x_EOL]).
(** parser.peg:768-773 ListingBlockDelimiter, inlined at parser.go:2050-2138 *)
Definition x_ListingBlockDelimiter : expr :=
  EAct (AHost "return types.NewBlockDelimiter(types.Listing, len(delimiter.(string)), string(c.text))") (ESeq [
      (ELab "delimiter" (EAct AText (ESeq [
            (ELit (R "----") false);
            (EStar (ELit (R "-") false))])));
      (EStar x_Space);
      x_EOL]).
(** parser.peg:782-787 LiteralBlockDelimiter, inlined at parser.go:2139-2227 *)
Definition x_LiteralBlockDelimiter : expr :=
  EAct (AHost "return types.NewBlockDelimiter(types.Listing, len(delimiter.(string)), string(c.text))") (ESeq [
      (ELab "delimiter" (EAct AText (ESeq [
            (ELit (R "....") false);
            (EStar (ELit (R ".") false))])));
      (EStar x_Space);
      x_EOL]).
(** parser.peg:789-794 PassthroughBlockDelimiter, inlined at parser.go:2228-2316 *)
Definition x_PassthroughBlockDelimiter : expr :=
  EAct (AHost "return types.NewBlockDelimiter(types.Passthrough, len(delimiter.(string)), string(c.text))") (ESeq [
      (ELab "delimiter" (EAct AText (ESeq [
            (ELit (R "++++") false);
            (EStar (ELit (R "+") false))])));
      (EStar x_Space);
      x_EOL]).
(** parser.peg:796-801 QuoteBlockDelimiter, inlined at parser.go:2317-2405 *)
Definition x_QuoteBlockDelimiter : expr :=
  EAct (AHost "return types.NewBlockDelimiter(types.Quote, len(delimiter.(string)), string(c.text))") (ESeq [
      (ELab "delimiter" (EAct AText (ESeq [
            (ELit (R "____") false);
            (EStar (ELit (R "_") false))])));
      (EStar x_Space);
      x_EOL]).
(** parser.peg:803-808 SidebarBlockDelimiter, inlined at parser.go:2406-2494 *)
Definition x_SidebarBlockDelimiter : expr :=
  EAct (AHost "return types.NewBlockDelimiter(types.Sidebar, len(delimiter.(string)), string(c.text))") (ESeq [
      (ELab "delimiter" (EAct AText (ESeq [
            (ELit (R "****") false);
            (EStar (ELit (R "*") false))])));
      (EStar x_Space);
      x_EOL]).
(** parser.peg:723-736 BlockDelimiter, inlined at parser.go:1676-2500 *)
Definition x_BlockDelimiter : expr :=
  EAct (ALabel "delimiter") (ESeq [
      (ENot (ECls [] [] ["L"; "N"] false));
      (ELab "delimiter" (EAlt [
          x_CommentBlockDelimiter;
          x_ExampleBlockDelimiter;
          x_MarkdownCodeDelimiter;
          x_FencedBlockDelimiter;
          x_ListingBlockDelimiter;
          x_LiteralBlockDelimiter;
          x_PassthroughBlockDelimiter;
          x_QuoteBlockDelimiter;
          x_SidebarBlockDelimiter]))]).
(** parser.peg:2856-2859 Spaces, inlined at parser.go:2536-2549 *)
Definition x_Spaces : expr :=
  EAct AText (EPlus (ECls [9; 32] [] [] false)).
(** parser.peg:2802-2804 ManyChars, inlined at parser.go:2550-2563 *)
Definition x_ManyChars : expr :=
  EAct AText (EPlus (ECls [13; 10] [] [] true)).
(** parser.peg:41-59 RawSection, inlined at parser.go:2501-2572 *)
Definition x_RawSection : expr :=
  EAct (AHost "return types.NewRawSection(level.(int), string(c.text))") (ESeq [
      (EPred (PHost "return c.isSectionEnabled(), nil"));
      (EPred (PHost "return !c.isWithinDelimitedBlock(), nil"));
      (ELab "level" (EAct (ALen 1) (EPlus (ELit (R "=") false))));
      (EPred (PIntLe "level" 5));
      x_Spaces;
      x_ManyChars;
      x_EOF]).
(** parser.peg:25-36 DocumentRawLine; parser.go:28-2585 *)
Definition g_DocumentRawLine : expr :=
  EAct (ALabel "element") (ESeq [
      (ELab "element" (EAlt [
          (ERef "AttributeDeclaration");
          x_AttributeReset;
          x_AttributeReset_2;
          (ERef "FileInclusion");
          x_Ifdef;
          x_Ifndef;
          x_Ifeval;
          x_EndIf;
          x_BlockDelimiter;
          x_RawSection]));
      x_EOF]).
(** parser.peg:643-654 AttributeReferenceValue, inlined at parser.go:2717-2769 *)
Definition x_AttributeReferenceValue_2 : expr :=
  EAct (AHost "return types.NewStringElement(strings.TrimPrefix(string(c.text), `\`))") (ESeq [
      (ELit (R "\{") false);
      (ELab "name" x_AttributeName);
      (ELit (R "}") false)]).
(** parser.peg:643-654 AttributeReferenceValue, inlined at parser.go:2770-2822 *)
Definition x_AttributeReferenceValue_3 : expr :=
  EAct (AHost "return types.NewAttributeReference(name.(string), string(c.text))") (ESeq [
      (ELit (R "{") false);
      (ELab "name" x_AttributeName);
      (ELit (R "}") false)]).
(** parser.peg:666-672 CounterStart, inlined at parser.go:2872-2920 *)
Definition x_CounterStart : expr :=
  EAct (ALabel "start") (ESeq [
      (ELit (R ":") false);
      (ELab "start" (EAlt [
          (EAct AText (ECls [] [(65, 90); (97, 122)] [] false));
          (EAct (AHost "return strconv.Atoi(string(c.text))") (EPlus (ECls [] [(48, 57)] [] false)))]))]).
(** parser.peg:658-660 CounterSubstitution1, inlined at parser.go:2823-2931 *)
Definition x_CounterSubstitution1 : expr :=
  EAct (AHost "return types.NewCounterSubstitution(name.(string), false, start, string(c.text))") (ESeq [
      (ELit (R "{counter:") false);
      (ELab "name" x_AttributeName);
      (ELab "start" (EOpt x_CounterStart));
      (ELit (R "}") false)]).
(** parser.peg:662-664 CounterSubstitution2, inlined at parser.go:2932-3040 *)
Definition x_CounterSubstitution2 : expr :=
  EAct (AHost "return types.NewCounterSubstitution(name.(string), true, nil, string(c.text))") (ESeq [
      (ELit (R "{counter2:") false);
      (ELab "name" x_AttributeName);
      (ELab "start" (EOpt x_CounterStart));
      (ELit (R "}") false)]).
(** parser.peg:634-641 AttributeReference, inlined at parser.go:2701-3046 *)
Definition x_AttributeReference : expr :=
  EAct (ALabel "element") (ESeq [
      (EPred (PHost "return c.isSubstitutionEnabled(AttributeRefs), nil"));
      (ELab "element" (EAlt [
          x_AttributeReferenceValue_2;
          x_AttributeReferenceValue_3;
          x_CounterSubstitution1;
          x_CounterSubstitution2]))]).
(** parser.peg:1198-1200 ElementPlaceHolder, inlined at parser.go:3047-3085 *)
Definition x_ElementPlaceHolder : expr :=
  EAct (AHost "return types.NewElementPlaceHolder(ref.(string))") (ESeq [
      (ELit [65533] false);
      (ELab "ref" (EAct AText (EPlus (ECls [] [(48, 57)] [] false))));
      (ELit [65533] false)]).
(** parser.peg:2822-2835 Filename, inlined at parser.go:2619-3100 *)
Definition x_Filename : expr :=
  EAct (AHost "return types.NewInlineElements(elements.([]interface{}))") (ELab "elements" (EPlus (EAlt [
          (EAct AText (ESeq [
              (ENot (ELit (R "[") false));
              (EPlus (ECls [13; 10; 91; 93; 65533; 123; 44; 59; 63; 33; 46; 60; 62; 32] [] [] true))]));
          (ESeq [
            (ECls [44; 59; 63; 33; 46] [] [] false);
            (EAnd (ESeq [
                (ENot x_Space);
                (ENot x_EOF)]))]);
          x_AttributeReference;
          x_ElementPlaceHolder;
          (EAct AText (ELit (R "{") false))]))).
(** parser.peg:2806-2808 FileLocation, inlined at parser.go:2613-3102 *)
Definition x_FileLocation : expr :=
  EAct (AHost "return types.NewLocation("""", path.([]interface{}))") (ELab "path" x_Filename).
(** parser.peg:134-144 FileInclusion; parser.go:2586-3171 *)
Definition g_FileInclusion : expr :=
  EAct (AHost "return incl.(*types.FileInclusion), nil") (ESeq [
      (ELab "incl" (EAct (AHost "return types.NewFileInclusion(path.(*types.Location), attributes.(types.Attributes), string(c.text))") (ESeq [
            (ELit (R "include::") false);
            (ELab "path" x_FileLocation);
            (ELab "attributes" (ERef "InlineAttributes"))])));
      (EStar x_Space);
      x_EOL]).
(** parser.peg:165-167 MultilineRange, inlined at parser.go:3199-3277 *)
Definition x_MultilineRange : expr :=
  EAct (AHost "return types.NewLineRange(start.(int), end.(int))") (ESeq [
      (ELab "start" x_Integer);
      (ELit (R "..") false);
      (ELab "end" x_Integer)]).
(** parser.peg:169-171 SinglelineRange, inlined at parser.go:3278-3313 *)
Definition x_SinglelineRange : expr :=
  EAct (AHost "return types.NewLineRange(singleline.(int), singleline.(int))") (ELab "singleline" x_Integer).
(** parser.peg:156-163 MultipleLineRanges, inlined at parser.go:3187-3466 *)
Definition x_MultipleLineRanges : expr :=
  EAct (AHost "return append([]interface{}{first}, others.([]interface{})...), nil") (ESeq [
      (ELab "first" (EAlt [
          x_MultilineRange;
          x_SinglelineRange]));
      (ELab "others" (EPlus (EAct (ALabel "other") (ESeq [
              (ECls [44; 59] [] [] false);
              (ELab "other" (EAlt [
                  x_MultilineRange;
                  x_SinglelineRange]))]))))]).
(** parser.peg:149-154 LineRanges; parser.go:3172-3594 *)
Definition g_LineRanges : expr :=
  EAct (ALabel "value") (ESeq [
      (ELab "value" (EAlt [
          x_MultipleLineRanges;
          x_MultilineRange;
          x_SinglelineRange]));
      x_EOF]).
(** parser.peg:2746-2748 Alphanums, inlined at parser.go:3628-3641 *)
Definition x_Alphanums : expr :=
  EAct AText (EPlus (ECls [] [] ["L"; "N"] false)).
(** parser.peg:193-201 TagWildcard, inlined at parser.go:3642-3671 *)
Definition x_TagWildcard : expr :=
  EAct (ALabel "stars") (ESeq [
      (ELab "stars" (EAct AText (EPlus (ELit (R "*") false))));
      (EPred (PLenLe "stars" 2))]).
(** parser.peg:187-191 TagRange, inlined at parser.go:3616-3745 *)
Definition x_TagRange : expr :=
  EAlt [
    (EAct (AHost "return types.NewTagRange(tag.(string), true)") (ELab "tag" (EAlt [
          x_Alphanums;
          x_TagWildcard])));
    (EAct (AHost "return types.NewTagRange(tag.(string), false)") (ESeq [
        (ELit (R "!") false);
        (ELab "tag" (EAlt [
            x_Alphanums;
            x_TagWildcard]))]))].
(** parser.peg:178-185 MultipleTagRanges, inlined at parser.go:3607-3906 *)
Definition x_MultipleTagRanges : expr :=
  EAct (AHost "return append([]interface{}{first}, others.([]interface{})...), nil") (ESeq [
      (ELab "first" x_TagRange);
      (ELab "others" (EStar (EAct (ALabel "other") (ESeq [
              (ECls [44; 59] [] [] false);
              (ELab "other" x_TagRange)]))))]).
(** parser.peg:174-176 TagRanges; parser.go:3595-3917 *)
Definition g_TagRanges : expr :=
  EAct (ALabel "value") (ESeq [
      (ELab "value" x_MultipleTagRanges);
      x_EOF]).
(** parser.peg:207-209 IncludedFileStartTag, inlined at parser.go:3935-3977 *)
Definition x_IncludedFileStartTag : expr :=
  EAct (AHost "return types.NewIncludedFileStartTag(tag.(string))") (ESeq [
      (ELit (R "tag::") false);
      (ELab "tag" (EAct AText x_Alphanums));
      (ELit (R "[]") false)]).
(** parser.peg:211-213 IncludedFileEndTag, inlined at parser.go:3978-4020 *)
Definition x_IncludedFileEndTag : expr :=
  EAct (AHost "return types.NewIncludedFileEndTag(tag.(string))") (ESeq [
      (ELit (R "end::") false);
      (ELab "tag" (EAct AText x_Alphanums));
      (ELit (R "[]") false)]).
(** parser.peg:203-205 IncludedFileLine; parser.go:3918-4073 *)
Definition g_IncludedFileLine : expr :=
  EAct (AHost "return types.NewIncludedFileLine(content.([]interface{}))") (ESeq [
      (ELab "content" (EStar (EAlt [
            x_IncludedFileStartTag;
            x_IncludedFileEndTag;
            (EAct AText EAny)])));
      x_EOL]).
(** parser.peg:2869-2869 NotEOF, inlined at parser.go:4083-4088 *)
Definition x_NotEOF : expr :=
  EAnd EAny.
(** parser.peg:677-679 BlankLine, inlined at parser.go:4338-4404 *)
Definition x_BlankLine : expr :=
  EAct (AHost "return types.NewBlankLine()") (ESeq [
      x_NotEOF;
      (EStar x_Space);
      x_EOL]).
(** parser.peg:828-828 CommentBlockEndDelimiter, inlined at parser.go:4521-4620 *)
Definition x_CommentBlockEndDelimiter : expr :=
  EAlt [
    x_CommentBlockDelimiter;
    x_EOF].
(** parser.peg:2798-2800 AnyChars, inlined at parser.go:4640-4653 *)
Definition x_AnyChars : expr :=
  EAct AText (EStar (ECls [13; 10] [] [] true)).
(** parser.peg:810-814 DelimitedBlockRawLine, inlined at parser.go:4625-4695 *)
Definition x_DelimitedBlockRawLine : expr :=
  EAct (AHost "return types.NewRawLine(content.(string))") (ESeq [
      x_NotEOF;
      (ELab "content" x_AnyChars);
      x_EOL]).
(** parser.peg:830-834 CommentBlockContent, inlined at parser.go:4511-4700 *)
Definition x_CommentBlockContent : expr :=
  EStar (EAct (ALabel "line") (ESeq [
        (ENot x_CommentBlockEndDelimiter);
        (ELab "line" x_DelimitedBlockRawLine)])).
(** parser.peg:819-824 CommentBlock, inlined at parser.go:4413-4807 *)
Definition x_CommentBlock : expr :=
  EAct (AHost "return types.NewDelimitedBlock(types.Comment, content.([]interface{}))") (ESeq [
      x_CommentBlockDelimiter;
      (ELab "content" x_CommentBlockContent);
      (EOpt x_CommentBlockEndDelimiter)]).
(** parser.peg:851-856 ExampleBlockEndDelimiter, inlined at parser.go:4924-5036 *)
Definition x_ExampleBlockEndDelimiter : expr :=
  EAlt [
    (ESeq [
      (ELab "end" x_ExampleBlockDelimiter);
      (EPred (PHost "return c.matchBlockDelimiterLength(end.(*types.BlockDelimiter).Length)"))]);
    x_EOF].
(** parser.peg:858-862 ExampleBlockContent, inlined at parser.go:4914-5116 *)
Definition x_ExampleBlockContent : expr :=
  EStar (EAct (ALabel "line") (ESeq [
        (ENot x_ExampleBlockEndDelimiter);
        (ELab "line" x_DelimitedBlockRawLine)])).
(** parser.peg:839-847 ExampleBlock, inlined at parser.go:4808-5240 *)
Definition x_ExampleBlock : expr :=
  EAct (AHost "return types.NewDelimitedBlock(types.Example, content.([]interface{}))") (ESeq [
      (ELab "start" x_ExampleBlockDelimiter);
      (EPred (PHost "return c.setBlockDelimiterLength(start.(*types.BlockDelimiter).Length)"));
      (ELab "content" x_ExampleBlockContent);
      (ELab "end" (EOpt x_ExampleBlockEndDelimiter))]).
(** parser.peg:963-963 MarkdownCodeBlockEndDelimiter, inlined at parser.go:5349-5411 *)
Definition x_MarkdownCodeBlockEndDelimiter : expr :=
  ESeq [
    (ELit (R "```") false);
    (EStar x_Space);
    x_EOL].
(** parser.peg:965-969 MarkdownCodeBlockContent, inlined at parser.go:5339-5491 *)
Definition x_MarkdownCodeBlockContent : expr :=
  EStar (EAct (ALabel "line") (ESeq [
        (ENot x_MarkdownCodeBlockEndDelimiter);
        (ELab "line" x_DelimitedBlockRawLine)])).
(** parser.peg:951-959 MarkdownCodeBlock, inlined at parser.go:5241-5561 *)
Definition x_MarkdownCodeBlock : expr :=
  EAct (AHost "b, err := types.NewDelimitedBlock(types.Listing, content.([]interface{})) b.AddAttributes(delimiter.(*types.BlockDelimiter).Attributes) return b, err") (ESeq [
      (ELab "delimiter" x_MarkdownCodeDelimiter);
      (ELab "content" x_MarkdownCodeBlockContent);
      (EOpt x_MarkdownCodeBlockEndDelimiter)]).
(** parser.peg:879-884 FencedBlockEndDelimiter, inlined at parser.go:5678-5790 *)
Definition x_FencedBlockEndDelimiter : expr :=
  EAlt [
    (ESeq [
      (ELab "end" x_FencedBlockDelimiter);
      (EPred (PHost "return c.matchBlockDelimiterLength(end.(*types.BlockDelimiter).Length)"))]);
    x_EOF].
(** parser.peg:886-890 FencedBlockContent, inlined at parser.go:5668-5870 *)
Definition x_FencedBlockContent : expr :=
  EStar (EAct (ALabel "line") (ESeq [
        (ENot x_FencedBlockEndDelimiter);
        (ELab "line" x_DelimitedBlockRawLine)])).
(** parser.peg:867-875 FencedBlock, inlined at parser.go:5562-5994 *)
Definition x_FencedBlock : expr :=
  EAct (AHost "return types.NewDelimitedBlock(types.Fenced, content.([]interface{}))") (ESeq [
      (ELab "start" x_FencedBlockDelimiter);
      (EPred (PHost "return c.setBlockDelimiterLength(start.(*types.BlockDelimiter).Length)"));
      (ELab "content" x_FencedBlockContent);
      (ELab "end" (EOpt x_FencedBlockEndDelimiter))]).
(** parser.peg:907-912 ListingBlockEndDelimiter, inlined at parser.go:6111-6223 *)
Definition x_ListingBlockEndDelimiter : expr :=
  EAlt [
    (ESeq [
      (ELab "end" x_ListingBlockDelimiter);
      (EPred (PHost "return c.matchBlockDelimiterLength(end.(*types.BlockDelimiter).Length)"))]);
    x_EOF].
(** parser.peg:914-918 ListingBlockContent, inlined at parser.go:6101-6303 *)
Definition x_ListingBlockContent : expr :=
  EStar (EAct (ALabel "line") (ESeq [
        (ENot x_ListingBlockEndDelimiter);
        (ELab "line" x_DelimitedBlockRawLine)])).
(** parser.peg:895-903 ListingBlock, inlined at parser.go:5995-6427 *)
Definition x_ListingBlock : expr :=
  EAct (AHost "return types.NewDelimitedBlock(types.Listing, content.([]interface{}))") (ESeq [
      (ELab "start" x_ListingBlockDelimiter);
      (EPred (PHost "return c.setBlockDelimiterLength(start.(*types.BlockDelimiter).Length)"));
      (ELab "content" x_ListingBlockContent);
      (ELab "end" (EOpt x_ListingBlockEndDelimiter))]).
(** parser.peg:935-940 LiteralBlockEndDelimiter, inlined at parser.go:6544-6656 *)
Definition x_LiteralBlockEndDelimiter : expr :=
  EAlt [
    (ESeq [
      (ELab "end" x_LiteralBlockDelimiter);
      (EPred (PHost "return c.matchBlockDelimiterLength(end.(*types.BlockDelimiter).Length)"))]);
    x_EOF].
(** parser.peg:942-946 LiteralBlockContent, inlined at parser.go:6534-6736 *)
Definition x_LiteralBlockContent : expr :=
  EStar (EAct (ALabel "line") (ESeq [
        (ENot x_LiteralBlockEndDelimiter);
        (ELab "line" x_DelimitedBlockRawLine)])).
(** parser.peg:923-931 LiteralBlock, inlined at parser.go:6428-6860 *)
Definition x_LiteralBlock : expr :=
  EAct (AHost "return types.NewDelimitedBlock(types.Literal, content.([]interface{}))") (ESeq [
      (ELab "start" x_LiteralBlockDelimiter);
      (EPred (PHost "return c.setBlockDelimiterLength(start.(*types.BlockDelimiter).Length)"));
      (ELab "content" x_LiteralBlockContent);
      (ELab "end" (EOpt x_LiteralBlockEndDelimiter))]).
(** parser.peg:981-986 MarkdownQuoteRawLine, inlined at parser.go:6870-7010 *)
Definition x_MarkdownQuoteRawLine : expr :=
  EAct (AHost "return types.NewRawLine(content.(string))") (ESeq [
      (ENot x_BlankLine);
      (ELit (R "> ") false);
      (ELab "content" x_ManyChars);
      x_EOL]).
(** parser.peg:1783-1790 ParagraphRawLine, inlined at parser.go:7161-7229 *)
Definition x_ParagraphRawLine : expr :=
  EAct (AHost "return types.NewRawLine(content.(string))") (ESeq [
      (ELab "content" x_ManyChars);
      (EPred (PNonBlank "content"));
      x_EOL]).
(** parser.peg:974-979 MarkdownQuoteBlock, inlined at parser.go:6861-7236 *)
Definition x_MarkdownQuoteBlock : expr :=
  EAct (AHost "return types.NewDelimitedBlock(types.MarkdownQuote, append([]interface{}{firstLine}, otherLines.([]interface{})...))") (ESeq [
      (ELab "firstLine" x_MarkdownQuoteRawLine);
      (ELab "otherLines" (EStar (EAlt [
            x_MarkdownQuoteRawLine;
            x_ParagraphRawLine])))]).
(** parser.peg:775-780 OpenBlockDelimiter, inlined at parser.go:7246-7320 *)
Definition x_OpenBlockDelimiter : expr :=
  EAct (AHost "return types.NewBlockDelimiter(types.Open, len(delimiter.(string)), string(c.text))") (ESeq [
      (ELab "delimiter" (EAct AText (ELit (R "--") false)));
      (EStar x_Space);
      x_EOL]).
(** parser.peg:1005-1005 OpenBlockEndDelimiter, inlined at parser.go:7335-7420 *)
Definition x_OpenBlockEndDelimiter : expr :=
  EAlt [
    x_OpenBlockDelimiter;
    x_EOF].
(** parser.peg:1007-1011 OpenBlockContent, inlined at parser.go:7325-7500 *)
Definition x_OpenBlockContent : expr :=
  EStar (EAct (ALabel "line") (ESeq [
        (ENot x_OpenBlockEndDelimiter);
        (ELab "line" x_DelimitedBlockRawLine)])).
(** parser.peg:996-1001 OpenBlock, inlined at parser.go:7237-7597 *)
Definition x_OpenBlock : expr :=
  EAct (AHost "return types.NewDelimitedBlock(types.Open, content.([]interface{}))") (ESeq [
      (ELab "start" x_OpenBlockDelimiter);
      (ELab "content" x_OpenBlockContent);
      (ELab "end" (EOpt x_OpenBlockEndDelimiter))]).
(** parser.peg:1028-1033 PassthroughBlockEndDelimiter, inlined at parser.go:7714-7826 *)
Definition x_PassthroughBlockEndDelimiter : expr :=
  EAlt [
    (ESeq [
      (ELab "end" x_PassthroughBlockDelimiter);
      (EPred (PHost "return c.matchBlockDelimiterLength(end.(*types.BlockDelimiter).Length)"))]);
    x_EOF].
(** parser.peg:1035-1039 PassthroughBlockContent, inlined at parser.go:7704-7906 *)
Definition x_PassthroughBlockContent : expr :=
  EStar (EAct (ALabel "line") (ESeq [
        (ENot x_PassthroughBlockEndDelimiter);
        (ELab "line" x_DelimitedBlockRawLine)])).
(** parser.peg:1016-1024 PassthroughBlock, inlined at parser.go:7598-8030 *)
Definition x_PassthroughBlock : expr :=
  EAct (AHost "return types.NewDelimitedBlock(types.Passthrough, content.([]interface{}))") (ESeq [
      (ELab "start" x_PassthroughBlockDelimiter);
      (EPred (PHost "return c.setBlockDelimiterLength(start.(*types.BlockDelimiter).Length)"));
      (ELab "content" x_PassthroughBlockContent);
      (ELab "end" (EOpt x_PassthroughBlockEndDelimiter))]).
(** parser.peg:1056-1061 QuoteBlockEndDelimiter, inlined at parser.go:8147-8259 *)
Definition x_QuoteBlockEndDelimiter : expr :=
  EAlt [
    (ESeq [
      (ELab "end" x_QuoteBlockDelimiter);
      (EPred (PHost "return c.matchBlockDelimiterLength(end.(*types.BlockDelimiter).Length)"))]);
    x_EOF].
(** parser.peg:1063-1067 QuoteBlockContent, inlined at parser.go:8137-8339 *)
Definition x_QuoteBlockContent : expr :=
  EStar (EAct (ALabel "line") (ESeq [
        (ENot x_QuoteBlockEndDelimiter);
        (ELab "line" x_DelimitedBlockRawLine)])).
(** parser.peg:1044-1052 QuoteBlock, inlined at parser.go:8031-8463 *)
Definition x_QuoteBlock : expr :=
  EAct (AHost "return types.NewDelimitedBlock(types.Quote, content.([]interface{}))") (ESeq [
      (ELab "start" x_QuoteBlockDelimiter);
      (EPred (PHost "return c.setBlockDelimiterLength(start.(*types.BlockDelimiter).Length)"));
      (ELab "content" x_QuoteBlockContent);
      (ELab "end" (EOpt x_QuoteBlockEndDelimiter))]).
(** parser.peg:1084-1089 SidebarBlockEndDelimiter, inlined at parser.go:8580-8692 *)
Definition x_SidebarBlockEndDelimiter : expr :=
  EAlt [
    (ESeq [
      (ELab "end" x_SidebarBlockDelimiter);
      (EPred (PHost "return c.matchBlockDelimiterLength(end.(*types.BlockDelimiter).Length)"))]);
    x_EOF].
(** parser.peg:1091-1095 SidebarBlockContent, inlined at parser.go:8570-8772 *)
Definition x_SidebarBlockContent : expr :=
  EStar (EAct (ALabel "line") (ESeq [
        (ENot x_SidebarBlockEndDelimiter);
        (ELab "line" x_DelimitedBlockRawLine)])).
(** parser.peg:1072-1080 SidebarBlock, inlined at parser.go:8464-8896 *)
Definition x_SidebarBlock : expr :=
  EAct (AHost "return types.NewDelimitedBlock(types.Sidebar, content.([]interface{}))") (ESeq [
      (ELab "start" x_SidebarBlockDelimiter);
      (EPred (PHost "return c.setBlockDelimiterLength(start.(*types.BlockDelimiter).Length)"));
      (ELab "content" x_SidebarBlockContent);
      (ELab "end" (EOpt x_SidebarBlockEndDelimiter))]).
(** parser.peg:2697-2702 ThematicBreak, inlined at parser.go:8897-9042 *)
Definition x_ThematicBreak : expr :=
  EAct (AHost "return types.NewThematicBreak()") (ESeq [
      (EAlt [
        (ELit (R "'''") false);
        (ELit (R "***") false);
        (ELit (R "* * *") false);
        (ELit (R "---") false);
        (ELit (R "- - -") false);
        (ELit (R "___") false);
        (ELit (R "_ _ _") false)]);
      (EStar x_Space);
      x_EOL;
      x_EOL]).
(** parser.peg:2594-2594 TableDelimiter, inlined at parser.go:9059-9072 *)
Definition x_TableDelimiter : expr :=
  EStar x_Space.
(** parser.peg:2594-2594 TableDelimiter, inlined at parser.go:9197-9259 *)
Definition x_TableDelimiter_2 : expr :=
  ESeq [
    (ELit (R "|===") false);
    (EStar x_Space);
    x_EOL].
(** parser.peg:2598-2598 TableEndDelimiter, inlined at parser.go:9194-9267 *)
Definition x_TableEndDelimiter : expr :=
  EAlt [
    x_TableDelimiter_2;
    x_EOF].
(** parser.peg:2621-2626 InlineTableCellContent, inlined at parser.go:9324-9345 *)
Definition x_InlineTableCellContent : expr :=
  EAct (AHost "return types.NewRawLine(content.(string))") (ELab "content" (EAct AText (EStar (ECls [124; 13; 10] [] [] true)))).
(** parser.peg:2615-2619 InlineTableCell, inlined at parser.go:9295-9349 *)
Definition x_InlineTableCell : expr :=
  EAct (AHost "return types.NewInlineTableCell(content.(*types.RawLine))") (ESeq [
      (ELit (R "|") false);
      (EStar x_Space);
      (ELab "content" x_InlineTableCellContent)]).
(** parser.peg:2611-2613 InlineTableCells, inlined at parser.go:9284-9392 *)
Definition x_InlineTableCells : expr :=
  EAct (ALabel "cells") (ESeq [
      (ELab "cells" (EPlus x_InlineTableCell));
      x_EOL]).
(** parser.peg:2652-2654 TableCellFormat, inlined at parser.go:9559-9572 *)
Definition x_TableCellFormat : expr :=
  EAct AText (EStar (ECls [32; 124; 13; 10] [] [] true)).
(** parser.peg:2640-2650 MultilineTableCellContent, inlined at parser.go:9628-9880 *)
Definition x_MultilineTableCellContent : expr :=
  EStar (EAct (AHost "return types.NewRawLine(content.(string))") (ESeq [
        (ENot x_TableEndDelimiter);
        (ENot x_BlankLine);
        (ENot (ESeq [
            (ELab "format" (EOpt x_TableCellFormat));
            (ELit (R "|") false)]));
        (ELab "content" (EAct AText (EStar (ECls [124; 13; 10] [] [] true))));
        (EOpt x_EOL)])).
(** parser.peg:2632-2638 MultilineTableCell, inlined at parser.go:9401-9884 *)
Definition x_MultilineTableCell : expr :=
  EAct (AHost "return types.NewMultilineTableCell(content.([]interface{}), format)") (ESeq [
      (ENot x_TableEndDelimiter);
      (ENot x_BlankLine);
      (ELab "format" (EOpt x_TableCellFormat));
      (ELit (R "|") false);
      (EStar x_Space);
      (EOpt x_Newline);
      (ELab "content" x_MultilineTableCellContent)]).
(** parser.peg:2628-2630 MultilineTableCells, inlined at parser.go:9393-9887 *)
Definition x_MultilineTableCells : expr :=
  EAct (ALabel "cells") (ELab "cells" (EPlus x_MultilineTableCell)).
(** parser.peg:2600-2609 TableLine, inlined at parser.go:9186-9964 *)
Definition x_TableLine : expr :=
  EAct (ALabel "content") (ESeq [
      (ENot x_TableEndDelimiter);
      (ELab "content" (EAlt [
          (EAct (AHost "return types.NewTableRow(cells.([]interface{}))") (ELab "cells" (EAlt [
                x_InlineTableCells;
                x_MultilineTableCells])));
          x_BlankLine]))]).
(** parser.peg:2587-2592 Table, inlined at parser.go:9047-10045 *)
Definition x_Table : expr :=
  EAct (AHost "return types.NewTable(lines.([]interface{}))") (ESeq [
      (ELit (R "|===") false);
      x_TableDelimiter;
      x_EOL;
      (ELab "lines" (EStar (EAlt [
            x_BlankLine;
            x_TableLine])));
      x_TableEndDelimiter]).
(** parser.peg:2467-2467 SinglelineCommentDelimiter, inlined at parser.go:10058-10066 *)
Definition x_SinglelineCommentDelimiter : expr :=
  ENot (ELit (R "//") false).
(** parser.peg:2462-2464 SinglelineComment, inlined at parser.go:10046-10125 *)
Definition x_SinglelineComment : expr :=
  EAct (AHost "return types.NewSinglelineComment(content.(string))") (ESeq [
      (ELit (R "//") false);
      x_SinglelineCommentDelimiter;
      (ELab "content" x_AnyChars);
      x_EOL]).
(** parser.peg:1234-1234 YamlFrontMatterDelimiter, inlined at parser.go:10151-10164 *)
Definition x_YamlFrontMatterDelimiter : expr :=
  EStar x_Space.
(** parser.peg:1234-1234 YamlFrontMatterDelimiter, inlined at parser.go:10220-10282 *)
Definition x_YamlFrontMatterDelimiter_2 : expr :=
  ESeq [
    (ELit (R "---") false);
    (EStar x_Space);
    x_EOL].
(** parser.peg:1236-1238 YamlFrontMatterContent, inlined at parser.go:10208-10291 *)
Definition x_YamlFrontMatterContent : expr :=
  EAct AText (EStar (EPlus (ESeq [
          (ENot x_YamlFrontMatterDelimiter_2);
          EAny]))).
(** parser.peg:1230-1232 YamlFrontMatter, inlined at parser.go:10139-10354 *)
Definition x_YamlFrontMatter : expr :=
  EAct (AHost "return types.NewYamlFrontMatter(content.(string))") (ESeq [
      (ELit (R "---") false);
      x_YamlFrontMatterDelimiter;
      x_EOL;
      (ELab "content" (EOpt x_YamlFrontMatterContent));
      (ELit (R "---") false);
      x_YamlFrontMatterDelimiter;
      x_EOL]).
(** parser.peg:1221-1228 FrontMatter, inlined at parser.go:10126-10358 *)
Definition x_FrontMatter : expr :=
  EAct (ALabel "frontmatter") (ESeq [
      (EPred (PHost "return c.isFrontMatterAllowed(), nil"));
      (ELab "frontmatter" x_YamlFrontMatter)]).
(** parser.peg:227-265 DocumentFragment; parser.go:4074-10374 *)
Definition g_DocumentFragment : expr :=
  EAct (AThen "c.disableFrontMatterRule() c.disableDocumentHeaderRule(element) if element, ok := element.(types.WithAttributes); ok && attributes != nil { element.AddAttributes(attributes.(types.Attributes)) }" "element") (ESeq [
      x_NotEOF;
      (ELab "attributes" (EOpt (ERef "BlockAttributes")));
      (EState "if attributes, ok := attributes.(types.Attributes); ok { c.storeBlockAttributes(attributes) } return nil");
      (ELab "element" (EOpt (EAlt [
            (ERef "ImageBlock");
            (ERef "UserMacroBlock");
            (ERef "ShortcutParagraph");
            (ERef "AttributeDeclaration");
            x_AttributeReset;
            x_AttributeReset_2;
            x_BlankLine;
            (ERef "DocumentHeader");
            (ERef "Section");
            x_CommentBlock;
            x_ExampleBlock;
            x_MarkdownCodeBlock;
            x_FencedBlock;
            x_ListingBlock;
            x_LiteralBlock;
            x_MarkdownQuoteBlock;
            x_OpenBlock;
            x_PassthroughBlock;
            x_QuoteBlock;
            x_SidebarBlock;
            x_ThematicBreak;
            (ERef "ListElements");
            x_Table;
            x_SinglelineComment;
            x_FrontMatter;
            (ERef "Paragraph")])));
      (EPred (PSome ["attributes"; "element"]))]).
(** parser.peg:276-287 DelimitedBlockElements; parser.go:10375-10452 *)
Definition g_DelimitedBlockElements : expr :=
  EAct (ALabel "elements") (ESeq [
      (EState "c.globalStore[withinDelimitedBlockKey] = true return nil");
      (ELab "elements" (EStar (EAlt [
            x_ElementPlaceHolder;
            (ERef "DocumentFragment")])));
      x_EOF]).
(** parser.peg:302-313 AttributeDeclaration; parser.go:10453-10585 *)
Definition g_AttributeDeclaration : expr :=
  EAct (AHost "return types.NewAttributeDeclaration(name.(string), value, string(c.text))") (ESeq [
      (ELit (R ":") false);
      (ELab "name" x_AttributeName);
      (ELit (R ":") false);
      (ELab "value" (EOpt (EAct (ALabel "value") (ESeq [
              x_Spaces;
              (ELab "value" (ERef "AttributeDeclarationValue"))]))));
      x_EOL]).
(** parser.peg:322-336 AttributeDeclarationValue; parser.go:10586-10677 *)
Definition g_AttributeDeclarationValue : expr :=
  EAct (AHost "if otherElements, ok := otherElements.([]interface{}); ok { elements = append(elements.([]interface{}), otherElements...) } return types.Reduce(elements.([]interface{}), strings.TrimSpace), nil") (ESeq [
      (ELab "elements" (ERef "AttributeDeclarationValueElements"));
      (ELab "otherElements" (EStar (EAct (ALabel "elements") (ESeq [
              (ELit (R "\") false);
              x_Newline;
              (EStar x_Space);
              (ELab "elements" (ERef "AttributeDeclarationValueElements"))]))))]).
(** parser.peg:338-341 AttributeDeclarationValueElements; parser.go:10678-10696 *)
Definition g_AttributeDeclarationValueElements : expr :=
  EAct (AHost "return elements.([]interface{}), nil") (ELab "elements" (EStar (ERef "AttributeDeclarationValueElement"))).
(** parser.peg:2447-2457 SpecialCharacter, inlined at parser.go:10799-10826 *)
Definition x_SpecialCharacter : expr :=
  EAct (ALabel "element") (ESeq [
      (EPred (PHost "return c.isSubstitutionEnabled(SpecialCharacters), nil"));
      (ELab "element" (EAct (AHost "return types.NewSpecialCharacter(string(c.text))") (ECls [60; 62; 38] [] [] false)))]).
(** parser.peg:343-358 AttributeDeclarationValueElement; parser.go:10697-11190 *)
Definition g_AttributeDeclarationValueElement : expr :=
  EAct (ALabel "element") (ESeq [
      (ENot (ESeq [
          (EOpt (ELit (R "\") false));
          (EStar x_Space);
          x_EOL]));
      (ELab "element" (EAlt [
          (ERef "InlinePassthrough");
          (EAct (AHost "return types.NewStringElement(string(c.text))") (EPlus (ECls [13; 10; 60; 62; 38; 123; 32] [] [] true)));
          x_SpecialCharacter;
          x_Space;
          x_AttributeReference]))]).
(** parser.peg:403-420 LegacyElementID, inlined at parser.go:11214-11663 *)
Definition x_LegacyElementID : expr :=
  EAct (AHost "return types.NewIDAttribute(id)") (ESeq [
      (ELit (R "[[") false);
      (ELab "id" (EAct (AHost "return types.Reduce(elements, strings.TrimSpace), nil") (ELab "elements" (EPlus (EAlt [
                (EAct (AHost "return types.NewStringElement(string(c.text))") (EPlus (ECls [61; 13; 10; 65533; 123; 93] [] [] true)));
                x_ElementPlaceHolder;
                x_AttributeReference;
                (EAct (AHost "return types.NewStringElement(string(c.text))") (ELit (R "{") false))])))));
      (ELit (R "]]") false)]).
(** parser.peg:2768-2788 Punctuation, inlined at parser.go:11854-11926 *)
Definition x_Punctuation : expr :=
  EAct AText (EAlt [
      (ECls [46; 44; 59; 63; 41; 33; 47; 58; 34; 39; 64; 61; 45] [] [] false);
      (ESeq [
        (EPred (PHost "return c.allSubstitutionsDisabled(Macros, Quotes), nil"));
        (ELit (R "[") false)]);
      (ELit (R "]") false);
      (ESeq [
        (EPred (PHost "return c.isSubstitutionDisabled(Quotes), nil"));
        (ECls [42; 95; 96; 35] [] [] false)]);
      (ESeq [
        (ELit (R "(") false);
        (ENot (ELit (R "(") false))])]).
(** parser.peg:2791-2796 AnyChar, inlined at parser.go:12033-12043 *)
Definition x_AnyChar : expr :=
  EAct AText (ECls [13; 10] [] [] true).
(** parser.peg:423-433 ShortHandTitle, inlined at parser.go:11799-12050 *)
Definition x_ShortHandTitle : expr :=
  EAct (AHost "return types.NewTitleAttribute(types.Reduce(elements, strings.TrimSpace))") (ESeq [
      (ELit (R ".") false);
      (ENot (ECls [46; 32] [] [] false));
      (ELab "elements" (EPlus (EAlt [
            x_Alphanums;
            x_Space;
            x_Punctuation;
            x_AttributeReferenceValue_2;
            x_AttributeReferenceValue_3;
            x_AnyChar])))]).
(** parser.peg:369-386 BlockAttributes; parser.go:11191-12321 *)
Definition g_BlockAttributes : expr :=
  EAct (AHost "return types.MergeAttributes(attributes.([]interface{})...)") (ELab "attributes" (EPlus (EAlt [
          (EAct (ALabel "anchor") (ESeq [
              (ELab "anchor" x_LegacyElementID);
              (EStar x_Space);
              x_EOL;
              (EStar x_BlankLine)]));
          (EAct (ALabel "title") (ESeq [
              (ELab "title" x_ShortHandTitle);
              (EStar x_Space);
              x_EOL;
              (EStar x_BlankLine)]));
          (EAct (ALabel "attributes") (ESeq [
              (ELab "attributes" (ERef "LongHandAttributes"));
              (EStar x_Space);
              x_EOL;
              (EStar x_BlankLine)]))]))).
(** parser.peg:388-400 InlineAttributes; parser.go:12322-12388 *)
Definition g_InlineAttributes : expr :=
  EAct (AHost "return types.NewAttributes(attributes.([]interface{})...)") (ESeq [
      (ELit (R "[") false);
      (ELab "attributes" (EStar (EAct (ALabel "attribute") (ESeq [
              (ENot (ELit (R "]") false));
              (ELab "attribute" (EAlt [
                  (ERef "PositionalAttribute");
                  (ERef "NamedAttribute")]))]))));
      (ELit (R "]") false)]).
(** parser.peg:437-450 LongHandAttributes; parser.go:12389-12462 *)
Definition g_LongHandAttributes : expr :=
  EAct (AHost "attributes := []interface{}{} if firstPositionalAttributes != nil { attributes = append(attributes, firstPositionalAttributes.([]interface{})...) } if len(otherAttributes.([]interface{})) > 0 { attributes = append(attributes, otherAttributes.([]interface{})...) } return types.NewAttributes(attributes...)") (ESeq [
      (ENot (ELit (R "\") false));
      (ELit (R "[") false);
      (ENot (ELit (R "[") false));
      (ELab "firstPositionalAttributes" (EOpt (ERef "FirstPositionalAttributes")));
      (ELab "otherAttributes" (EStar (EAlt [
            (ERef "PositionalAttribute");
            (ERef "NamedAttribute")])));
      (ELit (R "]") false)]).
(** parser.peg:454-480 FirstPositionalAttributes; parser.go:12463-12573 *)
Definition g_FirstPositionalAttributes : expr :=
  EAct (AHost "attrs := []interface{}{} if main != nil { attrs = append(attrs, main) } if len(extras.([]interface{})) > 0 { attrs = append(attrs, extras.([]interface{})...) } return attrs, nil") (ESeq [
      (ELab "main" (EOpt (ERef "ShortHandAttribute")));
      (ELab "extras" (EStar (EAct (ALabel "extra") (ESeq [
              (ENot (ELit (R ",") false));
              (ENot (ELit (R "]") false));
              (ELab "extra" (EAlt [
                  (ERef "ShortHandIDAttribute");
                  (ERef "ShortHandOptionAttribute");
                  (ERef "ShortHandDotRoleAttribute")]))]))));
      (EOpt (ESeq [
          (ELit (R ",") false);
          (EStar x_Space)]));
      (EPred (PMainOrExtras "main" "extras"))]).
(** parser.peg:483-485 ShortHandIDAttribute; parser.go:12574-12600 *)
Definition g_ShortHandIDAttribute : expr :=
  EAct (AHost "return types.NewIDAttribute(id)") (ESeq [
      (ELit (R "#") false);
      (ELab "id" (ERef "ShortHandAttributeValue"))]).
(** parser.peg:487-489 ShortHandAttribute; parser.go:12601-12616 *)
Definition g_ShortHandAttribute : expr :=
  EAct (AHost "return types.NewPositionalAttribute(value)") (ELab "value" (ERef "ShortHandAttributeValue")).
(** parser.peg:492-494 ShortHandDotRoleAttribute; parser.go:12617-12643 *)
Definition g_ShortHandDotRoleAttribute : expr :=
  EAct (AHost "return types.NewRoleAttribute(role)") (ESeq [
      (ELit (R ".") false);
      (ELab "role" (ERef "ShortHandAttributeValue"))]).
(** parser.peg:497-499 ShortHandOptionAttribute; parser.go:12644-12670 *)
Definition g_ShortHandOptionAttribute : expr :=
  EAct (AHost "return types.NewOptionAttribute(option)") (ESeq [
      (ELit (R "%") false);
      (ELab "option" (ERef "ShortHandAttributeValue"))]).
(** parser.peg:502-520 ShortHandAttributeValue; parser.go:12671-13113 *)
Definition g_ShortHandAttributeValue : expr :=
  EAlt [
    (ERef "SingleQuotedAttributeValue");
    (ERef "DoubleQuotedAttributeValue");
    (EAct (AHost "return types.Reduce(elements, strings.TrimSpace), nil") (ESeq [
        (ELab "elements" (EPlus (EAlt [
              (ERef "QuotationMark");
              (EAct (AHost "return types.NewStringElement(string(c.text))") (EPlus (ECls [44; 61; 46; 37; 35; 32; 13; 10; 65533; 123; 93] [] [] true)));
              x_AttributeReference;
              (EAct (AHost "return types.NewStringElement(string(c.text))") (ELit (R "{") false))])));
        (EAnd (ENot (ESeq [
              (EStar x_Space);
              (ELit (R "=") false)])))]))].
(** parser.peg:523-538 PositionalAttribute; parser.go:13114-13256 *)
Definition g_PositionalAttribute : expr :=
  EAlt [
    (EAct (AHost "return types.NewPositionalAttribute(value)") (ESeq [
        (ELab "value" (ERef "AttributeValue"));
        (EAlt [
          (EOpt (ESeq [
              (ELit (R ",") false);
              (EStar x_Space)]));
          (EAnd (ELit (R "]") false))])]));
    (EAct (AHost "return types.NewPositionalAttribute(nil)") (ESeq [
        (ELab "value" (ESeq [
            (EStar x_Space);
            (EAlt [
              (ESeq [
                (ELit (R ",") false);
                (EStar x_Space)]);
              (EAnd (ELit (R "]") false))])]));
        (EPred (PNotAllNil "value"))]))].
(** parser.peg:549-551 NamedAttributeKey, inlined at parser.go:13269-13301 *)
Definition x_NamedAttributeKey : expr :=
  EAct AText (ESeq [
      (ENot x_Space);
      (EPlus (ECls [13; 10; 61; 44; 93] [] [] true))]).
(** parser.peg:540-546 NamedAttribute; parser.go:13257-13362 *)
Definition g_NamedAttribute : expr :=
  EAct (AHost "return types.NewNamedAttribute(key.(string), value)") (ESeq [
      (ELab "key" x_NamedAttributeKey);
      (ELit (R "=") false);
      (EStar x_Space);
      (ELab "value" (ERef "AttributeValue"));
      (EOpt (ESeq [
          (ELit (R ",") false);
          (EStar x_Space)]))]).
(** parser.peg:553-561 AttributeValue; parser.go:13363-13427 *)
Definition g_AttributeValue : expr :=
  EAct (ALabel "value") (ESeq [
      (ELab "value" (EAlt [
          (ERef "SingleQuotedAttributeValue");
          (ERef "DoubleQuotedAttributeValue");
          (ERef "UnquotedAttributeValue")]));
      (EAnd (ENot (ESeq [
            (EStar x_Space);
            (ELit (R "=") false)])))]).
(** parser.peg:563-568 SingleQuotedAttributeValue; parser.go:13428-13469 *)
Definition g_SingleQuotedAttributeValue : expr :=
  EAct (ALabel "content") (ESeq [
      (ELit (R "'") false);
      (ENot (ELit (R "`") false));
      (ELab "content" (ERef "SingleQuotedAttributeValueContent"));
      (ELit (R "'") false)]).
(** parser.peg:570-587 SingleQuotedAttributeValueContent; parser.go:13470-13910 *)
Definition g_SingleQuotedAttributeValueContent : expr :=
  EAct (AHost "return types.Reduce(elements), nil") (ELab "elements" (EPlus (EAlt [
          x_Alphanums;
          x_Space;
          (ERef "QuotationMark");
          x_AttributeReference;
          (EAct (AHost "return types.NewStringElement(`'`)") (ELit (R "\'") false));
          (ELit (R "'`") false);
          (ELit (R "`'") false);
          (EAct (AHost "return types.NewStringElement(string(c.text))") (ELit (R "\") false));
          (EAct (AHost "return types.NewStringElement(string(c.text))") (EPlus (ECls [13; 10; 92; 39; 32] [] [] true)))]))).
(** parser.peg:589-594 DoubleQuotedAttributeValue; parser.go:13911-13983 *)
Definition g_DoubleQuotedAttributeValue : expr :=
  EAct (ALabel "content") (ESeq [
      (ELit (R """") false);
      (ENot (ELit (R "`") false));
      (ELab "content" (ERef "DoubleQuotedAttributeValueContent"));
      (ELit (R """") false);
      (EAnd (ENot (ESeq [
            (EStar x_Space);
            (ELit (R "=") false)])))]).
(** parser.peg:596-613 DoubleQuotedAttributeValueContent; parser.go:13984-14430 *)
Definition g_DoubleQuotedAttributeValueContent : expr :=
  EAct (AHost "return types.Reduce(elements), nil") (ELab "elements" (EPlus (EAlt [
          x_Alphanums;
          x_Space;
          (ERef "QuotationMark");
          x_AttributeReference;
          (EAct (AHost "return types.NewStringElement(`""`)") (ELit (R "\""") false));
          (ELit (R """`") false);
          (ELit (R "`""") false);
          (ELit (R "\") false);
          (EAct (AHost "return types.NewStringElement(string(c.text))") (ELit (R "`") false));
          (EAct (AHost "return types.NewStringElement(string(c.text))") (EPlus (ECls [13; 10; 92; 34; 96; 32] [] [] true)))]))).
(** parser.peg:616-629 UnquotedAttributeValue; parser.go:14431-14867 *)
Definition g_UnquotedAttributeValue : expr :=
  EAct (AHost "return types.Reduce(elements, strings.TrimSpace), nil") (ESeq [
      (ENot x_Space);
      (ELab "elements" (EPlus (EAlt [
            (ESeq [
              (ELit (R "[") false);
              (ERef "UnquotedAttributeValue");
              (ELit (R "]") false)]);
            x_AttributeReference;
            (ELit (R "{") false);
            x_Space;
            (EAct AText (EPlus (ECls [61; 44; 93; 123; 32] [] [] true)))])))]).
(** parser.peg:2837-2839 Id, inlined at parser.go:14889-14902 *)
Definition x_Id : expr :=
  EAct AText (EPlus (ECls [91; 93; 60; 62; 44] [] [] true)).
(** parser.peg:696-704 CrossReferenceLabel, inlined at parser.go:14927-15076 *)
Definition x_CrossReferenceLabel : expr :=
  EPlus (EAlt [
      (EAct (AHost "return types.NewStringElement(string(c.text))") (ESeq [
          (ECls [] [] ["L"; "N"] false);
          (EPlus (ECls [13; 10; 123; 60; 62] [] [] true))]));
      x_AttributeReferenceValue_2;
      x_AttributeReferenceValue_3;
      (EAct (AHost "return types.NewStringElement(string(c.text))") (ELit (R "{") false))]).
(** parser.peg:686-690 InternalCrossReference, inlined at parser.go:14874-15086 *)
Definition x_InternalCrossReference : expr :=
  EAct (AHost "return types.NewInternalCrossReference(id, label)") (ESeq [
      (ELit (R "<<") false);
      (ELab "id" x_Id);
      (EStar x_Space);
      (ELit (R ",") false);
      (ELab "label" x_CrossReferenceLabel);
      (ELit (R ">>") false)]).
(** parser.peg:686-690 InternalCrossReference, inlined at parser.go:15087-15125 *)
Definition x_InternalCrossReference_2 : expr :=
  EAct (AHost "return types.NewInternalCrossReference(id, nil)") (ESeq [
      (ELit (R "<<") false);
      (ELab "id" x_Id);
      (ELit (R ">>") false)]).
(** parser.peg:684-684 CrossReference; parser.go:14868-15132 *)
Definition g_CrossReference : expr :=
  EAlt [
    x_InternalCrossReference;
    x_InternalCrossReference_2;
    (ERef "ExternalCrossReference")].
(** parser.peg:692-694 ExternalCrossReference; parser.go:15133-15653 *)
Definition g_ExternalCrossReference : expr :=
  EAct (AHost "return types.NewExternalCrossReference(url.(*types.Location), attributes.(types.Attributes))") (ESeq [
      (ELit (R "xref:") false);
      (ELab "url" x_FileLocation);
      (ELab "attributes" (ERef "InlineAttributes"))]).
(** parser.peg:988-991 MarkdownQuoteAttribution; parser.go:15654-15728 *)
Definition g_MarkdownQuoteAttribution : expr :=
  EAct (ALabel "author") (ESeq [
      (ELit (R "-- ") false);
      (ELab "author" x_ManyChars);
      x_EOL]).
(** parser.peg:1140-1154 DocumentAuthorFullName, inlined at parser.go:16775-16885 *)
Definition x_DocumentAuthorFullName : expr :=
  EAct (AHost "return types.NewDocumentAuthorFullName(part1.(string), part2, part3)") (ESeq [
      (ELab "part1" (EAct AText (EPlus (ECls [60; 59; 13; 10; 32] [] [] true))));
      (EStar x_Space);
      (ELab "part2" (EOpt (EAct AText (EPlus (ECls [60; 59; 13; 10; 32] [] [] true)))));
      (EStar x_Space);
      (ELab "part3" (EOpt (EAct AText (EPlus (ECls [60; 59; 13; 10] [] [] true)))));
      (EStar x_Space)]).
(** parser.peg:1157-1165 DocumentAuthorEmail, inlined at parser.go:16893-16937 *)
Definition x_DocumentAuthorEmail : expr :=
  EAct (ALabel "email") (ESeq [
      x_NotEOF;
      (ELit (R "<") false);
      (ELab "email" (EAct AText (EPlus (ECls [62; 13; 10] [] [] true))));
      (ELit (R ">") false)]).
(** parser.peg:1129-1137 DocumentAuthor, inlined at parser.go:16764-16983 *)
Definition x_DocumentAuthor : expr :=
  EAct (AHost "return types.NewDocumentAuthor(fullName, email)") (ESeq [
      (ELab "fullName" (EOpt x_DocumentAuthorFullName));
      (ELab "email" (EOpt x_DocumentAuthorEmail));
      (EStar x_Space);
      (EOpt (ELit (R ";") false));
      (EStar x_Space);
      (EPred (PSome ["fullName"; "email"]))]).
(** parser.peg:1125-1127 DocumentAuthors, inlined at parser.go:16739-17026 *)
Definition x_DocumentAuthors : expr :=
  EAct (AHost "return types.NewDocumentAuthors(authors.([]interface{})...)") (ESeq [
      (EStar x_Space);
      (ELab "authors" (EPlus x_DocumentAuthor));
      x_EOL]).
(** parser.peg:1179-1183 DocumentRevisionNumber, inlined at parser.go:17560-17654 *)
Definition x_DocumentRevisionNumber : expr :=
  EAlt [
    (EAct AText (ESeq [
        (ELit (R "v") true);
        (ECls [] [(48, 57)] [] false);
        (EPlus (ECls [58; 44; 13; 10] [] [] true))]));
    (EAct AText (ESeq [
        (EOpt (ELit (R "v") true));
        (ECls [] [(48, 57)] [] false);
        (EPlus (ECls [58; 44; 13; 10] [] [] true));
        (EStar x_Space);
        (EAnd (ELit (R ",") false))]))].
(** parser.peg:1185-1187 DocumentRevisionDate, inlined at parser.go:17670-17683 *)
Definition x_DocumentRevisionDate : expr :=
  EAct AText (EPlus (ECls [58; 13; 10] [] [] true)).
(** parser.peg:1189-1191 DocumentRevisionRemark, inlined at parser.go:17700-17713 *)
Definition x_DocumentRevisionRemark : expr :=
  EAct AText (EPlus (ECls [13; 10] [] [] true)).
(** parser.peg:1169-1176 DocumentRevision, inlined at parser.go:17516-17819 *)
Definition x_DocumentRevision : expr :=
  EAct (ALabel "revision") (ESeq [
      (EStar x_Space);
      (ENot (ELit (R ":") false));
      (ELab "revision" (EAlt [
          (EAct (AHost "return types.NewDocumentRevision(revnumber, revdate, revremark)") (ESeq [
              (ELab "revnumber" x_DocumentRevisionNumber);
              (EOpt (ELit (R ",") false));
              (ELab "revdate" (EOpt x_DocumentRevisionDate));
              (EOpt (ELit (R ":") false));
              (ELab "revremark" (EOpt x_DocumentRevisionRemark))]));
          (EAct (AHost "return types.NewDocumentRevision(nil, revdate, revremark)") (ESeq [
              (ELab "revdate" x_DocumentRevisionDate);
              (EOpt (ELit (R ":") false));
              (ELab "revremark" (EOpt x_DocumentRevisionRemark))]))]));
      x_EOL]).
(** parser.peg:1117-1123 DocumentAuthorsAndRevision, inlined at parser.go:16721-17824 *)
Definition x_DocumentAuthorsAndRevision : expr :=
  EAct (AHost "return types.NewDocumentAuthorsAndRevision(authors.(types.DocumentAuthors), revision)") (ESeq [
      (ENot (ELit (R ":") false));
      (ELab "authors" x_DocumentAuthors);
      (EStar (EAlt [
          x_SinglelineComment;
          x_CommentBlock]));
      (ELab "revision" (EOpt x_DocumentRevision))]).
(** parser.peg:1100-1110 DocumentHeader; parser.go:15729-18531 *)
Definition g_DocumentHeader : expr :=
  EAct (AHost "return types.NewDocumentHeader(title.([]interface{}), authorsAndRevision, extraElements.([]interface{}))") (ESeq [
      (EPred (PHost "return c.isDocumentHeaderAllowed(), nil"));
      (EStar (EAlt [
          x_SinglelineComment;
          x_CommentBlock]));
      (ELab "title" (ERef "DocumentTitle"));
      (EStar (EAlt [
          x_SinglelineComment;
          x_CommentBlock]));
      (ELab "authorsAndRevision" (EOpt x_DocumentAuthorsAndRevision));
      (ELab "extraElements" (EStar (EAlt [
            (ERef "AttributeDeclaration");
            x_AttributeReset;
            x_AttributeReset_2;
            x_SinglelineComment;
            x_CommentBlock])))]).
(** parser.peg:1112-1115 DocumentTitle; parser.go:18532-18610 *)
Definition g_DocumentTitle : expr :=
  EAct (ALabel "title") (ESeq [
      (ELit (R "=") false);
      x_Spaces;
      (ELab "title" (ERef "SectionTitle"));
      x_EOL]).
(** parser.peg:1140-1154 DocumentAuthorFullName; parser.go:18611-18725 *)
Definition g_DocumentAuthorFullName : expr :=
  EAct (AHost "return types.NewDocumentAuthorFullName(part1.(string), part2, part3)") (ESeq [
      (ELab "part1" (EAct AText (EPlus (ECls [60; 59; 13; 10; 32] [] [] true))));
      (EStar x_Space);
      (ELab "part2" (EOpt (EAct AText (EPlus (ECls [60; 59; 13; 10; 32] [] [] true)))));
      (EStar x_Space);
      (ELab "part3" (EOpt (EAct AText (EPlus (ECls [60; 59; 13; 10] [] [] true)))));
      (EStar x_Space)]).
(** parser.peg:1265-1271 InlineButton; parser.go:18726-18756 *)
Definition g_InlineButton : expr :=
  EAct (AHost "return types.NewInlineButton(attributes.(types.Attributes))") (ESeq [
      (EPred (PHost "return c.isExperimentalEnabled(), nil"));
      (ELit (R "btn:") false);
      (ELab "attributes" (ERef "InlineAttributes"))]).
(** parser.peg:1276-1282 InlineMenu; parser.go:18757-18805 *)
Definition g_InlineMenu : expr :=
  EAct (AHost "return types.NewInlineMenu(id.(string), attributes.(types.Attributes))") (ESeq [
      (EPred (PHost "return c.isExperimentalEnabled(), nil"));
      (ELit (R "menu:") false);
      (ELab "id" x_Id);
      (ELab "attributes" (ERef "InlineAttributes"))]).
(** parser.peg:1287-1289 IndexTerm; parser.go:18806-18838 *)
Definition g_IndexTerm : expr :=
  EAct (AHost "return types.NewIndexTerm(term.([]interface{}))") (ESeq [
      (ELit (R "((") false);
      (ELab "term" (ERef "IndexTermContent"));
      (ELit (R "))") false)]).
(** parser.peg:1291-1295 IndexTermContent; parser.go:18839-18975 *)
Definition g_IndexTermContent : expr :=
  EAct (AHost "return types.NewInlineElements(elements.([]interface{}))") (ELab "elements" (EPlus (EAlt [
          x_Alphanums;
          (ERef "QuotedText");
          x_Space;
          x_SpecialCharacter;
          x_ElementPlaceHolder;
          (EAct AText (ESeq [
              (ENot (ELit (R "))") false));
              EAny]))]))).
(** parser.peg:2818-2820 Scheme, inlined at parser.go:19005-19043 *)
Definition x_Scheme : expr :=
  EAct AText (EAlt [
      (ELit (R "http://") false);
      (ELit (R "https://") false);
      (ELit (R "ftp://") false);
      (ELit (R "irc://") false);
      (ELit (R "mailto:") false)]).
(** parser.peg:2810-2812 Location, inlined at parser.go:18994-19534 *)
Definition x_Location : expr :=
  EAct (AHost "return types.NewLocation(scheme, path.([]interface{}))") (ESeq [
      (ELab "scheme" (EOpt x_Scheme));
      (ELab "path" x_Filename)]).
(** parser.peg:1311-1315 ImageBlock; parser.go:18976-19599 *)
Definition g_ImageBlock : expr :=
  EAct (AHost "return types.NewImageBlock(path.(*types.Location), attributes.(types.Attributes))") (ESeq [
      (ELit (R "image::") false);
      (ELab "path" x_Location);
      (ELab "attributes" (ERef "InlineAttributes"));
      (EStar x_Space);
      x_EOL]).
(** parser.peg:1317-1319 InlineImage; parser.go:19600-20180 *)
Definition g_InlineImage : expr :=
  EAct (AHost "return types.NewInlineImage(path.(*types.Location), attributes.(types.Attributes))") (ESeq [
      (ELit (R "image:") false);
      (ENot (ELit (R ":") false));
      (ELab "path" x_Location);
      (ELab "attributes" (ERef "InlineAttributes"))]).
(** parser.peg:1324-1326 InlineIcon; parser.go:20181-20226 *)
Definition g_InlineIcon : expr :=
  EAct (AHost "return types.NewIcon(icon.(string), attributes)") (ESeq [
      (ELit (R "icon:") false);
      (ELab "icon" (EAct AText (EPlus (ECls [95; 45] [] ["L"; "N"] false))));
      (ELab "attributes" (ERef "InlineAttributes"))]).
(** parser.peg:1331-1333 InlineFootnote; parser.go:20227-20286 *)
Definition g_InlineFootnote : expr :=
  EAct (AHost "return types.NewFootnote(ref, elements.([]interface{}))") (ESeq [
      (ELit (R "footnote:") false);
      (ELab "ref" (EOpt x_Alphanums));
      (ELit (R "[") false);
      (ELab "elements" (ERef "FootnoteElements"));
      (ELit (R "]") false)]).
(** parser.peg:1337-1339 FootnoteElements; parser.go:20287-20305 *)
Definition g_FootnoteElements : expr :=
  EAct (AHost "return types.NewInlineElements(elements.([]interface{}))") (ELab "elements" (EStar (ERef "FootnoteElement"))).
(** parser.peg:2750-2766 InlineText, inlined at parser.go:20330-20395 *)
Definition x_InlineText : expr :=
  EAct (AHost "return types.NewStringElement(string(c.text))") (ESeq [
      (ELab "text" (EAct AText (EPlus (ECls [] [] ["L"; "N"] false))));
      (ENot (ESeq [
          (ELit (R ":") false);
          (EPred (PHost "return c.isInlineMacro(string(c.text)), nil"))]));
      (ENot (ESeq [
          (ELit (R "@") false);
          (ECls [] [] ["L"; "N"] false)]))]).
(** parser.peg:2478-2495 TypographicQuote, inlined at parser.go:20410-20434 *)
Definition x_TypographicQuote : expr :=
  EAct (AHost "return types.NewStringElement(`'`)") (ESeq [
      (ELit (R "\'") false);
      (EAnd (ECls [] [] ["L"] false))]).
(** parser.peg:2478-2495 TypographicQuote, inlined at parser.go:20435-20467 *)
Definition x_TypographicQuote_2 : expr :=
  EAct (AHost "return types.NewSymbol(""'"")") (ESeq [
      (EPred (PHost "return c.isSubstitutionEnabled(Replacements), nil"));
      (EPred (PHost "return c.isPrecededByAlphanum(), nil"));
      (ELit (R "'") false);
      (EAnd (ECls [] [] ["L"] false))]).
(** parser.peg:1205-1216 LineBreak, inlined at parser.go:20553-20630 *)
Definition x_LineBreak : expr :=
  EAct (AHost "return types.NewLineBreak()") (ESeq [
      (EPred (PHost "return c.isSubstitutionEnabled(PostReplacements), nil"));
      (ELit (R "+") false);
      (EPred (PHost "return c.isPrecededBySpace(), nil"));
      (EStar x_Space);
      (EAnd x_EOL)]).
(** parser.peg:1341-1359 FootnoteElement; parser.go:20306-21049 *)
Definition g_FootnoteElement : expr :=
  EAct (AThen "c.trackElement(element)" "element") (ESeq [
      (ENot (ELit (R "]") false));
      (ELab "element" (EAlt [
          x_InlineText;
          x_Spaces;
          x_TypographicQuote;
          x_TypographicQuote_2;
          (ERef "Quote");
          (ERef "Replacement");
          x_Punctuation;
          (ERef "InlineMacro");
          x_LineBreak;
          x_AttributeReference;
          x_SpecialCharacter;
          x_Newline;
          x_AnyChar]))]).
(** parser.peg:1395-1397 PassthroughMacroCharacter, inlined at parser.go:21073-21083 *)
Definition x_PassthroughMacroCharacter : expr :=
  EAct (AHost "return types.NewStringElement(string(c.text))") (ECls [93] [] [] true).
(** parser.peg:1389-1393 PassthroughMacro; parser.go:21050-21145 *)
Definition g_PassthroughMacro : expr :=
  EAlt [
    (EAct (AHost "return types.NewInlinePassthrough(types.PassthroughMacro, []interface{}{content})") (ESeq [
        (ELit (R "pass:[") false);
        (ELab "content" (EStar x_PassthroughMacroCharacter));
        (ELit (R "]") false)]));
    (EAct (AHost "return types.NewInlinePassthrough(types.PassthroughMacro, content.([]interface{}))") (ESeq [
        (ELit (R "pass:q[") false);
        (ELab "content" (EStar (EAlt [
              (ERef "QuotedText");
              x_PassthroughMacroCharacter])));
        (ELit (R "]") false)]))].
(** parser.peg:2814-2816 LocationWithScheme, inlined at parser.go:21167-21713 *)
Definition x_LocationWithScheme : expr :=
  EAct (AHost "return types.NewLocation(scheme, path.([]interface{}))") (ESeq [
      (ENot (ELit (R "[") false));
      (ELab "scheme" x_Scheme);
      (ELab "path" x_Filename)]).
(** parser.peg:1404-1414 BareURL, inlined at parser.go:21152-21723 *)
Definition x_BareURL : expr :=
  EAct (AHost "return types.NewInlineLink(url.(*types.Location), nil)") (ESeq [
      (ELit (R "<") false);
      (ELab "url" x_LocationWithScheme);
      (ELit (R ">") false)]).
(** parser.peg:1444-1455 EmailAddressLocal, inlined at parser.go:21741-21773 *)
Definition x_EmailAddressLocal : expr :=
  EAct (ALabel "local") (ESeq [
      (ELab "local" (EAct AText (EPlus (ECls [33; 35; 36; 37; 38; 39; 42; 61; 63; 94; 95; 96; 123; 124; 125; 126; 46] [(43, 47)] ["L"; "N"] false))));
      (EPred (PHost "return !strings.HasPrefix(local.(string), ""."") && !strings.HasSuffix(local.(string), ""."") && !strings.Contains(local.(string), ""..""), nil"))]).
(** parser.peg:1457-1465 EmailAddressDomain, inlined at parser.go:21784-21844 *)
Definition x_EmailAddressDomain : expr :=
  EAct (ALabel "domain") (ESeq [
      (ELab "domain" (EAct AText (ESeq [
            (EPlus (ECls [] [] ["L"; "N"] false));
            (EStar (ESeq [
                (ELit (R ".") false);
                (EPlus (ECls [45] [] ["L"; "N"] false))]))])));
      (EPred (PHost "return !strings.HasSuffix(domain.(string), ""-""), nil"))]).
(** parser.peg:1440-1442 EmailAddress, inlined at parser.go:21732-21848 *)
Definition x_EmailAddress : expr :=
  EAct (AHost "return types.NewEmailAddressLink(local.(string) + ""@"" + domain.(string))") (ESeq [
      (ELab "local" x_EmailAddressLocal);
      (ELit (R "@") false);
      (ELab "domain" x_EmailAddressDomain)]).
(** parser.peg:1402-1402 Link; parser.go:21146-21851 *)
Definition g_Link : expr :=
  EAlt [
    x_BareURL;
    (ERef "RelativeLink");
    (ERef "ExternalLink");
    x_EmailAddress].
(** parser.peg:1417-1426 RelativeLink; parser.go:21852-22996 *)
Definition g_RelativeLink : expr :=
  EAlt [
    (EAct (AHost "return types.NewStringElement(strings.TrimPrefix(string(c.text), `\`))") (ESeq [
        (ELit (R "\link:") false);
        (ELab "url" x_Location);
        (ELab "attributes" (ERef "InlineAttributes"))]));
    (EAct (AHost "return types.NewInlineLink(url.(*types.Location), attributes.(types.Attributes))") (ESeq [
        (ELit (R "link:") false);
        (ELab "url" x_Location);
        (ELab "attributes" (ERef "InlineAttributes"))]))].
(** parser.peg:1428-1438 ExternalLink; parser.go:22997-24153 *)
Definition g_ExternalLink : expr :=
  EAlt [
    (EAct (AHost "return types.NewStringElement(strings.TrimPrefix(string(c.text), `\`))") (ESeq [
        (ELit (R "\") false);
        (ELab "url" x_LocationWithScheme);
        (ELab "attributes" (EOpt (ERef "InlineAttributes")))]));
    (EAct (AHost "return types.NewInlineLink(url.(*types.Location), attributes)") (ESeq [
        (ELab "url" x_LocationWithScheme);
        (ELab "attributes" (EOpt (ERef "InlineAttributes")))]))].
(** parser.peg:1576-1614 OrderedListElementPrefix, inlined at parser.go:24178-24372 *)
Definition x_OrderedListElementPrefix : expr :=
  EAct (ALabel "prefix") (ESeq [
      (EStar x_Space);
      (ELab "prefix" (EAlt [
          (EAct (AHost "switch depth.(int) { case 1: return types.NewOrderedListElementPrefix(types.Arabic) case 2: return types.NewOrderedListElementPrefix(types.LowerAlpha) case 3: return types.NewOrderedListElementPrefix(types.LowerRoman) case 4: return types.NewOrderedListElementPrefix(types.UpperAlpha) default: return types.NewOrderedListElementPrefix(types.UpperRoman) }") (ESeq [
              (ELab "depth" (EAct (ALen 0) (EPlus (ELit (R ".") false))));
              (EPred (PIntLe "depth" 5))]));
          (EAct (AHost "return types.NewOrderedListElementPrefix(types.Arabic)") (ESeq [
              (EPlus (ECls [] [(48, 57)] [] false));
              (ELit (R ".") false)]));
          (EAct (AHost "return types.NewOrderedListElementPrefix(types.LowerAlpha)") (ESeq [
              (ECls [] [(97, 122)] [] false);
              (ELit (R ".") false)]));
          (EAct (AHost "return types.NewOrderedListElementPrefix(types.UpperAlpha)") (ESeq [
              (ECls [] [(65, 90)] [] false);
              (ELit (R ".") false)]));
          (EAct (AHost "return types.NewOrderedListElementPrefix(types.LowerRoman)") (ESeq [
              (EPlus (ECls [105; 118; 120; 100; 108; 99; 109] [] [] false));
              (ELit (R ")") false)]));
          (EAct (AHost "return types.NewOrderedListElementPrefix(types.UpperRoman)") (ESeq [
              (EPlus (ECls [73; 86; 88; 68; 76; 67; 77] [] [] false));
              (ELit (R ")") false)]))]));
      x_Spaces]).
(** parser.peg:1517-1523 ListElementContent, inlined at parser.go:24377-24444 *)
Definition x_ListElementContent : expr :=
  EAct (AHost "return types.NewParagraph(nil, rawLines.([]interface{})...)") (ESeq [
      (ELab "rawLines" (EPlus (EAct (AHost "return types.NewRawLine(string(c.text))") (EPlus (ECls [13; 10] [] [] true)))));
      x_EOL]).
(** parser.peg:1569-1574 OrderedListElement, inlined at parser.go:24169-24448 *)
Definition x_OrderedListElement : expr :=
  EAct (AHost "return types.NewOrderedListElement(prefix.(types.OrderedListElementPrefix), content)") (ESeq [
      (ELab "prefix" x_OrderedListElementPrefix);
      (ELab "content" x_ListElementContent)]).
(** parser.peg:1626-1639 UnorderedListElementPrefix, inlined at parser.go:24458-24526 *)
Definition x_UnorderedListElementPrefix : expr :=
  EAct (AHost "return types.NewUnorderedListElementPrefix(style.(string))") (ESeq [
      (EStar x_Space);
      (ELab "style" (EAct AText (EAlt [
            (ELit (R "-") false);
            (EPlus (ELit (R "*") false))])));
      (EPred (PLenLe "style" 5));
      x_Spaces]).
(** parser.peg:1641-1648 UnorderedListElementCheckStyle, inlined at parser.go:24533-24603 *)
Definition x_UnorderedListElementCheckStyle : expr :=
  EAct (ALabel "style") (ESeq [
      (EAnd (ELit (R "[") false));
      (ELab "style" (EAlt [
          (EAct (AHost "return types.Unchecked, nil") (ELit (R "[ ]") false));
          (EAct (AHost "return types.Checked, nil") (ELit (R "[*]") false));
          (EAct (AHost "return types.Checked, nil") (ELit (R "[x]") false))]));
      x_Spaces]).
(** parser.peg:1619-1624 UnorderedListElement, inlined at parser.go:24449-24680 *)
Definition x_UnorderedListElement : expr :=
  EAct (AHost "return types.NewUnorderedListElement(prefix.(types.UnorderedListElementPrefix), checkstyle, content)") (ESeq [
      (ELab "prefix" x_UnorderedListElementPrefix);
      (ELab "checkstyle" (EOpt x_UnorderedListElementCheckStyle));
      (ELab "content" x_ListElementContent)]).
(** parser.peg:1715-1718 CalloutListElementPrefix, inlined at parser.go:24690-24742 *)
Definition x_CalloutListElementPrefix : expr :=
  EAct (ALabel "ref") (ESeq [
      (ELit (R "<") false);
      (ELab "ref" (EAct (AHost "return strconv.Atoi(string(c.text))") (EPlus (ECls [] [(48, 57)] [] false))));
      (ELit (R ">") false);
      x_Spaces]).
(** parser.peg:1709-1713 CalloutListElement, inlined at parser.go:24681-24818 *)
Definition x_CalloutListElement : expr :=
  EAct (AHost "return types.NewCalloutListElement(ref.(int), description.(*types.Paragraph))") (ESeq [
      (ELab "ref" x_CalloutListElementPrefix);
      (ELab "description" x_ListElementContent)]).
(** parser.peg:1666-1675 LabeledListElementSeparator, inlined at parser.go:24838-24867 *)
Definition x_LabeledListElementSeparator : expr :=
  EAct (ALabel "separator") (ESeq [
      (ELab "separator" (EAct AText (EPlus (ELit (R ":") false))));
      (EPred (PLenIn "separator" 2 4))]).
(** parser.peg:1661-1664 LabeledListElementTerm, inlined at parser.go:24828-24916 *)
Definition x_LabeledListElementTerm : expr :=
  EAct (AHost "return types.NewRawLine(strings.TrimSpace(string(c.text)))") (EPlus (ESeq [
        (ENot x_LabeledListElementSeparator);
        (ENot x_EOL);
        EAny])).
(** parser.peg:1677-1695 LabeledListElementDescription, inlined at parser.go:24955-25169 *)
Definition x_LabeledListElementDescription : expr :=
  EAlt [
    (EAct ANil (ESeq [
        (EStar x_Space);
        x_EOL;
        (EStar x_BlankLine)]));
    (EAct (AHost "return types.NewParagraph(nil, content)") (ESeq [
        x_Spaces;
        (ELab "content" (EAct (AHost "return types.NewRawLine(string(c.text))") (EPlus (ECls [13; 10] [] [] true))));
        x_EOL]))].
(** parser.peg:1653-1659 LabeledListElement, inlined at parser.go:24819-25173 *)
Definition x_LabeledListElement : expr :=
  EAct (AHost "return types.NewLabeledListElement(len(separator.(string))-1, term, description)") (ESeq [
      (ELab "term" x_LabeledListElementTerm);
      (ELab "separator" x_LabeledListElementSeparator);
      (ELab "description" x_LabeledListElementDescription)]).
(** parser.peg:1476-1480 ListElement, inlined at parser.go:24166-25175 *)
Definition x_ListElement : expr :=
  EAlt [
    x_OrderedListElement;
    x_UnorderedListElement;
    x_CalloutListElement;
    x_LabeledListElement].
(** parser.peg:1470-1474 ListElements; parser.go:24154-25188 *)
Definition g_ListElements : expr :=
  EAct (AHost "return types.NewListElements(append([]interface{}{firstElement}, extraElements.([]interface{})...))") (ESeq [
      (ELab "firstElement" x_ListElement);
      (ELab "extraElements" (ERef "ExtraListElements"))]).
(** parser.peg:1482-1484 ExtraListElements; parser.go:25189-25207 *)
Definition g_ExtraListElements : expr :=
  EAct (AHost "return types.Flatten(elements.([]interface{})), nil") (ELab "elements" (EStar (ERef "ExtraListElement"))).
(** parser.peg:1536-1536 ListContinuationMarker, inlined at parser.go:27518-27569 *)
Definition x_ListContinuationMarker : expr :=
  ESeq [
    (ELit (R "+") false);
    (EStar x_Space);
    x_Newline].
(** parser.peg:1504-1515 ListElementParagraphLine, inlined at parser.go:27440-28910 *)
Definition x_ListElementParagraphLine : expr :=
  EAct (AHost "return types.NewRawLine(content.(string))") (ESeq [
      (ENot x_BlankLine);
      (ENot x_ListContinuationMarker);
      (ENot x_OrderedListElementPrefix);
      (ENot x_UnorderedListElementPrefix);
      (ENot x_CalloutListElementPrefix);
      (ENot (ESeq [
          x_LabeledListElementTerm;
          x_LabeledListElementSeparator]));
      (ENot x_BlockDelimiter);
      (ELab "content" x_ManyChars);
      x_EOL]).
(** parser.peg:1486-1502 ExtraListElement; parser.go:25208-28917 *)
Definition g_ExtraListElement : expr :=
  EAct (ALabel "element") (ESeq [
      x_NotEOF;
      (ELab "element" (EAlt [
          (EAct (ALabel "element") (ESeq [
              (EStar x_BlankLine);
              (ELab "element" (EAlt [
                  x_OrderedListElement;
                  x_UnorderedListElement;
                  x_CalloutListElement;
                  x_LabeledListElement]))]));
          (EAct (AHost "return append(attributes.([]interface{}), element), nil") (ESeq [
              (ELab "attributes" (EPlus (ERef "BlockAttributes")));
              (ELab "element" (EAlt [
                  x_OrderedListElement;
                  x_UnorderedListElement;
                  x_CalloutListElement;
                  x_LabeledListElement]))]));
          (ERef "ListContinuation");
          x_SinglelineComment;
          x_ListElementParagraphLine]))]).
(** parser.peg:1536-1536 ListContinuationMarker, inlined at parser.go:28986-28999 *)
Definition x_ListContinuationMarker_2 : expr :=
  EStar x_Space.
(** parser.peg:1528-1534 ListContinuation; parser.go:28918-29041 *)
Definition g_ListContinuation : expr :=
  EAct (AHost "return types.NewListContinuation(len(offset.([]interface{})), element)") (ESeq [
      (ELab "offset" (EStar (ESeq [
            (EStar x_Space);
            x_Newline])));
      (ELit (R "+") false);
      x_ListContinuationMarker_2;
      x_Newline;
      (ELab "element" (EOpt (ERef "ListContinuationElement")))]).
(** parser.peg:1724-1742 ParagraphStyle, inlined at parser.go:36092-36184 *)
Definition x_ParagraphStyle : expr :=
  EAct (ALabel "style") (ESeq [
      (EPred (PHost "return !c.isWithinLiteralParagraph(), nil"));
      (ELab "style" (EAlt [
          (EAct (AHost "return types.Tip, nil") (ELit (R "TIP: ") false));
          (EAct (AHost "return types.Note, nil") (ELit (R "NOTE: ") false));
          (EAct (AHost "return types.Important, nil") (ELit (R "IMPORTANT: ") false));
          (EAct (AHost "return types.Warning, nil") (ELit (R "WARNING: ") false));
          (EAct (AHost "return types.Caution, nil") (ELit (R "CAUTION: ") false));
          (EAct (AHost "return types.LiteralParagraph, nil") (EAnd x_Spaces))]))]).
(** parser.peg:1560-1564 ListContinuationParagraph, inlined at parser.go:36081-37664 *)
Definition x_ListContinuationParagraph : expr :=
  EAct (AHost "return types.NewParagraph(style, content)") (ESeq [
      (ELab "style" (EOpt x_ParagraphStyle));
      (ELab "content" x_ListElementParagraphLine)]).
(** parser.peg:1538-1557 ListContinuationElement; parser.go:29042-37671 *)
Definition g_ListContinuationElement : expr :=
  EAct (AThen "if element, ok := element.(types.WithAttributes); ok && attributes != nil { element.AddAttributes(attributes.(types.Attributes)) }" "element") (ESeq [
      x_NotEOF;
      (ENot x_ListElement);
      (ELab "attributes" (EOpt (ERef "BlockAttributes")));
      (ELab "element" (EAlt [
          x_BlankLine;
          (ERef "AttributeDeclaration");
          x_AttributeReset;
          x_AttributeReset_2;
          x_CommentBlock;
          x_ExampleBlock;
          x_MarkdownCodeBlock;
          x_FencedBlock;
          x_ListingBlock;
          x_LiteralBlock;
          x_MarkdownQuoteBlock;
          x_OpenBlock;
          x_PassthroughBlock;
          x_QuoteBlock;
          x_SidebarBlock;
          x_ThematicBreak;
          (ERef "ImageBlock");
          x_Table;
          x_SinglelineComment;
          x_ListContinuationParagraph]))]).
(** parser.peg:1700-1707 Callout; parser.go:37672-37777 *)
Definition g_Callout : expr :=
  EAct (AHost "return types.NewCallout(ref.(int))") (ESeq [
      (EPred (PHost "return c.isSubstitutionEnabled(Callouts), nil"));
      (ELit (R "<") false);
      (ELab "ref" (EAct (AHost "return strconv.Atoi(string(c.text))") (EPlus (ECls [] [(48, 57)] [] false))));
      (ELit (R ">") false);
      (EStar x_Space);
      (EAnd (EAlt [
          x_Newline;
          x_EOF;
          (ERef "Callout")]))]).
(** parser.peg:1744-1767 ShortcutParagraph; parser.go:37778-39151 *)
Definition g_ShortcutParagraph : expr :=
  EAct (AHost "return types.NewParagraph(style, append([]interface{}{firstLine}, otherLines.([]interface{})...)...)") (ESeq [
      (EAnd (ESeq [
          (ECls [] [] ["L"; "N"] false);
          (ENot (ESeq [
              (ECls [46; 41] [] [] false);
              x_Spaces]))]));
      (ELab "style" (EOpt x_ParagraphStyle));
      (ELab "firstLine" x_ParagraphRawLine);
      (EPred (PHost "return !firstLine.(*types.RawLine).Contains("":: "") && !firstLine.(*types.RawLine).HasSuffix(""::""), nil"));
      (ELab "otherLines" (EStar (EAct (ALabel "line") (ESeq [
              x_NotEOF;
              (ENot x_BlankLine);
              (ENot (ERef "BlockAttributes"));
              (ENot x_BlockDelimiter);
              (ENot x_ListContinuationMarker);
              (ELab "line" (EAlt [
                  x_SinglelineComment;
                  x_ParagraphRawLine]))]))))]).
(** parser.peg:1769-1781 Paragraph; parser.go:39152-39594 *)
Definition g_Paragraph : expr :=
  EAct (AHost "return types.NewParagraph(style, append([]interface{}{firstLine}, otherLines.([]interface{})...)...)") (ESeq [
      (ELab "style" (EOpt x_ParagraphStyle));
      (ELab "firstLine" x_ParagraphRawLine);
      (ELab "otherLines" (EStar (EAct (ALabel "line") (ESeq [
              x_NotEOF;
              (ENot x_BlankLine);
              (ENot (ERef "BlockAttributes"));
              (ELab "line" (EAlt [
                  x_SinglelineComment;
                  x_ParagraphRawLine]))]))))]).
(** parser.peg:1795-1795 QuotedText; parser.go:39595-39611 *)
Definition g_QuotedText : expr :=
  EAlt [
    (ERef "EscapedQuotedText");
    (ERef "UnescapedQuotedText")].
(** parser.peg:1797-1811 EscapedQuotedText; parser.go:39612-39681 *)
Definition g_EscapedQuotedText : expr :=
  EAct (AHost "return append([]interface{}{attributes}, element.([]interface{})...), nil") (ESeq [
      (ELab "attributes" (EOpt (EAct AText (ERef "LongHandAttributes"))));
      (EAnd (ELit (R "\") false));
      (ELab "element" (EAlt [
          (ERef "EscapedBoldText");
          (ERef "EscapedItalicText");
          (ERef "EscapedMonospaceText");
          (ERef "EscapedMarkedText");
          (ERef "EscapedSubscriptText");
          (ERef "EscapedSuperscriptText")]))]).
(** parser.peg:1813-1817 UnescapedQuotedText; parser.go:39682-39722 *)
Definition g_UnescapedQuotedText : expr :=
  EAct (AHost "return element.(*types.QuotedText).WithAttributes(attributes)") (ESeq [
      (ELab "attributes" (EOpt (ERef "LongHandAttributes")));
      (ELab "element" (EAlt [
          (ERef "SingleQuotedText");
          (ERef "DoubleQuotedText")]))]).
(** parser.peg:1823-1829 SingleQuotedText; parser.go:39723-39755 *)
Definition g_SingleQuotedText : expr :=
  EAlt [
    (ERef "SingleQuoteBoldText");
    (ERef "SingleQuoteItalicText");
    (ERef "SingleQuoteMonospaceText");
    (ERef "SingleQuoteMarkedText");
    (ERef "SubscriptText");
    (ERef "SuperscriptText")].
(** parser.peg:1831-1835 DoubleQuotedText; parser.go:39756-39780 *)
Definition g_DoubleQuotedText : expr :=
  EAlt [
    (ERef "DoubleQuoteBoldText");
    (ERef "DoubleQuoteItalicText");
    (ERef "DoubleQuoteMonospaceText");
    (ERef "DoubleQuoteMarkedText")].
(** parser.peg:2865-2867 SingleNewline, inlined at parser.go:40348-40413 *)
Definition x_SingleNewline : expr :=
  EAct AText (ESeq [
      x_Newline;
      (ENot x_Newline)]).
(** parser.peg:1849-1861 QuotedTextElement; parser.go:39781-40502 *)
Definition g_QuotedTextElement : expr :=
  EAlt [
    x_InlineText;
    x_Spaces;
    (ERef "Replacement");
    x_TypographicQuote;
    x_TypographicQuote_2;
    x_Punctuation;
    x_AttributeReference;
    x_SingleNewline;
    (ERef "QuotedText");
    (ERef "InlineMacro");
    x_SpecialCharacter;
    x_ElementPlaceHolder;
    x_AnyChar].
(** parser.peg:1876-1881 DoubleQuoteBoldText; parser.go:40503-40535 *)
Definition g_DoubleQuoteBoldText : expr :=
  EAct (AHost "return types.NewQuotedText(types.DoubleQuoteBold, elements.([]interface{}))") (ESeq [
      (ELit (R "**") false);
      (ELab "elements" (ERef "DoubleQuoteBoldTextElements"));
      (ELit (R "**") false)]).
(** parser.peg:1883-1883 DoubleQuoteBoldTextElements; parser.go:40536-40546 *)
Definition g_DoubleQuoteBoldTextElements : expr :=
  EPlus (ERef "DoubleQuoteBoldTextElement").
(** parser.peg:1885-1891 DoubleQuoteBoldTextElement; parser.go:40547-40582 *)
Definition g_DoubleQuoteBoldTextElement : expr :=
  EAct (AThen "c.trackElement(element)" "element") (ESeq [
      x_NotEOF;
      (ENot (ELit (R "**") false));
      (ELab "element" (ERef "QuotedTextElement"))]).
(** parser.peg:1896-1902 SingleQuoteBoldTextStartDelimiter, inlined at parser.go:40598-40601 *)
Definition x_SingleQuoteBoldTextStartDelimiter : expr :=
  EPred (PHost "return c.isSingleQuotedTextAllowed(), nil").
(** parser.peg:1896-1902 SingleQuoteBoldTextStartDelimiter, inlined at parser.go:40602-40613 *)
Definition x_SingleQuoteBoldTextStartDelimiter_2 : expr :=
  EAnd (ENot (ELit (R "*") false)).
(** parser.peg:1904-1911 SingleQuoteBoldTextEndDelimiter, inlined at parser.go:40628-40636 *)
Definition x_SingleQuoteBoldTextEndDelimiter : expr :=
  ENot (ELit (R "*") false).
(** parser.peg:1904-1911 SingleQuoteBoldTextEndDelimiter, inlined at parser.go:40637-40640 *)
Definition x_SingleQuoteBoldTextEndDelimiter_2 : expr :=
  EPred (PHost "return !c.isPrecededBySpace(), nil").
(** parser.peg:1904-1911 SingleQuoteBoldTextEndDelimiter, inlined at parser.go:40641-40653 *)
Definition x_SingleQuoteBoldTextEndDelimiter_3 : expr :=
  EAnd (ENot (ECls [] [] ["L"; "N"] false)).
(** parser.peg:1913-1918 SingleQuoteBoldText; parser.go:40583-40657 *)
Definition g_SingleQuoteBoldText : expr :=
  EAct (AHost "return types.NewQuotedText(types.SingleQuoteBold, elements.([]interface{}))") (ESeq [
      (ELit (R "*") false);
      x_SingleQuoteBoldTextStartDelimiter;
      x_SingleQuoteBoldTextStartDelimiter_2;
      (ELab "elements" (ERef "SingleQuoteBoldTextElements"));
      (ELit (R "*") false);
      x_SingleQuoteBoldTextEndDelimiter;
      x_SingleQuoteBoldTextEndDelimiter_2;
      x_SingleQuoteBoldTextEndDelimiter_3]).
(** parser.peg:1920-1927 SingleQuoteBoldTextElements; parser.go:40658-40699 *)
Definition g_SingleQuoteBoldTextElements : expr :=
  EAct (ALabel "elements") (ESeq [
      (ENot x_Space);
      (ELab "elements" (EPlus (ERef "SingleQuoteBoldTextElement")));
      (EPred (PHost "return validateSingleQuoteElements(elements.([]interface{}))"))]).
(** parser.peg:1904-1911 SingleQuoteBoldTextEndDelimiter, inlined at parser.go:40717-40753 *)
Definition x_SingleQuoteBoldTextEndDelimiter_4 : expr :=
  ESeq [
    (ELit (R "*") false);
    (ENot (ELit (R "*") false));
    (EPred (PHost "return !c.isPrecededBySpace(), nil"));
    (EAnd (ENot (ECls [] [] ["L"; "N"] false)))].
(** parser.peg:1929-1935 SingleQuoteBoldTextElement; parser.go:40700-40766 *)
Definition g_SingleQuoteBoldTextElement : expr :=
  EAct (AThen "c.trackElement(element)" "element") (ESeq [
      x_NotEOF;
      (ENot x_SingleQuoteBoldTextEndDelimiter_4);
      (ELab "element" (ERef "QuotedTextElement"))]).
(** parser.peg:1845-1847 TwoOrMoreBackslashes, inlined at parser.go:40782-40805 *)
Definition x_TwoOrMoreBackslashes : expr :=
  EAct AText (ESeq [
      (ELit (R "\\") false);
      (EStar (ELit (R "\") false))]).
(** parser.peg:1841-1843 OneOrMoreBackslashes, inlined at parser.go:40839-40851 *)
Definition x_OneOrMoreBackslashes : expr :=
  EAct AText (EPlus (ELit (R "\") false)).
(** parser.peg:1937-1950 EscapedBoldText; parser.go:40767-40924 *)
Definition g_EscapedBoldText : expr :=
  EAlt [
    (EAct (AHost "return types.NewEscapedQuotedText(backslashes.(string), ""**"", elements.([]interface{}))") (ESeq [
        (ELab "backslashes" x_TwoOrMoreBackslashes);
        (ELit (R "**") false);
        (ELab "elements" (ERef "DoubleQuoteBoldTextElements"));
        (ELit (R "**") false)]));
    (EAct (AHost "result := append([]interface{}{""*""}, elements.([]interface{})) return types.NewEscapedQuotedText(backslashes.(string), ""*"", result)") (ESeq [
        (ELab "backslashes" x_OneOrMoreBackslashes);
        (ELit (R "**") false);
        (ELab "elements" (ERef "SingleQuoteBoldTextElements"));
        (ELit (R "*") false)]));
    (EAct (AHost "return types.NewEscapedQuotedText(backslashes.(string), ""*"", elements.([]interface{}))") (ESeq [
        (ELab "backslashes" x_OneOrMoreBackslashes);
        (ELit (R "*") false);
        (ELab "elements" (ERef "SingleQuoteBoldTextElements"));
        (ELit (R "*") false)]))].
(** parser.peg:1965-1970 DoubleQuoteItalicText; parser.go:40925-40957 *)
Definition g_DoubleQuoteItalicText : expr :=
  EAct (AHost "return types.NewQuotedText(types.DoubleQuoteItalic, elements.([]interface{}))") (ESeq [
      (ELit (R "__") false);
      (ELab "elements" (ERef "DoubleQuoteItalicTextElements"));
      (ELit (R "__") false)]).
(** parser.peg:1972-1972 DoubleQuoteItalicTextElements; parser.go:40958-40968 *)
Definition g_DoubleQuoteItalicTextElements : expr :=
  EPlus (ERef "DoubleQuoteItalicTextElement").
(** parser.peg:1974-1980 DoubleQuoteItalicTextElement; parser.go:40969-41004 *)
Definition g_DoubleQuoteItalicTextElement : expr :=
  EAct (AThen "c.trackElement(element)" "element") (ESeq [
      x_NotEOF;
      (ENot (ELit (R "__") false));
      (ELab "element" (ERef "QuotedTextElement"))]).
(** parser.peg:1985-1991 SingleQuoteItalicTextStartDelimiter, inlined at parser.go:41020-41023 *)
Definition x_SingleQuoteItalicTextStartDelimiter : expr :=
  EPred (PHost "return c.isSingleQuotedTextAllowed(), nil").
(** parser.peg:1985-1991 SingleQuoteItalicTextStartDelimiter, inlined at parser.go:41024-41035 *)
Definition x_SingleQuoteItalicTextStartDelimiter_2 : expr :=
  EAnd (ENot (ELit (R "_") false)).
(** parser.peg:1994-2001 SingleQuoteItalicTextEndDelimiter, inlined at parser.go:41050-41058 *)
Definition x_SingleQuoteItalicTextEndDelimiter : expr :=
  ENot (ELit (R "_") false).
(** parser.peg:1994-2001 SingleQuoteItalicTextEndDelimiter, inlined at parser.go:41059-41062 *)
Definition x_SingleQuoteItalicTextEndDelimiter_2 : expr :=
  EPred (PHost "return !c.isPrecededBySpace(), nil").
(** parser.peg:1994-2001 SingleQuoteItalicTextEndDelimiter, inlined at parser.go:41063-41075 *)
Definition x_SingleQuoteItalicTextEndDelimiter_3 : expr :=
  EAnd (ENot (ECls [] [] ["L"; "N"] false)).
(** parser.peg:2003-2008 SingleQuoteItalicText; parser.go:41005-41079 *)
Definition g_SingleQuoteItalicText : expr :=
  EAct (AHost "return types.NewQuotedText(types.SingleQuoteItalic, elements.([]interface{}))") (ESeq [
      (ELit (R "_") false);
      x_SingleQuoteItalicTextStartDelimiter;
      x_SingleQuoteItalicTextStartDelimiter_2;
      (ELab "elements" (ERef "SingleQuoteItalicTextElements"));
      (ELit (R "_") false);
      x_SingleQuoteItalicTextEndDelimiter;
      x_SingleQuoteItalicTextEndDelimiter_2;
      x_SingleQuoteItalicTextEndDelimiter_3]).
(** parser.peg:2010-2017 SingleQuoteItalicTextElements; parser.go:41080-41121 *)
Definition g_SingleQuoteItalicTextElements : expr :=
  EAct (ALabel "elements") (ESeq [
      (ENot x_Space);
      (ELab "elements" (EPlus (ERef "SingleQuoteItalicTextElement")));
      (EPred (PHost "return validateSingleQuoteElements(elements.([]interface{}))"))]).
(** parser.peg:1994-2001 SingleQuoteItalicTextEndDelimiter, inlined at parser.go:41139-41175 *)
Definition x_SingleQuoteItalicTextEndDelimiter_4 : expr :=
  ESeq [
    (ELit (R "_") false);
    (ENot (ELit (R "_") false));
    (EPred (PHost "return !c.isPrecededBySpace(), nil"));
    (EAnd (ENot (ECls [] [] ["L"; "N"] false)))].
(** parser.peg:2019-2025 SingleQuoteItalicTextElement; parser.go:41122-41188 *)
Definition g_SingleQuoteItalicTextElement : expr :=
  EAct (AThen "c.trackElement(element)" "element") (ESeq [
      x_NotEOF;
      (ENot x_SingleQuoteItalicTextEndDelimiter_4);
      (ELab "element" (ERef "QuotedTextElement"))]).
(** parser.peg:2027-2040 EscapedItalicText; parser.go:41189-41346 *)
Definition g_EscapedItalicText : expr :=
  EAlt [
    (EAct (AHost "return types.NewEscapedQuotedText(backslashes.(string), ""__"", elements.([]interface{}))") (ESeq [
        (ELab "backslashes" x_TwoOrMoreBackslashes);
        (ELit (R "__") false);
        (ELab "elements" (ERef "DoubleQuoteItalicTextElements"));
        (ELit (R "__") false)]));
    (EAct (AHost "result := append([]interface{}{""_""}, elements.([]interface{})) return types.NewEscapedQuotedText(backslashes.(string), ""_"", result)") (ESeq [
        (ELab "backslashes" x_OneOrMoreBackslashes);
        (ELit (R "__") false);
        (ELab "elements" (ERef "SingleQuoteItalicTextElements"));
        (ELit (R "_") false)]));
    (EAct (AHost "return types.NewEscapedQuotedText(backslashes.(string), ""_"", elements.([]interface{}))") (ESeq [
        (ELab "backslashes" x_OneOrMoreBackslashes);
        (ELit (R "_") false);
        (ELab "elements" (ERef "SingleQuoteItalicTextElements"));
        (ELit (R "_") false)]))].
(** parser.peg:2055-2060 DoubleQuoteMonospaceText; parser.go:41347-41379 *)
Definition g_DoubleQuoteMonospaceText : expr :=
  EAct (AHost "return types.NewQuotedText(types.DoubleQuoteMonospace, elements.([]interface{}))") (ESeq [
      (ELit (R "``") false);
      (ELab "elements" (ERef "DoubleQuoteMonospaceTextElements"));
      (ELit (R "``") false)]).
(** parser.peg:2062-2062 DoubleQuoteMonospaceTextElements; parser.go:41380-41390 *)
Definition g_DoubleQuoteMonospaceTextElements : expr :=
  EPlus (ERef "DoubleQuoteMonospaceTextElement").
(** parser.peg:2064-2070 DoubleQuoteMonospaceTextElement; parser.go:41391-41426 *)
Definition g_DoubleQuoteMonospaceTextElement : expr :=
  EAct (AThen "c.trackElement(element)" "element") (ESeq [
      x_NotEOF;
      (ENot (ELit (R "``") false));
      (ELab "element" (ERef "QuotedTextElement"))]).
(** parser.peg:2085-2092 SingleQuoteMonospaceTextEndDelimiter; parser.go:41427-41465 *)
Definition g_SingleQuoteMonospaceTextEndDelimiter : expr :=
  ESeq [
    (ENot (ERef "QuotationMark"));
    (ELit (R "`") false);
    (EPred (PHost "return !c.isPrecededBySpace(), nil"));
    (EAnd (ENot (ECls [] [] ["L"; "N"] false)))].
(** parser.peg:2077-2083 SingleQuoteMonospaceTextStartDelimiter, inlined at parser.go:41481-41484 *)
Definition x_SingleQuoteMonospaceTextStartDelimiter : expr :=
  EPred (PHost "return c.isSingleQuotedTextAllowed(), nil").
(** parser.peg:2077-2083 SingleQuoteMonospaceTextStartDelimiter, inlined at parser.go:41485-41496 *)
Definition x_SingleQuoteMonospaceTextStartDelimiter_2 : expr :=
  EAnd (ENot (ELit (R "`") false)).
(** parser.peg:2095-2100 SingleQuoteMonospaceText; parser.go:41466-41512 *)
Definition g_SingleQuoteMonospaceText : expr :=
  EAct (AHost "return types.NewQuotedText(types.SingleQuoteMonospace, elements.([]interface{}))") (ESeq [
      (ELit (R "`") false);
      x_SingleQuoteMonospaceTextStartDelimiter;
      x_SingleQuoteMonospaceTextStartDelimiter_2;
      (ELab "elements" (ERef "SingleQuoteMonospaceTextElements"));
      (ERef "SingleQuoteMonospaceTextEndDelimiter")]).
(** parser.peg:2102-2109 SingleQuoteMonospaceTextElements; parser.go:41513-41554 *)
Definition g_SingleQuoteMonospaceTextElements : expr :=
  EAct (ALabel "elements") (ESeq [
      (ENot x_Space);
      (ELab "elements" (EPlus (ERef "SingleQuoteMonospaceTextElement")));
      (EPred (PHost "return validateSingleQuoteElements(elements.([]interface{}))"))]).
(** parser.peg:2111-2117 SingleQuoteMonospaceTextElement; parser.go:41555-41588 *)
Definition g_SingleQuoteMonospaceTextElement : expr :=
  EAct (AThen "c.trackElement(element)" "element") (ESeq [
      x_NotEOF;
      (ENot (ERef "SingleQuoteMonospaceTextEndDelimiter"));
      (ELab "element" (ERef "QuotedTextElement"))]).
(** parser.peg:2119-2132 EscapedMonospaceText; parser.go:41589-41746 *)
Definition g_EscapedMonospaceText : expr :=
  EAlt [
    (EAct (AHost "return types.NewEscapedQuotedText(backslashes.(string), ""``"", elements.([]interface{}))") (ESeq [
        (ELab "backslashes" x_TwoOrMoreBackslashes);
        (ELit (R "``") false);
        (ELab "elements" (ERef "DoubleQuoteMonospaceTextElements"));
        (ELit (R "``") false)]));
    (EAct (AHost "result := append([]interface{}{""`""}, elements.([]interface{})) return types.NewEscapedQuotedText(backslashes.(string), ""`"", result)") (ESeq [
        (ELab "backslashes" x_OneOrMoreBackslashes);
        (ELit (R "``") false);
        (ELab "elements" (ERef "SingleQuoteMonospaceTextElements"));
        (ELit (R "`") false)]));
    (EAct (AHost "return types.NewEscapedQuotedText(backslashes.(string), ""`"", elements.([]interface{}))") (ESeq [
        (ELab "backslashes" x_OneOrMoreBackslashes);
        (ELit (R "`") false);
        (ELab "elements" (ERef "SingleQuoteMonospaceTextElements"));
        (ELit (R "`") false)]))].
(** parser.peg:2147-2152 DoubleQuoteMarkedText; parser.go:41747-41779 *)
Definition g_DoubleQuoteMarkedText : expr :=
  EAct (AHost "return types.NewQuotedText(types.DoubleQuoteMarked, elements.([]interface{}))") (ESeq [
      (ELit (R "##") false);
      (ELab "elements" (ERef "DoubleQuoteMarkedTextElements"));
      (ELit (R "##") false)]).
(** parser.peg:2154-2154 DoubleQuoteMarkedTextElements; parser.go:41780-41790 *)
Definition g_DoubleQuoteMarkedTextElements : expr :=
  EStar (ERef "DoubleQuoteMarkedTextElement").
(** parser.peg:2156-2162 DoubleQuoteMarkedTextElement; parser.go:41791-41826 *)
Definition g_DoubleQuoteMarkedTextElement : expr :=
  EAct (AThen "c.trackElement(element)" "element") (ESeq [
      x_NotEOF;
      (ENot (ELit (R "##") false));
      (ELab "element" (ERef "QuotedTextElement"))]).
(** parser.peg:2167-2173 SingleQuoteMarkedTextStartDelimiter, inlined at parser.go:41842-41845 *)
Definition x_SingleQuoteMarkedTextStartDelimiter : expr :=
  EPred (PHost "return c.isSingleQuotedTextAllowed(), nil").
(** parser.peg:2167-2173 SingleQuoteMarkedTextStartDelimiter, inlined at parser.go:41846-41857 *)
Definition x_SingleQuoteMarkedTextStartDelimiter_2 : expr :=
  EAnd (ENot (ELit (R "#") false)).
(** parser.peg:2175-2182 SingleQuoteMarkedTextEndDelimiter, inlined at parser.go:41872-41880 *)
Definition x_SingleQuoteMarkedTextEndDelimiter : expr :=
  ENot (ELit (R "#") false).
(** parser.peg:2175-2182 SingleQuoteMarkedTextEndDelimiter, inlined at parser.go:41881-41884 *)
Definition x_SingleQuoteMarkedTextEndDelimiter_2 : expr :=
  EPred (PHost "return !c.isPrecededBySpace(), nil").
(** parser.peg:2175-2182 SingleQuoteMarkedTextEndDelimiter, inlined at parser.go:41885-41897 *)
Definition x_SingleQuoteMarkedTextEndDelimiter_3 : expr :=
  EAnd (ENot (ECls [] [] ["L"; "N"] false)).
(** parser.peg:2184-2189 SingleQuoteMarkedText; parser.go:41827-41901 *)
Definition g_SingleQuoteMarkedText : expr :=
  EAct (AHost "return types.NewQuotedText(types.SingleQuoteMarked, elements.([]interface{}))") (ESeq [
      (ELit (R "#") false);
      x_SingleQuoteMarkedTextStartDelimiter;
      x_SingleQuoteMarkedTextStartDelimiter_2;
      (ELab "elements" (ERef "SingleQuoteMarkedTextElements"));
      (ELit (R "#") false);
      x_SingleQuoteMarkedTextEndDelimiter;
      x_SingleQuoteMarkedTextEndDelimiter_2;
      x_SingleQuoteMarkedTextEndDelimiter_3]).
(** parser.peg:2191-2198 SingleQuoteMarkedTextElements; parser.go:41902-41943 *)
Definition g_SingleQuoteMarkedTextElements : expr :=
  EAct (ALabel "elements") (ESeq [
      (ENot x_Space);
      (ELab "elements" (EPlus (ERef "SingleQuoteMarkedTextElement")));
      (EPred (PHost "return validateSingleQuoteElements(elements.([]interface{}))"))]).
(** parser.peg:2175-2182 SingleQuoteMarkedTextEndDelimiter, inlined at parser.go:41961-41997 *)
Definition x_SingleQuoteMarkedTextEndDelimiter_4 : expr :=
  ESeq [
    (ELit (R "#") false);
    (ENot (ELit (R "#") false));
    (EPred (PHost "return !c.isPrecededBySpace(), nil"));
    (EAnd (ENot (ECls [] [] ["L"; "N"] false)))].
(** parser.peg:2200-2206 SingleQuoteMarkedTextElement; parser.go:41944-42010 *)
Definition g_SingleQuoteMarkedTextElement : expr :=
  EAct (AThen "c.trackElement(element)" "element") (ESeq [
      x_NotEOF;
      (ENot x_SingleQuoteMarkedTextEndDelimiter_4);
      (ELab "element" (ERef "QuotedTextElement"))]).
(** parser.peg:2208-2221 EscapedMarkedText; parser.go:42011-42168 *)
Definition g_EscapedMarkedText : expr :=
  EAlt [
    (EAct (AHost "return types.NewEscapedQuotedText(backslashes.(string), ""##"", elements.([]interface{}))") (ESeq [
        (ELab "backslashes" x_TwoOrMoreBackslashes);
        (ELit (R "##") false);
        (ELab "elements" (ERef "DoubleQuoteMarkedTextElements"));
        (ELit (R "##") false)]));
    (EAct (AHost "result := append([]interface{}{""#""}, elements.([]interface{})) return types.NewEscapedQuotedText(backslashes.(string), ""#"", result)") (ESeq [
        (ELab "backslashes" x_OneOrMoreBackslashes);
        (ELit (R "##") false);
        (ELab "elements" (ERef "SingleQuoteMarkedTextElements"));
        (ELit (R "#") false)]));
    (EAct (AHost "return types.NewEscapedQuotedText(backslashes.(string), ""#"", elements.([]interface{}))") (ESeq [
        (ELab "backslashes" x_OneOrMoreBackslashes);
        (ELit (R "#") false);
        (ELab "elements" (ERef "SingleQuoteMarkedTextElements"));
        (ELit (R "#") false)]))].
(** parser.peg:2226-2231 SubscriptText; parser.go:42169-42201 *)
Definition g_SubscriptText : expr :=
  EAct (AHost "return types.NewQuotedText(types.SingleQuoteSubscript, element)") (ESeq [
      (ELit (R "~") false);
      (ELab "element" (ERef "SubscriptTextElement"));
      (ELit (R "~") false)]).
(** parser.peg:2237-2239 NonSubscriptText, inlined at parser.go:42212-42225 *)
Definition x_NonSubscriptText : expr :=
  EAct (AHost "return c.text, nil") (EPlus (ECls [13; 10; 32; 126] [] [] true)).
(** parser.peg:2235-2235 SubscriptTextElement; parser.go:42202-42228 *)
Definition g_SubscriptTextElement : expr :=
  EAlt [
    (ERef "QuotedText");
    x_NonSubscriptText].
(** parser.peg:2241-2248 EscapedSubscriptText; parser.go:42229-42278 *)
Definition g_EscapedSubscriptText : expr :=
  EAct (AHost "return types.NewEscapedQuotedText(backslashes.(string), ""~"", element)") (ESeq [
      (ELab "backslashes" x_OneOrMoreBackslashes);
      (ELit (R "~") false);
      (ELab "element" (ERef "SubscriptTextElement"));
      (ELit (R "~") false)]).
(** parser.peg:2253-2258 SuperscriptText; parser.go:42279-42311 *)
Definition g_SuperscriptText : expr :=
  EAct (AHost "return types.NewQuotedText(types.SingleQuoteSuperscript, element)") (ESeq [
      (ELit (R "^") false);
      (ELab "element" (ERef "SuperscriptTextElement"));
      (ELit (R "^") false)]).
(** parser.peg:2264-2266 NonSuperscriptText, inlined at parser.go:42322-42335 *)
Definition x_NonSuperscriptText : expr :=
  EAct (AHost "return c.text, nil") (EPlus (ECls [13; 10; 32; 94] [] [] true)).
(** parser.peg:2262-2262 SuperscriptTextElement; parser.go:42312-42338 *)
Definition g_SuperscriptTextElement : expr :=
  EAlt [
    (ERef "QuotedText");
    x_NonSuperscriptText].
(** parser.peg:2268-2275 EscapedSuperscriptText; parser.go:42339-42388 *)
Definition g_EscapedSuperscriptText : expr :=
  EAct (AHost "return types.NewEscapedQuotedText(backslashes.(string), ""^"", element)") (ESeq [
      (ELab "backslashes" x_OneOrMoreBackslashes);
      (ELit (R "^") false);
      (ELab "element" (ERef "SuperscriptTextElement"));
      (ELit (R "^") false)]).
(** parser.peg:2281-2295 Section; parser.go:42389-42486 *)
Definition g_Section : expr :=
  EAct (AHost "return types.NewSection(level.(int), title.([]interface{}))") (ESeq [
      (EPred (PHost "return !c.isWithinDelimitedBlock(), nil"));
      (ELab "level" (EAct (ALen 1) (EPlus (ELit (R "=") false))));
      (EPred (PIntLe "level" 5));
      x_Spaces;
      (ELab "title" (ERef "SectionTitle"));
      x_EOL]).
(** parser.peg:2297-2305 SectionTitle; parser.go:42487-42514 *)
Definition g_SectionTitle : expr :=
  EAct (AHost "return types.NewInlineElements(elements)") (ESeq [
      (EState "c.withSubstitutions(headerSubstitutions()) return nil");
      (ELab "elements" (EPlus (ERef "SectionTitleElement")))]).
(** parser.peg:2330-2338 SectionTitleLegacyID, inlined at parser.go:43215-43736 *)
Definition x_SectionTitleLegacyID : expr :=
  EAct (ALabel "id") (ESeq [
      (EPred (PHost "return c.isPrecededBySpace(), nil"));
      (ELab "id" x_LegacyElementID);
      (EStar x_Space);
      (EAnd x_EOL)]).
(** parser.peg:1251-1260 InlineAnchor, inlined at parser.go:43737-43775 *)
Definition x_InlineAnchor : expr :=
  EAct (AHost "return types.NewStringElement(strings.TrimPrefix(string(c.text), `\`))") (ESeq [
      (ELit (R "\[[") false);
      (ELab "id" x_Id);
      (ELit (R "]]") false)]).
(** parser.peg:1251-1260 InlineAnchor, inlined at parser.go:43776-43814 *)
Definition x_InlineAnchor_2 : expr :=
  EAct (AHost "return types.NewInlineAnchor(id.(string))") (ESeq [
      (ELit (R "[[") false);
      (ELab "id" x_Id);
      (ELit (R "]]") false)]).
(** parser.peg:2307-2328 SectionTitleElement; parser.go:42515-43836 *)
Definition g_SectionTitleElement : expr :=
  EAct (AThen "c.trackElement(element)" "element") (ESeq [
      (ENot x_EOL);
      (ELab "element" (EAlt [
          x_InlineText;
          x_Spaces;
          x_TypographicQuote;
          x_TypographicQuote_2;
          (ERef "Replacement");
          x_Punctuation;
          (ERef "Quote");
          (ERef "InlinePassthrough");
          (ERef "Link");
          x_SpecialCharacter;
          (ERef "InlineIcon");
          x_AttributeReference;
          x_ElementPlaceHolder;
          x_SectionTitleLegacyID;
          x_InlineAnchor;
          x_InlineAnchor_2;
          (ERef "InlineFootnote");
          x_AnyChar]))]).
(** parser.peg:2345-2370 NormalGroup; parser.go:43837-44646 *)
Definition g_NormalGroup : expr :=
  EAct (AHost "return types.NewInlineElements(elements)") (ESeq [
      (ELab "elements" (EPlus (EAct (AThen "c.trackElement(element)" "element") (ESeq [
              x_NotEOF;
              (ELab "element" (EAlt [
                  x_InlineText;
                  x_Spaces;
                  (ERef "Replacement");
                  x_TypographicQuote;
                  x_TypographicQuote_2;
                  x_Punctuation;
                  x_Newline;
                  x_AttributeReference;
                  (ERef "Quote");
                  (ERef "InlineMacro");
                  (ERef "Callout");
                  x_SpecialCharacter;
                  x_LineBreak;
                  (ERef "InlinePassthrough");
                  x_ElementPlaceHolder;
                  x_AnyChar]))]))));
      x_EOF]).
(** parser.peg:2373-2376 AttributeStructuredValue; parser.go:44647-44676 *)
Definition g_AttributeStructuredValue : expr :=
  EAct (AHost "return types.NewInlineElements(elements)") (ESeq [
      (ELab "elements" (EPlus (ERef "AttributeStructuredValueElement")));
      x_EOF]).
(** parser.peg:2378-2393 AttributeStructuredValueElement; parser.go:44677-44971 *)
Definition g_AttributeStructuredValueElement : expr :=
  EAct (AThen "c.trackElement(element)" "element") (ESeq [
      x_NotEOF;
      (ELab "element" (EAlt [
          x_InlineText;
          x_Space;
          (ERef "Replacement");
          x_Punctuation;
          (ERef "Quote");
          (ERef "InlineMacro");
          x_SpecialCharacter;
          x_ElementPlaceHolder;
          x_Newline;
          x_AnyChar]))]).
(** parser.peg:1304-1306 ConcealedIndexTermContent, inlined at parser.go:45112-45141 *)
Definition x_ConcealedIndexTermContent : expr :=
  EAct AText (EPlus (EAlt [
        (ECls [] [] ["L"; "N"] false);
        x_Space])).
(** parser.peg:1297-1302 ConcealedIndexTerm, inlined at parser.go:45097-45319 *)
Definition x_ConcealedIndexTerm : expr :=
  EAct (AHost "return types.NewConcealedIndexTerm(term1, term2, term3)") (ESeq [
      (ELit (R "(((") false);
      (ELab "term1" x_ConcealedIndexTermContent);
      (ELab "term2" (EOpt (EAct (ALabel "content") (ESeq [
              (EStar x_Space);
              (ELit (R ",") false);
              (EStar x_Space);
              (ELab "content" x_ConcealedIndexTermContent)]))));
      (ELab "term3" (EOpt (EAct (ALabel "content") (ESeq [
              (EStar x_Space);
              (ELit (R ",") false);
              (EStar x_Space);
              (ELab "content" x_ConcealedIndexTermContent)]))));
      (ELit (R ")))") false)]).
(** parser.peg:2397-2416 InlineMacro; parser.go:44972-45338 *)
Definition g_InlineMacro : expr :=
  EAct (ALabel "element") (ESeq [
      (EPred (PHost "return c.isSubstitutionEnabled(Macros), nil"));
      (ELab "element" (EAlt [
          (ERef "InlineIcon");
          (ERef "InlineImage");
          (ERef "Link");
          (ERef "InlinePassthrough");
          (ERef "InlineFootnote");
          (ERef "CrossReference");
          (ERef "InlineUserMacro");
          x_InlineAnchor;
          x_InlineAnchor_2;
          x_ConcealedIndexTerm;
          (ERef "IndexTerm");
          (ERef "InlineButton");
          (ERef "InlineMenu")]))]).
(** parser.peg:1383-1387 TriplePlusPassthroughContent, inlined at parser.go:45373-45469 *)
Definition x_TriplePlusPassthroughContent : expr :=
  EAlt [
    (EAct (AHost "return types.NewStringElement(string(c.text))") (EStar (ESeq [
          (ENot (ELit (R "+++") false));
          EAny])));
    (EAct (AHost "return types.NewStringElement(string(c.text))") (EOpt (ESeq [
          (ENot x_Space);
          (ENot x_Newline);
          (ENot (ELit (R "+++") false));
          EAny])))].
(** parser.peg:1379-1381 TriplePlusPassthrough, inlined at parser.go:45358-45489 *)
Definition x_TriplePlusPassthrough : expr :=
  EAct (AHost "return types.NewInlinePassthrough(types.TriplePlusPassthrough, []interface{}{content})") (ESeq [
      (ELit (R "+++") false);
      (ELab "content" x_TriplePlusPassthroughContent);
      (ELit (R "+++") false);
      (ENot (ECls [] [] ["L"; "N"] false))]).
(** parser.peg:1371-1375 SinglePlusPassthroughContent, inlined at parser.go:45505-45717 *)
Definition x_SinglePlusPassthroughContent : expr :=
  EAlt [
    (EAct (AHost "return types.NewStringElement(string(c.text))") (ESeq [
        (ENot (ELit (R "+") false));
        (ENot x_Space);
        (ENot x_Newline);
        EAny;
        (EStar (ESeq [
            (ENot (ESeq [
                x_Spaces;
                (ELit (R "+") false)]));
            (ENot (ELit (R "+") false));
            (ENot x_Newline);
            EAny]))]));
    (EAct (AHost "return types.NewStringElement(string(c.text))") (ESeq [
        (ENot x_Space);
        (ENot x_Newline);
        (ENot (ELit (R "+") false));
        EAny]))].
(** parser.peg:1367-1369 SinglePlusPassthrough, inlined at parser.go:45490-45737 *)
Definition x_SinglePlusPassthrough : expr :=
  EAct (AHost "return types.NewInlinePassthrough(types.SinglePlusPassthrough, []interface{}{content})") (ESeq [
      (ELit (R "+") false);
      (ELab "content" x_SinglePlusPassthroughContent);
      (ELit (R "+") false);
      (ENot (ECls [] [] ["L"; "N"] false))]).
(** parser.peg:2418-2427 InlinePassthrough; parser.go:45339-45748 *)
Definition g_InlinePassthrough : expr :=
  EAct (ALabel "element") (ESeq [
      (EPred (PHost "return c.isSubstitutionEnabled(InlinePassthroughs), nil"));
      (ELab "element" (EAlt [
          x_TriplePlusPassthrough;
          x_SinglePlusPassthrough;
          (ERef "PassthroughMacro")]))]).
(** parser.peg:2429-2434 Quote; parser.go:45749-45765 *)
Definition g_Quote : expr :=
  ESeq [
    (EPred (PHost "return c.isSubstitutionEnabled(Quotes), nil"));
    (ERef "QuotedText")].
(** parser.peg:2436-2445 Replacement; parser.go:45766-45790 *)
Definition g_Replacement : expr :=
  EAct (ALabel "element") (ESeq [
      (EPred (PHost "return c.isSubstitutionEnabled(Replacements), nil"));
      (ELab "element" (ERef "Symbol"))]).
(** parser.peg:2528-2530 Copyright, inlined at parser.go:45816-45825 *)
Definition x_Copyright : expr :=
  EAct (AHost "return types.NewSymbol(""(C)"")") (ELit (R "(C)") false).
(** parser.peg:2532-2534 Trademark, inlined at parser.go:45826-45835 *)
Definition x_Trademark : expr :=
  EAct (AHost "return types.NewSymbol(""(TM)"")") (ELit (R "(TM)") false).
(** parser.peg:2536-2538 Registered, inlined at parser.go:45836-45845 *)
Definition x_Registered : expr :=
  EAct (AHost "return types.NewSymbol(""(R)"")") (ELit (R "(R)") false).
(** parser.peg:2540-2542 Ellipsis, inlined at parser.go:45846-45855 *)
Definition x_Ellipsis : expr :=
  EAct (AHost "return types.NewSymbol(""..."")") (ELit (R "...") false).
(** parser.peg:2568-2570 SingleRightArrow, inlined at parser.go:45856-45865 *)
Definition x_SingleRightArrow : expr :=
  EAct (AHost "return types.NewSymbol(""->"")") (ELit (R "->") false).
(** parser.peg:2544-2564 Mdash, inlined at parser.go:45866-45941 *)
Definition x_Mdash : expr :=
  EAct (AHost "return types.NewSymbol("" -- "")") (ESeq [
      (ELit (R "--") false);
      (EPred (PHost "return c.isPrecededBySpace(), nil"));
      (EAlt [
        x_Space;
        (EAnd x_EOL)])]).
(** parser.peg:2544-2564 Mdash, inlined at parser.go:45942-46008 *)
Definition x_Mdash_2 : expr :=
  EAct (AHost "return types.NewSymbol(""--"")") (ESeq [
      (ELit (R "--") false);
      (EPred (PHost "return c.isPrecededByAlphanum(), nil"));
      (EAnd (EAlt [
          (ECls [] [] ["L"; "N"] false);
          x_Newline;
          x_EOF]))]).
(** parser.peg:2572-2574 SingleLeftArrow, inlined at parser.go:46009-46018 *)
Definition x_SingleLeftArrow : expr :=
  EAct (AHost "return types.NewSymbol(""<-"")") (ELit (R "<-") false).
(** parser.peg:2576-2578 DoubleRightArrow, inlined at parser.go:46019-46028 *)
Definition x_DoubleRightArrow : expr :=
  EAct (AHost "return types.NewSymbol(""=>"")") (ELit (R "=>") false).
(** parser.peg:2580-2582 DoubleLeftArrow, inlined at parser.go:46029-46038 *)
Definition x_DoubleLeftArrow : expr :=
  EAct (AHost "return types.NewSymbol(""<="")") (ELit (R "<=") false).
(** parser.peg:2497-2512 Symbol; parser.go:45791-46273 *)
Definition g_Symbol : expr :=
  EAlt [
    (EAct (AHost "return types.NewStringElement(strings.TrimPrefix(string(c.text), `\`))") (ESeq [
        (ELit (R "\") false);
        (EAlt [
          (ERef "QuotationMark");
          x_Copyright;
          x_Trademark;
          x_Registered;
          x_Ellipsis;
          x_SingleRightArrow;
          x_Mdash;
          x_Mdash_2;
          x_SingleLeftArrow;
          x_DoubleRightArrow;
          x_DoubleLeftArrow])]));
    (ERef "QuotationMark");
    x_Copyright;
    x_Trademark;
    x_Registered;
    x_Ellipsis;
    x_Mdash;
    x_Mdash_2;
    x_SingleRightArrow;
    x_SingleLeftArrow;
    x_DoubleRightArrow;
    x_DoubleLeftArrow].
(** parser.peg:2077-2083 SingleQuoteMonospaceTextStartDelimiter, inlined at parser.go:46294-46320 *)
Definition x_SingleQuoteMonospaceTextStartDelimiter_3 : expr :=
  ESeq [
    (ELit (R "`") false);
    (EPred (PHost "return c.isSingleQuotedTextAllowed(), nil"));
    (EAnd (ENot (ELit (R "`") false)))].
(** parser.peg:2514-2526 QuotationMark; parser.go:46274-46416 *)
Definition g_QuotationMark : expr :=
  EAlt [
    (EAct (AHost "return types.NewSymbol(""`\"""")") (ESeq [
        (ELit (R "`""") false);
        (ENot x_SingleQuoteMonospaceTextStartDelimiter_3)]));
    (EAct (AHost "return types.NewSymbol(""\""`"")") (ESeq [
        (ELit (R """`") false);
        (ENot (ERef "SingleQuoteMonospaceTextEndDelimiter"))]));
    (EAct (AHost "return types.NewSymbol(""`'"")") (ESeq [
        (ELit (R "`'") false);
        (ENot x_SingleQuoteMonospaceTextStartDelimiter_3)]));
    (EAct (AHost "return types.NewSymbol(""'`"")") (ESeq [
        (ELit (R "'`") false);
        (ENot (ERef "SingleQuoteMonospaceTextEndDelimiter"))]))].
(** parser.peg:2661-2692 Column, inlined at parser.go:46431-46668 *)
Definition x_Column : expr :=
  EAct (AHost "return types.NewTableColumn(multiplier, halign, valign, weight, style)") (ESeq [
      x_NotEOF;
      (ELab "multiplier" (EOpt (EAct (ALabel "n") (ESeq [
              (ELab "n" x_Integer);
              (ELit (R "*") false)]))));
      (ELab "halign" (EOpt (EAlt [
            (EAct (AHost "return types.HAlignLeft, nil") (ELit (R "<") false));
            (EAct (AHost "return types.HAlignRight, nil") (ELit (R ">") false));
            (EAct (AHost "return types.HAlignCenter, nil") (ELit (R "^") false))])));
      (ELab "valign" (EOpt (EAlt [
            (EAct (AHost "return types.VAlignTop, nil") (ELit (R ".<") false));
            (EAct (AHost "return types.VAlignBottom, nil") (ELit (R ".>") false));
            (EAct (AHost "return types.VAlignMiddle, nil") (ELit (R ".^") false))])));
      (ELab "weight" (EOpt (EAlt [
            x_Integer;
            (EAct AText (ELit (R "~") false))])));
      (ELab "style" (EOpt (EAct AText (ECls [97; 100; 101; 104; 108; 109; 115] [] [] false))));
      (ELab "comma" (EOpt (ELit (R ",") false)));
      (EPred (PSome ["multiplier"; "halign"; "valign"; "weight"; "style"; "comma"]))]).
(** parser.peg:2657-2659 TableColumnsAttribute; parser.go:46417-46680 *)
Definition g_TableColumnsAttribute : expr :=
  EAct (ALabel "cols") (ESeq [
      (ELab "cols" (EStar x_Column));
      x_EOF]).
(** parser.peg:2731-2733 UserMacroName, inlined at parser.go:46693-46707 *)
Definition x_UserMacroName : expr :=
  EAct AText (EPlus (ECls [95; 45] [] ["L"; "N"] false)).
(** parser.peg:2735-2737 UserMacroValue, inlined at parser.go:46722-46735 *)
Definition x_UserMacroValue : expr :=
  EAct AText (EStar (ECls [58; 91; 32; 13; 10] [] [] true)).
(** parser.peg:2707-2717 UserMacroBlock; parser.go:46681-46786 *)
Definition g_UserMacroBlock : expr :=
  EAct (AHost "return types.NewUserMacroBlock(name.(string), value.(string), attributes.(types.Attributes), string(c.text))") (ESeq [
      (ELab "name" x_UserMacroName);
      (EPred (PHost "return c.hasUserMacro(name.(string)), nil"));
      (ELit (R "::") false);
      (ELab "value" x_UserMacroValue);
      (ELab "attributes" (ERef "InlineAttributes"));
      x_EOL]).
(** parser.peg:2719-2729 InlineUserMacro; parser.go:46787-46854 *)
Definition g_InlineUserMacro : expr :=
  EAct (AHost "return types.NewInlineUserMacro(name.(string), value.(string), attributes.(types.Attributes), string(c.text))") (ESeq [
      (ELab "name" x_UserMacroName);
      (EPred (PHost "return c.hasUserMacro(name.(string)), nil"));
      (ELit (R ":") false);
      (ELab "value" x_UserMacroValue);
      (ELab "attributes" (ERef "InlineAttributes"))]).
(** parser.peg:2806-2808 FileLocation; parser.go:46855-47348 *)
Definition g_FileLocation : expr :=
  EAct (AHost "return types.NewLocation("""", path.([]interface{}))") (ELab "path" x_Filename).

(** parser.go:26-47330 g *)
Definition the_grammar : grammar :=
  [("DocumentRawLine", g_DocumentRawLine);
   ("FileInclusion", g_FileInclusion);
   ("LineRanges", g_LineRanges);
   ("TagRanges", g_TagRanges);
   ("IncludedFileLine", g_IncludedFileLine);
   ("DocumentFragment", g_DocumentFragment);
   ("DelimitedBlockElements", g_DelimitedBlockElements);
   ("AttributeDeclaration", g_AttributeDeclaration);
   ("AttributeDeclarationValue", g_AttributeDeclarationValue);
   ("AttributeDeclarationValueElements", g_AttributeDeclarationValueElements);
   ("AttributeDeclarationValueElement", g_AttributeDeclarationValueElement);
   ("BlockAttributes", g_BlockAttributes);
   ("InlineAttributes", g_InlineAttributes);
   ("LongHandAttributes", g_LongHandAttributes);
   ("FirstPositionalAttributes", g_FirstPositionalAttributes);
   ("ShortHandIDAttribute", g_ShortHandIDAttribute);
   ("ShortHandAttribute", g_ShortHandAttribute);
   ("ShortHandDotRoleAttribute", g_ShortHandDotRoleAttribute);
   ("ShortHandOptionAttribute", g_ShortHandOptionAttribute);
   ("ShortHandAttributeValue", g_ShortHandAttributeValue);
   ("PositionalAttribute", g_PositionalAttribute);
   ("NamedAttribute", g_NamedAttribute);
   ("AttributeValue", g_AttributeValue);
   ("SingleQuotedAttributeValue", g_SingleQuotedAttributeValue);
   ("SingleQuotedAttributeValueContent", g_SingleQuotedAttributeValueContent);
   ("DoubleQuotedAttributeValue", g_DoubleQuotedAttributeValue);
   ("DoubleQuotedAttributeValueContent", g_DoubleQuotedAttributeValueContent);
   ("UnquotedAttributeValue", g_UnquotedAttributeValue);
   ("CrossReference", g_CrossReference);
   ("ExternalCrossReference", g_ExternalCrossReference);
   ("MarkdownQuoteAttribution", g_MarkdownQuoteAttribution);
   ("DocumentHeader", g_DocumentHeader);
   ("DocumentTitle", g_DocumentTitle);
   ("DocumentAuthorFullName", g_DocumentAuthorFullName);
   ("InlineButton", g_InlineButton);
   ("InlineMenu", g_InlineMenu);
   ("IndexTerm", g_IndexTerm);
   ("IndexTermContent", g_IndexTermContent);
   ("ImageBlock", g_ImageBlock);
   ("InlineImage", g_InlineImage);
   ("InlineIcon", g_InlineIcon);
   ("InlineFootnote", g_InlineFootnote);
   ("FootnoteElements", g_FootnoteElements);
   ("FootnoteElement", g_FootnoteElement);
   ("PassthroughMacro", g_PassthroughMacro);
   ("Link", g_Link);
   ("RelativeLink", g_RelativeLink);
   ("ExternalLink", g_ExternalLink);
   ("ListElements", g_ListElements);
   ("ExtraListElements", g_ExtraListElements);
   ("ExtraListElement", g_ExtraListElement);
   ("ListContinuation", g_ListContinuation);
   ("ListContinuationElement", g_ListContinuationElement);
   ("Callout", g_Callout);
   ("ShortcutParagraph", g_ShortcutParagraph);
   ("Paragraph", g_Paragraph);
   ("QuotedText", g_QuotedText);
   ("EscapedQuotedText", g_EscapedQuotedText);
   ("UnescapedQuotedText", g_UnescapedQuotedText);
   ("SingleQuotedText", g_SingleQuotedText);
   ("DoubleQuotedText", g_DoubleQuotedText);
   ("QuotedTextElement", g_QuotedTextElement);
   ("DoubleQuoteBoldText", g_DoubleQuoteBoldText);
   ("DoubleQuoteBoldTextElements", g_DoubleQuoteBoldTextElements);
   ("DoubleQuoteBoldTextElement", g_DoubleQuoteBoldTextElement);
   ("SingleQuoteBoldText", g_SingleQuoteBoldText);
   ("SingleQuoteBoldTextElements", g_SingleQuoteBoldTextElements);
   ("SingleQuoteBoldTextElement", g_SingleQuoteBoldTextElement);
   ("EscapedBoldText", g_EscapedBoldText);
   ("DoubleQuoteItalicText", g_DoubleQuoteItalicText);
   ("DoubleQuoteItalicTextElements", g_DoubleQuoteItalicTextElements);
   ("DoubleQuoteItalicTextElement", g_DoubleQuoteItalicTextElement);
   ("SingleQuoteItalicText", g_SingleQuoteItalicText);
   ("SingleQuoteItalicTextElements", g_SingleQuoteItalicTextElements);
   ("SingleQuoteItalicTextElement", g_SingleQuoteItalicTextElement);
   ("EscapedItalicText", g_EscapedItalicText);
   ("DoubleQuoteMonospaceText", g_DoubleQuoteMonospaceText);
   ("DoubleQuoteMonospaceTextElements", g_DoubleQuoteMonospaceTextElements);
   ("DoubleQuoteMonospaceTextElement", g_DoubleQuoteMonospaceTextElement);
   ("SingleQuoteMonospaceTextEndDelimiter", g_SingleQuoteMonospaceTextEndDelimiter);
   ("SingleQuoteMonospaceText", g_SingleQuoteMonospaceText);
   ("SingleQuoteMonospaceTextElements", g_SingleQuoteMonospaceTextElements);
   ("SingleQuoteMonospaceTextElement", g_SingleQuoteMonospaceTextElement);
   ("EscapedMonospaceText", g_EscapedMonospaceText);
   ("DoubleQuoteMarkedText", g_DoubleQuoteMarkedText);
   ("DoubleQuoteMarkedTextElements", g_DoubleQuoteMarkedTextElements);
   ("DoubleQuoteMarkedTextElement", g_DoubleQuoteMarkedTextElement);
   ("SingleQuoteMarkedText", g_SingleQuoteMarkedText);
   ("SingleQuoteMarkedTextElements", g_SingleQuoteMarkedTextElements);
   ("SingleQuoteMarkedTextElement", g_SingleQuoteMarkedTextElement);
   ("EscapedMarkedText", g_EscapedMarkedText);
   ("SubscriptText", g_SubscriptText);
   ("SubscriptTextElement", g_SubscriptTextElement);
   ("EscapedSubscriptText", g_EscapedSubscriptText);
   ("SuperscriptText", g_SuperscriptText);
   ("SuperscriptTextElement", g_SuperscriptTextElement);
   ("EscapedSuperscriptText", g_EscapedSuperscriptText);
   ("Section", g_Section);
   ("SectionTitle", g_SectionTitle);
   ("SectionTitleElement", g_SectionTitleElement);
   ("NormalGroup", g_NormalGroup);
   ("AttributeStructuredValue", g_AttributeStructuredValue);
   ("AttributeStructuredValueElement", g_AttributeStructuredValueElement);
   ("InlineMacro", g_InlineMacro);
   ("InlinePassthrough", g_InlinePassthrough);
   ("Quote", g_Quote);
   ("Replacement", g_Replacement);
   ("Symbol", g_Symbol);
   ("QuotationMark", g_QuotationMark);
   ("TableColumnsAttribute", g_TableColumnsAttribute);
   ("UserMacroBlock", g_UserMacroBlock);
   ("InlineUserMacro", g_InlineUserMacro);
   ("FileLocation", g_FileLocation)].
