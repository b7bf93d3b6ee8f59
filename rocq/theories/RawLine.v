(** Model of the rule DocumentRawLine of pkg/parser/parser.peg: what preprocessing recognises in one
    line.  Lines are assumed to be valid UTF-8 (the generated parser reports an error otherwise). *)
From Verif Require Import GoBase Types Attrs Utf8 Cond Include Preprocess.

Notation "'peg' x <- e ; k" := (match e with Some x => k | None => None end)
  (at level 200, x pattern, e at level 100, k at level 200).

(** parser.peg:2848-2850 EOL followed by EOF: at most one newline left *)
Definition eol_eof (s : string) : bool :=
  String.eqb s "" || String.eqb s LF || String.eqb s (String (chr 13) "") || String.eqb s (String (chr 13) LF).
(** longest prefix of bytes that satisfy [f] (character classes that exclude or include ASCII
    characters only: the same as on runes) *)
Fixpoint take_bytes (f : ascii -> bool) (s : string) : string * string :=
  match s with
  | EmptyString => ("", "")
  | String c r => if f c then let (a, b) := take_bytes f r in (String c a, b) else ("", s)
  end.
Definition not_in (l : list N) (c : ascii) : bool := negb (existsb (N.eqb (N_of_ascii c)) l).
(** parser.peg:2856-2858 Spaces *)
Definition is_space (c : ascii) : bool := Ascii.eqb c " " || Ascii.eqb c (chr 9).

Section RawLine.
  (** unicode.Letter / unicode.Number of a rune *)
  Variable is_alnum : N -> bool.
  (** parser.peg:323-359 AttributeDeclarationValue, on what follows the spaces *)
  Variable declValue : string -> option val.
  (** parser.peg:131-145 FileInclusion, on what follows "include::" *)
  Variable fileInclusion : string -> option (val * attributes).

  (** parser.peg:303-314 AttributeDeclaration *)
  Definition attributeDeclaration (s : string) : option rawelt :=
    peg s1 <- lit ":" s;
    peg (n, s2) <- attributeName is_alnum s1;
    peg s3 <- lit ":" s2;
    if eol_eof s3 then Some (RDecl n VNil)
    else let (sp, s4) := take_bytes is_space s3 in
         if String.eqb sp "" then None
         else peg v <- declValue s4; Some (RDecl n v).
  (** parser.peg:361-365 AttributeReset *)
  Definition attributeReset (s : string) : option rawelt :=
    match (peg s1 <- lit ":!" s; peg (n, s2) <- attributeName is_alnum s1; peg s3 <- lit ":" s2;
           if eol_eof (skip_spaces s3) then Some (RReset n) else None) with
    | Some x => Some x
    | None => peg s1 <- lit ":" s; peg (n, s2) <- attributeName is_alnum s1; peg s3 <- lit "!:" s2;
              if eol_eof (skip_spaces s3) then Some (RReset n) else None
    end.
  (** parser.peg:131-145 FileInclusion *)
  Definition fileInclusionRule (s : string) : option rawelt :=
    peg s1 <- lit "include::" s; peg (p, a) <- fileInclusion s1; Some (RInclude p a).
  (** parser.peg:121-123 ConditionalVariableName [^\r\n []+ *)
  Definition conditionalVariableName (s : string) : option (string * string) :=
    let (n, r) := take_bytes (not_in [13; 10; 32; 91]%N) s in
    if String.eqb n "" then None else Some (n, r).
  (** parser.peg:78-80 ConditionalInclusionAttribute? : an absent one gives "" *)
  Definition conditionalAttribute (s : string) : string * string := take_bytes (not_in [13; 10; 93]%N) s.
  (** "[" attr? "]" Space* EOF *)
  Definition cond_tail (s : string) : option string :=
    peg s1 <- lit "[" s;
    let (a, s2) := conditionalAttribute s1 in
    peg s3 <- lit "]" s2;
    if String.eqb (skip_spaces s3) "" then Some a else None.
  (** parser.peg:70-72 Ifdef, 74-76 Ifndef, 117-119 EndIf *)
  Definition ifdefRule (s : string) : option rawelt :=
    peg s1 <- lit "ifdef::" s; peg (n, s2) <- conditionalVariableName s1;
    peg a <- cond_tail s2; Some (RCond (Ifdef n a)).
  Definition ifndefRule (s : string) : option rawelt :=
    peg s1 <- lit "ifndef::" s; peg (n, s2) <- conditionalVariableName s1;
    peg a <- cond_tail s2; Some (RCond (Ifndef n a)).
  Definition endifRule (s : string) : option rawelt :=
    peg s1 <- lit "endif::" s;
    let (n, s2) := take_bytes (not_in [13; 10; 32; 91]%N) s1 in
    peg a <- cond_tail s2; Some REnd.
  Definition ifevalLine (s : string) : option rawelt :=
    peg c <- ifevalRule is_alnum s; Some (RCond c).

  (** a run of at least [min] characters [c], Space*, EOL: parser.peg:739-808 *)
  Definition fence (c : ascii) (min : nat) (kind : string) (s : string) : option rawelt :=
    let (d, r) := take_bytes (Ascii.eqb c) s in
    if (min <=? String.length d)%nat && eol_eof (skip_spaces r)
    then Some (RDelim kind (Z.of_nat (String.length d))) else None.
  (** parser.peg:760-766 MarkdownCodeDelimiter *)
  Definition markdownFence (s : string) : option rawelt :=
    peg s1 <- lit "```" s;
    let (lang, s2) := take_bytes (not_in [13; 10; 96; 32]%N) s1 in
    if negb (String.eqb lang "") && eol_eof (skip_spaces s2) then Some (RDelim "fenced" 3) else None.
  (** parser.peg:723-736 BlockDelimiter.  The rule for literal blocks (parser.peg:782-787) gives the
      kind of listing blocks. *)
  Definition blockDelimiter (s : string) : option rawelt :=
    match s with
    | EmptyString => None
    | _ => if is_alnum (fst (decode_rune s)) then None
           else choice [fence "/" 4 "comment"; fence "=" 4 "example"; markdownFence; fence "`" 3 "fenced";
                        fence "-" 4 "listing"; fence "." 4 "listing"; fence "+" 4 "pass";
                        fence "_" 4 "quote"; fence "*" 4 "sidebar"] s
    end.
  (** parser.peg:41-59 RawSection *)
  Definition rawSection (secs within : bool) (s : string) : option rawelt :=
    if negb secs || within then None
    else
      let (eqs, s1) := take_bytes (Ascii.eqb "=") s in
      let (sp, s2) := take_bytes is_space s1 in
      let (title, s3) := take_bytes (not_in [13; 10]%N) s2 in
      if negb (String.eqb eqs "") && (String.length eqs <=? 6)%nat && negb (String.eqb sp "")
         && negb (String.eqb title "") && String.eqb s3 ""
      then Some (RSection (Z.of_nat (String.length eqs) - 1)) else None.

  (** parser.peg:26-37 DocumentRawLine *)
  Definition documentRawLine (secs within : bool) (s : string) : option rawelt :=
    choice [attributeDeclaration; attributeReset; fileInclusionRule; ifdefRule; ifndefRule; ifevalLine;
            endifRule; blockDelimiter; rawSection secs within] s.
End RawLine.

(** *** the rules for the attributes of an inclusion and for the lines of an included file *)
Section Incl.
  Variable is_alnum : N -> bool.

  (** parser.peg:163-169 MultilineRange / SinglelineRange.  A number out of the range of int gives a
      parse error (here: no match). *)
  Definition lineRange (s : string) : option (linerange * string) :=
    match integer s with
    | Some (VInt a, s1) =>
        match (peg s2 <- lit ".." s1; integer s2) with
        | Some (VInt b, s3) => Some (mkLR a b, s3)
        | _ => Some (mkLR a a, s1)
        end
    | _ => None
    end.
  (** ("," / ";") item, repeated: parser.peg:154-161, 181-188 *)
  Fixpoint sep_list {A} (fuel : nat) (item : string -> option (A * string)) (s : string) : list A * string :=
    match fuel with
    | O => ([], s)
    | S f => match (match lit "," s with Some r => Some r | None => lit ";" s end) with
             | None => ([], s)
             | Some s1 => match item s1 with
                          | None => ([], s)
                          | Some (x, s2) => let (xs, s3) := sep_list f item s2 in (x :: xs, s3)
                          end
             end
    end.
  Definition sep_list1 {A} (item : string -> option (A * string)) (s : string) : option (list A) :=
    peg (x, s1) <- item s;
    let (xs, s2) := sep_list (String.length s1) item s1 in
    if String.eqb s2 "" then Some (x :: xs) else None.
  (** parser.peg:147-161 LineRanges *)
  Definition lineRanges : string -> option (list linerange) := sep_list1 lineRange.

  (** parser.peg:196-203 TagWildcard *)
  Definition tagWildcard (s : string) : option (string * string) :=
    let (st, r) := take_bytes (Ascii.eqb "*") s in
    if negb (String.eqb st "") && (String.length st <=? 2)%nat then Some (st, r) else None.
  (** parser.peg:2746 Alphanums *)
  Definition alphanums : string -> option (string * string) := many1 is_alnum.
  Definition tagName (s : string) : option (string * string) :=
    match alphanums s with Some x => Some x | None => tagWildcard s end.
  (** parser.peg:190-194 TagRange *)
  Definition tagRange (s : string) : option (tagrange * string) :=
    match tagName s with
    | Some (t, r) => Some (mkTR t true, r)
    | None => peg s1 <- lit "!" s; peg (t, r) <- tagName s1; Some (mkTR t false, r)
    end.
  (** parser.peg:176-188 TagRanges *)
  Definition tagRanges : string -> option (list tagrange) := sep_list1 tagRange.

  (** parser.peg:209-215 IncludedFileStartTag, IncludedFileEndTag *)
  Definition tagDirective (s : string) : option (lineitem * string) :=
    let d p mk := peg s1 <- lit p s; peg (t, s2) <- alphanums s1; peg s3 <- lit "[]" s2;
                  Some (mk t : lineitem, s3) in
    match d "tag::" IStart with Some x => Some x | None => d "end::" IEnd end.
  (** parser.peg:205-207 IncludedFileLine *)
  Fixpoint file_items (fuel : nat) (s : string) : list lineitem :=
    match fuel with
    | O => []
    | S f => match s with
             | EmptyString => []
             | _ => match tagDirective s with
                    | Some (i, r) => i :: file_items f r
                    | None => let w := Nat.max 1 (snd (decode_rune s)) in
                              IText (stake w s) :: file_items f (sdrop w s)
                    end
             end
    end.
  Definition includedFileLine (s : string) : option (list lineitem) :=
    Some (file_items (String.length s) s).
End Incl.
