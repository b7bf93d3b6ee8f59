(** What the property about the whole conversion (from the text to the HTML) says. *)
From Coq Require Import List String NArith ZArith Bool.
From Verif Require Import GoBase Utf8 Types ListSpec Peg PegBlockSpec PegInlineSpec.
Import ListNotations.
Local Open Scope list_scope.
Local Open Scope string_scope.

(** the text of a block: its lines without their trailing blanks, joined by line feeds *)
Fixpoint joined (ls : list (list rune)) : list rune :=
  match ls with [] => [] | [l] => rstrip l | l :: r => (rstrip l ++ 10%N :: joined r)%list end.

(** what is written for a character or an element of a text *)
Definition entities : list (string * string) :=
  [("(C)", "&#169;"); ("(R)", "&#174;"); ("(TM)", "&#8482;"); ("...", "&#8230;&#8203;"); ("'", "&#8217;"); ("->", "&#8594;"); ("<-", "&#8592;");
   ("=>", "&#8658;"); ("<=", "&#8656;"); ("--", "&#8212;&#8203;"); (" -- ", "&#8201;&#8212;&#8201;")].
(** the marks around words and the HTML elements they stand for *)
Definition quote_tags : list (string * string) := [("*", "strong"); ("_", "em"); ("`", "code"); ("#", "mark")].
Inductive written : item -> string -> Prop :=
| w_char : forall r, written (Char r) (encode_runes [r])
| w_amp : written (Elem (SpecialCharacter "&")) "&amp;"
| w_lt : written (Elem (SpecialCharacter "<")) "&lt;"
| w_gt : written (Elem (SpecialCharacter ">")) "&gt;"
| w_symbol : forall s h, In (s, h) entities -> written (Elem (Symbol s)) h
| w_callout : forall n, written (Elem (Callout n)) ("<b class=""conum"">(" ++ itoa n ++ ")</b>")
| w_quoted : forall q tag s, In (q, tag) quote_tags -> written (Elem (QuotedText q [StringElement s] [])) ("<" ++ tag ++ ">" ++ s ++ "</" ++ tag ++ ">").
(** the line feeds at both ends are dropped *)
Definition trimmed (s t : string) : Prop :=
  exists n m, s = (String.concat "" (repeat LF n) ++ t ++ String.concat "" (repeat LF m)) /\
    (forall u, t <> LF ++ u) /\ (forall u, t <> u ++ LF).
(** the HTML of a text *)
Definition html_of (its : list item) (h : string) : Prop := exists hs, Forall2 written its hs /\ trimmed (String.concat "" hs) h.

Definition paragraph_html (h : string) : string := "<div class=""paragraph"">" ++ LF ++ "<p>" ++ h ++ "</p>" ++ LF ++ "</div>" ++ LF.
Definition block_html (class before h after : string) : string :=
  "<div class=""" ++ class ++ """>" ++ LF ++ "<div class=""content"">" ++ LF ++ before ++ h ++ after ++ LF ++ "</div>" ++ LF ++ "</div>" ++ LF.
(** the verbatim blocks without attributes: kind, class, what is before and after the text *)
Definition verbatim_blocks : list (string * (string * string * string)) :=
  [("listing", ("listingblock", "<pre>", "</pre>")); ("literal", ("literalblock", "<pre>", "</pre>"));
   ("fenced", ("listingblock", "<pre class=""highlight""><code>", "</code></pre>"))].
Definition code_before (lang : string) : string :=
  "<pre class=""highlight""><code class=""language-" ++ lang ++ """ data-lang=""" ++ lang ++ """>".
(** the blocks that contain other elements: kind, what is before and after them *)
Definition framed (class : string) : string * string :=
  ("<div class=""" ++ class ++ """>" ++ LF ++ "<div class=""content"">" ++ LF, "</div>" ++ LF ++ "</div>" ++ LF).
Definition compound_blocks : list (string * (string * string)) :=
  [("example", framed "exampleblock"); ("sidebar", framed "sidebarblock"); ("open", framed "openblock");
   ("quote", ("<div class=""quoteblock"">" ++ LF ++ "<blockquote>" ++ LF, "</blockquote>" ++ LF ++ "</div>" ++ LF))].

(** ** Lists *)
Definition white_space : list string :=
  map (fun r => encode_runes [r]) [9; 10; 11; 12; 13; 32; 133; 160; 5760; 8192; 8193; 8194; 8195; 8196; 8197; 8198; 8199; 8200; 8201; 8202; 8232; 8233; 8239; 8287; 12288]%N.
(** the spaces and tabs in front of the line are dropped, and no white space is left at its ends *)
Definition stripped (s t : string) : Prop :=
  exists a, s = (encode_runes a ++ t) /\ blanks a /\ forall p u, In p white_space -> t <> p ++ u /\ t <> u ++ p.
Fixpoint no_lf (s : string) : Prop := match s with EmptyString => True | String c r => c <> chr 10 /\ no_lf r end.
(** the HTML of the text of an item: every line is stripped *)
Definition item_html (its : list item) (h : string) : Prop :=
  exists hs ls ts, Forall2 written its hs /\ ls <> [] /\ Forall no_lf ls /\ String.concat "" hs = String.concat LF ls /\
    Forall2 stripped ls ts /\ h = "<p>" ++ String.concat LF ts ++ "</p>" ++ LF.
Definition marker_of_mark (k : mark) : marker := match k with Bullet b => MUnordered b | Number s => MOrdered s end.
Definition number_type (style : string) : string :=
  match find (fun kv => String.eqb style (fst kv)) [("loweralpha", "a"); ("upperalpha", "A"); ("lowerroman", "i"); ("upperroman", "I")] with
  | Some (_, t) => " type=""" ++ t ++ """"
  | None => ""
  end.
Definition list_start (m : marker) : string :=
  match m with
  | MOrdered s => "<div class=""olist " ++ s ++ """>" ++ LF ++ "<ol class=""" ++ s ++ """" ++ number_type s ++ ">" ++ LF
  | _ => "<div class=""ulist"">" ++ LF ++ "<ul>" ++ LF
  end.
Definition list_end (m : marker) : string := (match m with MOrdered _ => "</ol>" | _ => "</ul>" end) ++ LF ++ "</div>" ++ LF.
Definition item_start : string := "<li>" ++ LF.
Definition item_end : string := "</li>" ++ LF.
(** the lists that are open are closed, innermost first *)
Definition lists_end (open : list marker) : string := String.concat "" (map (fun m => item_end ++ list_end m) open).
(** the HTML of the items that are left; [open]: the markers of the lists that are open, innermost first.  An item goes on in the innermost
    open list with its marker; the lists inside it are closed.  If there is none, it opens a list in the item that is open *)
Fixpoint list_html (open : list marker) (items : list (marker * string)) : string :=
  match items with
  | [] => lists_end open
  | (m, h) :: r =>
      match back_to m open with
      | Some open' => lists_end (firstn (List.length open - List.length open') open) ++ item_end ++ item_start ++ h ++ list_html open' r
      | None => let m' := adjusted open m in list_start m' ++ item_start ++ h ++ list_html (m' :: open) r
      end
  end.

(** ** Admonitions *)
(** what follows "NOTE: " or the like: the style, the class and the caption *)
Definition admonition_captions : list (string * (string * string)) :=
  [("TIP", ("tip", "Tip")); ("NOTE", ("note", "Note")); ("IMPORTANT", ("important", "Important")); ("WARNING", ("warning", "Warning"));
   ("CAUTION", ("caution", "Caution"))].
Definition admonition_html (class caption h : string) : string :=
  "<div class=""admonitionblock " ++ class ++ """>" ++ LF ++ "<table>" ++ LF ++ "<tr>" ++ LF ++ "<td class=""icon"">" ++ LF ++
  "<div class=""title"">" ++ caption ++ "</div>" ++ LF ++ "</td>" ++ LF ++ "<td class=""content"">" ++ LF ++ h ++ LF ++
  "</td>" ++ LF ++ "</tr>" ++ LF ++ "</table>" ++ LF ++ "</div>" ++ LF.

Section Shown.
  (** Unicode letters, numbers and white space, the names of the user's macros *)
  Variables letter number white : rune -> bool.
  Variable user : list string.
  (** whether XHTML is written, and strings.ToLower *)
  Variable xhtml : bool.
  Variable lower : string -> string.
  (** made of Unicode scalar values *)
  Definition characters (t : list rune) : Prop := Forall (fun r => valid_rune r = true) t.
  (** a text that is kept as it is, see C67 *)
  Definition verbatim_text (t : list rune) : Prop := characters t /\ no_escaped_apostrophe letter t /\ ~ In 65533%N t /\ small_numbers t.
  (** what is written for an element of the text *)
  Inductive shown : val -> string -> Prop :=
  | s_blank : shown BlankLine ""
  | s_comment : forall ls, verbatim_text (joined ls) -> shown (DelimitedBlock "comment" [] (raw_lines ls)) ""
  | s_verbatim : forall kind class before after ls its h, In (kind, (class, before, after)) verbatim_blocks ->
      verbatim_text (joined ls) -> verbatim true true (joined ls) its -> html_of its h ->
      shown (DelimitedBlock kind [] (raw_lines ls)) (block_html class before h after)
  | s_code : forall lang ls its h, lang <> [] -> verbatim_text (joined ls) -> verbatim true true (joined ls) its -> html_of its h ->
      shown (DelimitedBlock "listing" (code_attrs lang) (raw_lines ls)) (block_html "listingblock" (code_before (encode_runes lang)) h "</code></pre>")
  | s_pass : forall ls h, verbatim_text (joined ls) -> trimmed (encode_runes (joined ls)) h ->
      shown (DelimitedBlock "pass" [] (raw_lines ls)) (h ++ LF)
  | s_para : forall ls its h, characters (joined ls) -> ordinary letter number (macro_name user) None (joined ls) its -> html_of its h ->
      shown (Paragraph [] (raw_lines ls)) (paragraph_html h)
  | s_list : forall items hs, items <> [] -> Forall2 (fun i h => exists its, characters (joined (snd i)) /\
        ordinary letter number (macro_name user) None (joined (snd i)) its /\ item_html its h) items hs ->
      shown (ListElements (map item_val items)) (list_html [] (combine (map (fun i => marker_of_mark (fst i)) items) hs))
  (** a comment is not shown *)
  | s_remark : forall s, shown (SinglelineComment s) ""
  | s_break : shown ThematicBreak (if xhtml then "<hr/>" ++ LF else "<hr>" ++ LF)
  | s_admonition : forall k class caption ls its hs, In (k, (class, caption)) admonition_captions -> lower k = class ->
      characters (joined ls) -> ordinary letter number (macro_name user) None (joined ls) its -> Forall2 written its hs -> String.concat "" hs <> "" ->
      shown (Paragraph [("style", Types.VStr k)] (raw_lines ls)) (admonition_html class caption (String.concat "" hs))
  (** the lines of the block are themselves a document (without header), to any depth *)
  | s_compound : forall kind before after ls vs hs, In (kind, (before, after)) compound_blocks ->
      characters (joined ls) -> ~ In 65533%N (joined ls) ->
      document (word_char letter number) white false (joined ls) vs -> all_shown vs hs ->
      shown (DelimitedBlock kind [] (raw_lines ls)) (before ++ String.concat "" hs ++ after)
  with all_shown : list val -> list string -> Prop :=
  | all_nil : all_shown [] []
  | all_cons : forall v h vs hs, shown v h -> all_shown vs hs -> all_shown (v :: vs) (h :: hs).
End Shown.
(** the attributes that would change this, and are not set *)
Definition neutral_names : list string := ["doctype"; "unicode"; "options"; "hardbreaks"; "source-highlighter"; "icons";
   "tip-caption"; "note-caption"; "important-caption"; "warning-caption"; "caution-caption"].
