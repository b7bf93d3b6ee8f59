(** Model of pkg/renderer/sgml/html_escape.go, string.go, symbol.go, special_character.go and of the tables of predefined
    attributes (pkg/types/predefined_attributes.go, pkg/renderer/sgml/sgml.go). *)
From Verif Require Import GoBase Utf8.

Definition dq : string := String (chr 34) EmptyString.
Definition sq : string := String (chr 39) EmptyString.

(** strings.Replacer of the Go standard library with non-empty old strings: at each position the first pair, in argument
    order, whose old string is there is replaced; otherwise the byte is copied.  [skip]: bytes of the match still to drop *)
Fixpoint first_match (pairs : list (string * string)) (s : string) : option (string * string) :=
  match pairs with
  | [] => None
  | p :: r => if has_prefix s (fst p) then Some p else first_match r s
  end.
Fixpoint replacer_from (pairs : list (string * string)) (skip : nat) (s : string) : string :=
  match s with
  | EmptyString => EmptyString
  | String c s' =>
      match skip with
      | S k => replacer_from pairs k s'
      | O => match first_match pairs s with
             | Some (old, new) => (new ++ replacer_from pairs (String.length old - 1) s')%string
             | None => String c (replacer_from pairs O s')
             end
      end
  end.
Definition replacer (pairs : list (string * string)) (s : string) : string := replacer_from pairs O s.

(** html_escape.go:18-29 htmlEscaper *)
Definition htmlEscaper : list (string * string) :=
  [("&lt;", "&lt;"); ("&gt;", "&gt;"); ("&amp;", "&amp;"); ("&#", "&#");
   ("&", "&amp;"); ("<", "&lt;"); (">", "&gt;"); (sq, "&#39;"); (dq, "&#34;")].
(** html_escape.go:10-12 escapeString *)
Definition escapeString (s : string) : string := replacer htmlEscaper s.

(** unicode.IsPrint or unicode.IsSpace of the Go standard library, on runes below 128 *)
Definition ascii_printable (r : N) : bool :=
  ((32 <=? r) && (r <=? 126) || (9 <=? r) && (r <=? 13))%N%bool.
(** string.go:22-36 asciiEntify *)
Definition entify_rune (r : N) : string :=
  if (r <? 128)%N && ascii_printable r then encode_rune r else ("&#" ++ itoaN r ++ ";")%string.
Definition asciiEntify (s : string) : string := sconcat (map entify_rune (runes s)).
(** string.go:11-20 renderStringElement *)
Definition renderStringElement (use_unicode : bool) (s : string) : string :=
  if use_unicode then s else asciiEntify s.

(** link.go:19-23: the text of a link given as a string *)
Definition link_text (text : string) : string := replacer htmlEscaper text.

(** special_character.go:9-20 renderSpecialCharacter *)
Definition renderSpecialCharacter (name : string) : result string :=
  if String.eqb name "&" then Ok "&amp;" else if String.eqb name "<" then Ok "&lt;"
  else if String.eqb name ">" then Ok "&gt;" else Err "unknown special character".

(** symbol.go:9-25 symbols *)
Definition symbols : gomap string :=
  [("(C)", "&#169;"); ("(R)", "&#174;"); ("(TM)", "&#8482;"); ("...", "&#8230;&#8203;"); (sq, "&#8217;");
   (sq ++ "`", "&#8216;")%string; ("`" ++ sq, "&#8217;")%string; (dq ++ "`", "&#8220;")%string; ("`" ++ dq, "&#8221;")%string;
   ("->", "&#8594;"); ("<-", "&#8592;"); ("=>", "&#8658;"); ("<=", "&#8656;"); ("--", "&#8212;&#8203;");
   (" -- ", "&#8201;&#8212;&#8201;")].
(** symbol.go:27-35 renderSymbol *)
Definition renderSymbol (name : string) : result string :=
  match mget symbols name with Some s => Ok s | None => Err "symbol is not defined" end.

(** predefined_attributes.go:5-35 predefinedAttributes *)
Definition predefined_names : list string :=
  ["sp"; "blank"; "empty"; "nbsp"; "zwsp"; "wj"; "apos"; "quot"; "lsquo"; "rsquo"; "ldquo"; "rdquo"; "deg"; "plus";
   "brvbar"; "vbar"; "amp"; "lt"; "gt"; "startsb"; "endsb"; "caret"; "asterisk"; "tilde"; "backslash"; "backtick";
   "two-colons"; "two-semicolons"; "cpp"].
(** predefined_attributes.go:37-44 isPrefedinedAttribute *)
Fixpoint mem_str (x : string) (l : list string) : bool :=
  match l with [] => false | y :: r => if String.eqb y x then true else mem_str x r end.
Definition isPredefinedAttribute (name : string) : bool := mem_str name predefined_names.
(** sgml.go:142-172 predefinedAttributes *)
Definition predefined_table : gomap string :=
  [("sp", " "); ("blank", ""); ("empty", ""); ("nbsp", "&#160;"); ("zwsp", "&#8203;"); ("wj", "&#8288;"); ("apos", "&#39;");
   ("quot", "&#34;"); ("lsquo", "&#8216;"); ("rsquo", "&#8217;"); ("ldquo", "&#8220;"); ("rdquo", "&#8221;"); ("deg", "&#176;");
   ("plus", "&#43;"); ("brvbar", "&#166;"); ("vbar", "|"); ("amp", "&"); ("lt", "<"); ("gt", ">"); ("startsb", "[");
   ("endsb", "]"); ("caret", "^"); ("asterisk", "*"); ("tilde", "~"); ("backslash", "\"); ("backtick", "`"); ("two-colons", "::");
   ("two-semicolons", ";"); ("cpp", "C++")].
(** sgml.go:174-177 predefinedAttribute: a missing name gives "" *)
Definition predefinedAttribute (name : string) : string := match mget predefined_table name with Some s => s | None => "" end.
