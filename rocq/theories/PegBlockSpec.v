(** What the properties about lines, blocks and paragraphs say.  Texts are lists of runes. *)
From Coq Require Import List String NArith ZArith Bool.
From Verif Require Import GoBase Utf8 Types Attrs Peg.
Import ListNotations.
Local Open Scope list_scope.

Definition blank (r : rune) : Prop := r = 32%N \/ r = 9%N.
Definition blanks (w : list rune) : Prop := Forall blank w.
(** the content of one line *)
Definition one_line (l : list rune) : Prop := Forall (fun r => r <> 10%N /\ r <> 13%N) l.
(** [e] ends a line that is followed by [t]: LF, CR LF, CR, or the end of the text *)
Definition eol (e t : list rune) : Prop :=
  e = [10%N] \/ e = [13%N; 10%N] \/ (e = [13%N] /\ match t with 10%N :: _ => False | _ => True end) \/ (e = [] /\ t = []).

(** the lines of a text up to the first one that satisfies [stop] (which is left out), or up to the
    end; [tail] is what follows *)
Inductive lines_until (stop : list rune -> Prop) : list rune -> list (list rune) -> list rune -> Prop :=
| until_end : lines_until stop [] [] []
| until_stop : forall l e tail, one_line l -> l <> [] -> stop l -> eol e tail -> lines_until stop (l ++ e ++ tail) [] tail
| until_line : forall l e t ls tail, one_line l -> l ++ e <> [] -> ~ stop l -> eol e t ->
    lines_until stop t ls tail -> lines_until stop (l ++ e ++ t) (l :: ls) tail.

(** a line made of [n] times [c], with blanks after it *)
Definition delimiter (c : rune) (n : nat) (l : list rune) : Prop := exists ws, blanks ws /\ l = repeat c n ++ ws.

(** without its trailing blanks *)
Fixpoint skip_blanks (l : list rune) : list rune :=
  match l with r :: l' => if N.eqb r 32 || N.eqb r 9 then skip_blanks l' else l | [] => [] end.
Definition rstrip (l : list rune) : list rune := rev (skip_blanks (rev l)).

(** the lines of a block or of a paragraph as elements: every one but the last keeps a line feed *)
Fixpoint raw_lines (ls : list (list rune)) : list val :=
  match ls with
  | [] => []
  | [l] => [RawLine (encode_runes (rstrip l))]
  | l :: r => RawLine (encode_runes (rstrip l) ++ LF) :: raw_lines r
  end.

(** the delimited blocks whose end has the length of their beginning: kind, character, least length *)
Definition fences : list (string * rune * nat) :=
  [("example", 61%N, 4); ("fenced", 96%N, 3); ("listing", 45%N, 4); ("literal", 46%N, 4); ("pass", 43%N, 4);
   ("quote", 95%N, 4); ("sidebar", 42%N, 4)]%string.

(** * Paragraphs *)
Definition starts (w l : list rune) : Prop := exists l', l = w ++ l'.
(** no "::" in the line *)
Definition no_colons (l : list rune) : Prop := ~ exists a b, l = a ++ 58%N :: 58%N :: b.
Definition labels_of_admonitions : list (list rune) :=
  [R "TIP: "; R "NOTE: "; R "IMPORTANT: "; R "WARNING: "; R "CAUTION: "].
Definition admonitions : list (list rune * string) :=
  [(R "TIP: ", "TIP"); (R "NOTE: ", "NOTE"); (R "IMPORTANT: ", "IMPORTANT"); (R "WARNING: ", "WARNING"); (R "CAUTION: ", "CAUTION")]%string.
Section Paragraphs.
  (** unicode.IsLetter or IsNumber; unicode.IsSpace *)
  Variables alnum white : rune -> bool.
  (** a line that starts a paragraph: its first character is a letter or a digit, and it is not an
      item of a numbered list ("1. x", "a) x"), an admonition, a labeled item or a block macro *)
  Definition first_line (l : list rune) : Prop :=
    one_line l /\ no_colons l /\ (forall w, In w labels_of_admonitions -> ~ starts w l) /\
    exists r l', l = r :: l' /\ alnum r = true /\ white r = false /\
      ~ (exists y z u, l' = y :: z :: u /\ (y = 46%N \/ y = 41%N) /\ blank z).
  (** a line that continues it: it is not blank, and its first character is none of . / = ` - + _ * [ *)
  Definition next_line (l : list rune) : Prop :=
    one_line l /\ (exists r, In r l /\ white r = false) /\
    match l with [] => False | r :: _ => ~ In r [46; 47; 61; 96; 45; 43; 95; 42; 91]%N end.
  (** the lines that continue a paragraph, up to the end, a blank line, or the delimiter of a block;
      [tail] is what follows *)
  Inductive continued : list rune -> list (list rune) -> list rune -> Prop :=
  | cont_end : continued [] [] []
  | cont_blank : forall ws e t, blanks ws -> ws ++ e <> [] -> eol e t -> continued (ws ++ e ++ t) [] (ws ++ e ++ t)
  | cont_fence : forall kind x m n ws e t, In (kind, x, m) (("comment"%string, 47%N, 4) :: fences) -> m <= n -> blanks ws ->
      (n = 3 -> match ws with 9%N :: _ => False | _ => True end) -> eol e t ->
      continued (repeat x n ++ ws ++ e ++ t) [] (repeat x n ++ ws ++ e ++ t)
  | cont_line : forall l e t ls tail, next_line l -> eol e t -> continued t ls tail -> continued (l ++ e ++ t) (l :: ls) tail.
End Paragraphs.

(** * Lists *)
(** what is in front of an item: a bullet, or a number of some style *)
Inductive mark := Bullet (b : string) | Number (style : string).
Definition between (a b r : rune) : Prop := (a <= r <= b)%N.
Inductive item_mark : list rune -> mark -> Prop :=
| mark_dash : item_mark [45%N] (Bullet "dash")
| mark_stars : forall n b, In (n, b) [(1, "1asterisk"); (2, "2asterisks"); (3, "3asterisks"); (4, "4asterisks"); (5, "5asterisks")]%string ->
    item_mark (repeat 42%N n) (Bullet b)
| mark_dots : forall n s, In (n, s) [(1, "arabic"); (2, "loweralpha"); (3, "lowerroman"); (4, "upperalpha"); (5, "upperroman")]%string ->
    item_mark (repeat 46%N n) (Number s)
| mark_digits : forall w, w <> [] -> Forall (between 48%N 57%N) w -> item_mark (w ++ [46%N]) (Number "arabic")
| mark_lower : forall r, between 97%N 122%N r -> item_mark ([r] ++ [46%N]) (Number "loweralpha")
| mark_upper : forall r, between 65%N 90%N r -> item_mark ([r] ++ [46%N]) (Number "upperalpha")
| mark_lower_roman : forall w, w <> [] -> Forall (fun r => In r (R "ivxdlcm")) w -> item_mark (w ++ [41%N]) (Number "lowerroman")
| mark_upper_roman : forall w, w <> [] -> Forall (fun r => In r (R "IVXDLCM")) w -> item_mark (w ++ [41%N]) (Number "upperroman").
(** the line of an item with its mark, and the text [c] after it (not a check box) *)
Definition item_line (l : list rune) (k : mark) (c : list rune) : Prop :=
  exists ws m bl, l = ws ++ m ++ bl ++ c /\ blanks ws /\ item_mark m k /\ blanks bl /\ bl <> [] /\ one_line c /\
    match c with [] => False | r :: _ => ~ blank r /\ match k with Bullet _ => r <> 91%N | Number _ => True end end.
(** no mark followed by a blank in front of the line *)
Definition no_item (l : list rune) : Prop := ~ exists ws m k z u, blanks ws /\ item_mark m k /\ blank z /\ l = ws ++ m ++ z :: u.
Definition thematic_breaks : list (list rune) := [R "'''"; R "***"; R "* * *"; R "---"; R "- - -"; R "___"; R "_ _ _"].
(** a line that starts a list: not a thematic break, a title or (see C66) a paragraph *)
Definition starts_list (l : list rune) : Prop :=
  ~ (exists w ws, In w thematic_breaks /\ blanks ws /\ l = w ++ ws) /\
  match l with
  | x :: y :: _ => ~ blank x /\ (x = 46%N -> y <> 9%N) /\ (between 48%N 57%N x \/ between 97%N 122%N x \/ between 65%N 90%N x -> y = 46%N \/ y = 41%N)
  | _ => False
  end.
(** [blank_lines t t']: blank lines, if any, and then [t'] *)
Inductive blank_lines : list rune -> list rune -> Prop :=
| no_blank_line : forall t, blank_lines t t
| one_blank_line : forall ws e t t', blanks ws -> ws ++ e <> [] -> eol e t -> blank_lines t t' -> blank_lines (ws ++ e ++ t) t'.
(** after blank lines, the list does not go on: no item, no term of a labeled list, no callout, no continuation ("+") *)
Definition list_over (t : list rune) : Prop :=
  t = [] \/ exists l e u, t = l ++ e ++ u /\ eol e u /\ one_line l /\ no_item l /\ no_colons l /\ ~ delimiter 43%N 1 l /\
    match l with [] => False | r :: _ => ~ blank r /\ r <> 60%N end.
Section Lists.
  Variable white : rune -> bool.
  (** a line that continues the text of an item *)
  Definition list_line (l : list rune) : Prop :=
    next_line white l /\ no_item l /\ no_colons l /\ match l with 60%N :: _ => False | _ => True end.
  (** what follows the line of an item: the lines that continue it, the items that follow with their marks and their lines, and what is
      after the list *)
  Inductive list_more : list rune -> list (list rune) -> list (mark * list (list rune)) -> list rune -> Prop :=
  | more_end : list_more [] [] [] []
  | more_blank : forall ws e t t', blanks ws -> ws ++ e <> [] -> eol e t -> blank_lines t t' -> list_over t' ->
      list_more (ws ++ e ++ t) [] [] (ws ++ e ++ t)
  | more_fence : forall kind x m n ws e t, In (kind, x, m) (("comment"%string, 47%N, 4) :: fences) -> m <= n -> blanks ws ->
      (n = 3 -> match ws with 9%N :: _ => False | _ => True end) -> eol e t -> no_item (repeat x n ++ ws) ->
      list_more (repeat x n ++ ws ++ e ++ t) [] [] (repeat x n ++ ws ++ e ++ t)
  | more_line : forall l e t ls items tail, list_line l -> eol e t -> list_more t ls items tail -> list_more (l ++ e ++ t) (l :: ls) items tail
  | more_item : forall t0 l k c e t ls items tail, blank_lines t0 (l ++ e ++ t) -> item_line l k c -> eol e t -> list_more t ls items tail ->
      list_more t0 [] ((k, c :: ls) :: items) tail.
End Lists.
Definition item_val (i : mark * list (list rune)) : val :=
  match i with
  | (Bullet b, ls) => UnorderedListElement b "nocheck" [] [Paragraph [] (raw_lines ls)]
  | (Number s, ls) => OrderedListElement s [] [Paragraph [] (raw_lines ls)]
  end.

(** * Documents made of blank lines, delimited blocks, paragraphs, lists, thematic breaks and comments *)
(** the line that ends a comment block: four slashes or more *)
Definition comment_end (l : list rune) : Prop := exists k, 4 <= k /\ delimiter 47%N k l.
(** the language after three back quotes *)
Definition language (l : list rune) : Prop := l <> [] /\ Forall (fun r => r <> 10%N /\ r <> 13%N /\ r <> 96%N /\ r <> 32%N) l.
Definition code_attrs (lang : list rune) : list (string * val) :=
  [(AttrStyle, Types.VStr "source"); ("language"%string, Types.VStr (encode_runes lang))].
Definition no_tab (ws : list rune) : Prop := match ws with 9%N :: _ => False | _ => True end.

Section Documents.
  Variables alnum white : rune -> bool.
  (** [piece header text v tail]: the text starts with an element [v], and [tail] is what follows.
      [header]: whether a document header is still allowed (then comments followed by a title are
      taken as part of the header) *)
  Inductive piece (header : bool) : list rune -> val -> list rune -> Prop :=
  | piece_blank : forall ws e tail, blanks ws -> ws ++ e <> [] -> eol e tail -> piece header (ws ++ e ++ tail) BlankLine tail
  | piece_fence : forall kind x m n ws e body ls tail, In (kind, x, m) fences -> m <= n -> blanks ws -> (n = 3 -> no_tab ws) -> eol e body ->
      lines_until (delimiter x n) body ls tail ->
      piece header (repeat x n ++ ws ++ e ++ body) (DelimitedBlock kind [] (raw_lines ls)) tail
  | piece_open : forall ws e body ls tail, blanks ws -> eol e body -> lines_until (delimiter 45%N 2) body ls tail ->
      piece header (repeat 45%N 2 ++ ws ++ e ++ body) (DelimitedBlock "open" [] (raw_lines ls)) tail
  | piece_comment : forall n ws e body ls tail, 4 <= n -> blanks ws -> eol e body -> lines_until comment_end body ls tail ->
      (header = true -> match tail with 47%N :: _ | 61%N :: _ => False | _ => True end) ->
      piece header (repeat 47%N n ++ ws ++ e ++ body) (DelimitedBlock "comment" [] (raw_lines ls)) tail
  | piece_code : forall lang ws e body ls tail, language lang -> blanks ws -> no_tab ws -> eol e body -> lines_until (delimiter 96%N 3) body ls tail ->
      piece header (repeat 96%N 3 ++ lang ++ ws ++ e ++ body) (DelimitedBlock "listing" (code_attrs lang) (raw_lines ls)) tail
  | piece_para : forall l e t ls tail, first_line alnum white l -> eol e t -> continued white t ls tail ->
      piece header (l ++ e ++ t) (Paragraph [] (raw_lines (l :: ls))) tail
  | piece_list : forall l k c e t ls items tail, item_line l k c -> starts_list l -> eol e t -> list_more white t ls items tail ->
      piece header (l ++ e ++ t) (ListElements (map item_val ((k, c :: ls) :: items))) tail
  (** a line that starts with two slashes (not four); with two colons it may be read as an item of a labeled list *)
  | piece_remark : forall l e tail, one_line l -> ~ starts (R "//") l -> no_colons l -> eol e tail ->
      (header = true -> match tail with 47%N :: _ | 61%N :: _ => False | _ => True end) ->
      piece header (R "//" ++ l ++ e ++ tail) (SinglelineComment (encode_runes l)) tail
  (** a thematic break is followed by an empty line or the end *)
  | piece_break : forall w ws e e' tail, In w thematic_breaks -> blanks ws -> eol e (e' ++ tail) -> eol e' tail ->
      piece header (w ++ ws ++ e ++ e' ++ tail) ThematicBreak tail
  (** a paragraph that starts with "NOTE: " or the like *)
  | piece_admonition : forall w k l e t ls tail, In (w, k) admonitions -> one_line l -> no_colons l -> (exists r, In r l /\ white r = false) ->
      eol e t -> continued white t ls tail -> piece header (w ++ l ++ e ++ t) (Paragraph [(AttrStyle, Types.VStr k)] (raw_lines (l :: ls))) tail.

  Inductive document : bool -> list rune -> list val -> Prop :=
  | doc_nil : forall header, document header [] []
  | doc_cons : forall header text v tail vs, text <> [] -> piece header text v tail ->
      document (header && match v with BlankLine => true | _ => false end) tail vs -> document header text (v :: vs).
End Documents.
