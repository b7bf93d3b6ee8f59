(** What verbatim content (listing, fenced, literal, pass blocks...) becomes. *)
From Coq Require Import List String NArith ZArith Bool.
From Verif Require Import GoBase Utf8 Types Attrs Subs Peg PegBlockSpec.
Import ListNotations.
Local Open Scope list_scope.

Definition special_char (r : rune) : bool := N.eqb r 60 || N.eqb r 62 || N.eqb r 38.   (* < > & *)
Definition digit (r : rune) : Prop := (48 <= r <= 57)%N.
Definition number (ds : list rune) : Z := fold_left (fun z d => (10 * z + Z.of_N d - 48)%Z) ds 0%Z.

(** a callout: <1> followed by blanks, then the end of the line or another callout *)
Inductive callout : list rune -> list rune -> list rune -> Prop :=
| callout_end : forall ds ws u, ds <> [] -> Forall digit ds -> blanks ws ->
    match u with [] => True | r :: _ => r = 10%N \/ r = 13%N end -> callout (60%N :: ds ++ 62%N :: ws ++ u) ds u
| callout_more : forall ds ws u ds' u', ds <> [] -> Forall digit ds -> blanks ws ->
    callout u ds' u' -> callout (60%N :: ds ++ 62%N :: ws ++ u) ds u.

(** the characters and elements of a verbatim text; [special]: < > and & are elements of their own;
    [callouts]: callouts are recognised *)
Inductive item := Char (r : rune) | Elem (v : val).
Section Verbatim.
  Variables special callouts : bool.
  Inductive verbatim : list rune -> list item -> Prop :=
  | verb_nil : verbatim [] []
  | verb_callout : forall t ds u its, callouts = true -> callout t ds u -> verbatim u its ->
      verbatim t (Elem (Callout (number ds)) :: its)
  | verb_char : forall r t its, (callouts = true -> ~ exists ds u, callout (r :: t) ds u) -> verbatim t its ->
      verbatim (r :: t) ((if special && special_char r then Elem (SpecialCharacter (encode_runes [r])) else Char r) :: its).
End Verbatim.
(** runs of characters become one string element *)
Definition text_of (l : list rune) : list val := match l with [] => [] | _ => [StringElement (encode_runes l)] end.
Fixpoint grouped (run : list rune) (l : list item) : list val :=
  match l with
  | [] => text_of run
  | Char r :: l' => grouped (run ++ [r]) l'
  | Elem v :: l' => text_of run ++ v :: grouped [] l'
  end.

(** the texts for which this is true: no escaped apostrophe before a letter, no U+FFFD, and no
    number after "<" that does not fit in an int *)
Definition no_escaped_apostrophe (letter : rune -> bool) (t : list rune) : Prop :=
  ~ exists a r b, t = a ++ 92%N :: 39%N :: r :: b /\ letter r = true.
Definition small_numbers (t : list rune) : Prop :=
  forall a ds b, t = a ++ 60%N :: ds ++ b -> Forall digit ds -> (number ds <= 9223372036854775807)%Z.
(** substitutions that leave the text alone *)
Definition verbatim_subs (subs : list string) : Prop :=
  forall k, In k [Macros; Quotes; Replacements; AttributeRefs; PostReplacements; InlinePassthroughs] -> ~ In k subs.

(** * The ordinary text of a paragraph
    Words, blanks, line ends and most punctuation; special characters; the typographic apostrophe,
    symbols and dashes; words in bold, italic, monospace or marked.  What is left out is what means something else: other
    quotes (nested, double...), macros, URLs and e-mail addresses, attribute references, escapes, passthroughs, line breaks. *)
Section Ordinary.
  (** Unicode letters and numbers; the names of inline macros *)
  Variables letter number : rune -> bool.
  Variable macro : list rune -> bool.
  Definition word_char (r : rune) : bool := letter r || number r.
  Definition next_is (f : rune -> bool) (t : list rune) : bool := match t with r :: _ => f r | [] => false end.
  Fixpoint begins (w t : list rune) : bool :=
    match w, t with
    | [], _ => true
    | x :: w', y :: t' => N.eqb x y && begins w' t'
    | _ :: _, [] => false
    end.
  (** the characters before the @ of an e-mail address; [address t]: t continues one *)
  Definition local_char (r : rune) : bool := word_char r || existsb (N.eqb r) (R "!#$%&'*=?^_`{|}~.+,-/").
  Fixpoint address (t : list rune) : bool :=
    match t with [] => false | r :: t' => N.eqb r 64 || (local_char r && address t') end.
  (** a character that stands for itself, [t] being what follows *)
  Definition quiet_char (r : rune) (t : list rune) : bool :=
    existsb (N.eqb r) (10%N :: R ",;?!/):@]")
    || (N.eqb r 34 && negb (begins (R "`") t))                                            (* quotation mark *)
    || (N.eqb r 46 && negb (begins (R "..") t))                                           (* . *)
    || (N.eqb r 45 && negb (begins (R "-") t) && negb (begins (R ">") t))                 (* - *)
    || (N.eqb r 61 && negb (begins (R ">") t))                                            (* = *)
    || (N.eqb r 40 && forallb (fun s => negb (begins (R s) t)) ["("; "C)"; "TM)"; "R)"]%string)   (* left parenthesis *)
    || (existsb (N.eqb r) (R "%$|}") && negb (address t))
    || (N.leb 128 r && negb (word_char r) && negb (N.eqb r 65533)).                       (* other non-ASCII characters *)
  (** < > & that are not the beginning of something else *)
  Definition plain_special (r : rune) (t : list rune) : bool :=
    N.eqb r 62 || (N.eqb r 38 && negb (address t))
    || (N.eqb r 60 && forallb (fun s => negb (begins (R s) t)) ["-"; "="; "<"; "http://"; "https://"; "ftp://"; "irc://"; "mailto:"]%string).
  Definition symbols : list string := ["(C)"; "(TM)"; "(R)"; "..."; "->"; "<-"; "=>"; "<="]%string.
  Definition ascii_word (p : option rune) : bool := match p with Some r => N.ltb r 128 && word_char r | None => false end.
  Definition ascii_other (p : option rune) : bool := match p with Some r => N.ltb r 128 && negb (word_char r) | None => true end.
  (** words between two marks *)
  Definition quote_marks : list rune := R "*_`#".
  Definition phrase (w : list rune) : Prop :=
    Forall (fun r => word_char r = true \/ blank r) w /\ next_is word_char w = true /\
    exists w' x, w = w' ++ [x] /\ word_char x = true /\ (x < 128)%N.
  Definition quotable (p : option rune) : bool :=
    match p with Some r => N.ltb r 128 && negb (word_char r) && negb (existsb (N.eqb r) (R "!,;}")) | None => true end.
  Definition closing (q : rune) (t : list rune) : bool :=
    negb (next_is (fun r => word_char r || N.eqb r q || (N.eqb q 96 && existsb (N.eqb r) [34%N; 39%N])) t).
  (** [ordinary p t its]: the text [t], after the character [p], reads as [its] *)
  Inductive ordinary : option rune -> list rune -> list item -> Prop :=
  | ord_nil : forall p, ordinary p [] []
  | ord_word : forall p w x t its, Forall (fun r => word_char r = true) (w ++ [x]) -> next_is word_char t = false ->
      (next_is (N.eqb 58) t = true -> macro (w ++ [x]) = false) ->
      (forall u, t = 64%N :: u -> next_is word_char u = false) ->
      ordinary (Some x) t its -> ordinary p (w ++ x :: t) (map Char (w ++ [x]) ++ its)
  | ord_blanks : forall p w x t its, blanks (w ++ [x]) -> (forall r, next_is (N.eqb r) t = true -> ~ blank r) ->
      ordinary (Some x) t its -> ordinary p (w ++ x :: t) (map Char (w ++ [x]) ++ its)
  | ord_char : forall p r t its, quiet_char r t = true -> ordinary (Some r) t its -> ordinary p (r :: t) (Char r :: its)
  | ord_special : forall p r t its, plain_special r t = true -> ordinary (Some r) t its ->
      ordinary p (r :: t) (Elem (SpecialCharacter (encode_runes [r])) :: its)
  | ord_apostrophe : forall p t its, ascii_word p = true -> next_is letter t = true -> ordinary (Some 39%N) t its ->
      ordinary p (39%N :: t) (Elem (Symbol "'") :: its)
  | ord_quote : forall p t its, next_is (N.eqb 96) t = false -> ascii_other p || negb (next_is letter t) = true -> ordinary (Some 39%N) t its ->
      ordinary p (39%N :: t) (Char 39%N :: its)
  | ord_symbol : forall p s t its, In s symbols -> ordinary (Some (last (R s) 0%N)) t its -> ordinary p (R s ++ t) (Elem (Symbol s) :: its)
  | ord_dash : forall p t its, ascii_word p = true -> (t = [] \/ next_is (fun r => word_char r || N.eqb 10 r) t = true) -> ordinary (Some 45%N) t its ->
      ordinary p (45%N :: 45%N :: t) (Elem (Symbol "--") :: its)
  (** a dash between blanks replaces the blanks *)
  | ord_blank_dash : forall p s t its, blank s -> ordinary (Some s) t its ->
      ordinary p (32%N :: 45%N :: 45%N :: s :: t) (Elem (Symbol " -- ") :: its)
  | ord_end_dash : forall p t its, (t = [] \/ next_is (N.eqb 10) t = true) -> ordinary (Some 45%N) t its ->
      ordinary p (32%N :: 45%N :: 45%N :: t) (Elem (Symbol " -- ") :: its)
  | ord_quoted : forall p q w t its, In q quote_marks -> quotable p = true -> phrase w -> closing q t = true -> ordinary (Some q) t its ->
      ordinary p (q :: w ++ q :: t) (Elem (QuotedText (encode_runes [q]) [StringElement (encode_runes w)] []) :: its).
End Ordinary.
(** the words that, before a colon, are (or may be) the name of an inline macro; [user]: the names of
    the user's macros *)
Definition macro_name (user : list string) (w : list rune) : bool :=
  let s := encode_runes w in
  has_suffix s "footnote" || existsb (String.eqb s) user
  || existsb (String.eqb s) ["http"; "https"; "mailto"; "image"; "link"; "icon"; "pass"; "menu"; "xref"; "btn"]%string.
