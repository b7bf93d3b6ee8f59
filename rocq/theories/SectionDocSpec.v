(** What the property about documents with sections (C71) says. *)
From Coq Require Import List String NArith ZArith Bool.
From Verif Require Import GoBase Utf8 Types Attrs IdsSpec Peg PegBlockSpec PegInlineSpec ConvertSpec.
Import ListNotations.
Local Open Scope list_scope.

(** * Titles
    Words, blanks and punctuation that stands for itself. *)
Section Titles.
  (** Unicode letters and numbers; the names of inline macros *)
  Variables letter number : rune -> bool.
  Variable macro : list rune -> bool.
  Definition title_char (r : rune) (t : list rune) : bool :=
    existsb (N.eqb r) (R ",;?!/):@]")
    || (N.eqb r 46 && negb (begins (R "..") t))                                           (* . *)
    || (N.eqb r 45 && negb (begins (R "-") t) && negb (begins (R ">") t))                 (* - *)
    || (N.eqb r 61 && negb (begins (R ">") t))                                            (* = *)
    || (N.eqb r 40 && forallb (fun s => negb (begins (R s) t)) ["("; "C)"; "TM)"; "R)"]%string).   (* left parenthesis *)
  Inductive title_text : list rune -> Prop :=
  | title_nil : title_text []
  | title_word : forall w t, w <> [] -> Forall (fun r => word_char letter number r = true) w -> next_is (word_char letter number) t = false ->
      (next_is (N.eqb 58) t = true -> macro w = false) -> (forall u, t = 64%N :: u -> next_is (word_char letter number) u = false) ->
      title_text t -> title_text (w ++ t)
  | title_blanks : forall w t, w <> [] -> blanks w -> (forall r, next_is (N.eqb r) t = true -> ~ blank r) -> title_text t -> title_text (w ++ t)
  | title_one : forall r t, title_char r t = true -> title_text t -> title_text (r :: t).
  (** Unicode white space, see unicode.IsSpace *)
  Definition space (r : rune) : bool :=
    ((9 <=? r) && (r <=? 13) || (8192 <=? r) && (r <=? 8202))%N || existsb (N.eqb r) [32; 133; 160; 5760; 8232; 8233; 8239; 8287; 12288]%N.
  (** a title: it neither starts nor ends with white space *)
  Definition title (t : list rune) : Prop :=
    characters t /\ t <> [] /\ next_is space t = false /\ next_is space (rev t) = false.
End Titles.

(** * Documents with sections *)
Section Manuscripts.
  Variables letter number white : rune -> bool.
  Variable macro : list rune -> bool.
  (** an element, or the title of a section *)
  Inductive part := Block (v : val) | Heading (level : nat) (title : list rune).
  (** a title is a line that starts with two to six equal signs and blanks *)
  Inductive manuscript : bool -> list rune -> list part -> Prop :=
  | man_nil : forall header, manuscript header [] []
  | man_block : forall header text v tail ps, text <> [] -> piece (word_char letter number) white header text v tail ->
      manuscript (header && match v with BlankLine => true | _ => false end) tail ps -> manuscript header text (Block v :: ps)
  | man_heading : forall header level ws t k e tail ps, 1 <= level <= 5 -> ws <> [] -> blanks ws -> title t ->
      title_text letter number macro (t ++ repeat 32%N k) -> eol e tail ->
      manuscript false tail ps ->
      manuscript header (repeat 61%N (S level) ++ ws ++ t ++ repeat 32%N k ++ e ++ tail) (Heading level t :: ps).
End Manuscripts.

(** * The HTML
    The blocks are as in C69; the titles get their ids *)
Inductive entry := Text (h : string) | Head (level : nat) (id : string) (title : list rune).
Section Entries.
  Variables letter number white : rune -> bool.
  Variable user : list string.
  (** whether XHTML is written, and strings.ToLower *)
  Variable xhtml : bool.
  Variable lower : string -> string.
  (** the id of a title: its words joined by underscores, with an underscore at the beginning *)
  Definition base_id (t : list rune) : string :=
    let body := slug (word_char letter number) "_" t in if has_prefix body "_" then body else ("_" ++ body)%string.
  (** the first of base, base_2, base_3... that is not used *)
  Definition numbered (base : string) (i : N) : string := if N.eqb i 1 then base else (base ++ "_" ++ itoaN i)%string.
  Definition fresh (used : list string) (base id : string) : Prop :=
    exists i, (1 <= i)%N /\ id = numbered base i /\ ~ In id used /\ forall j, (1 <= j < i)%N -> In (numbered base j) used.
  Inductive entries : list string -> list part -> list entry -> Prop :=
  | ent_nil : forall used, entries used [] []
  | ent_block : forall used v h ps es, shown letter number white user xhtml lower v h -> entries used ps es ->
      entries used (Block v :: ps) (Text h :: es)
  | ent_heading : forall used l t id ps es, fresh used (base_id t) id -> entries (id :: used) ps es ->
      entries used (Heading l t :: ps) (Head l id t :: es).
End Entries.
(** a section: its title, then its content *)
Definition heading_html (lower : string -> string) (level : nat) (id : string) (t : list rune) : string :=
  ("<h" ++ itoa (Z.of_nat (S level)) ++ " id=""" ++ lower id ++ """>" ++ encode_runes t ++ "</h" ++ itoa (Z.of_nat (S level)) ++ ">" ++ LF)%string.
Definition section_html (lower : string -> string) (level : nat) (id : string) (t : list rune) (content : string) : string :=
  ("<div class=""sect" ++ itoa (Z.of_nat level) ++ """>" ++ LF ++ heading_html lower level id t
   ++ (if Nat.eqb level 1 then "<div class=""sectionbody"">" ++ LF ++ content ++ "</div>" ++ LF else content) ++ "</div>" ++ LF)%string.
(** [nested lower k es h]: the content of a section of level [k] (0: the document).  A section ends before
    the next title of the same level or of a higher one *)
Inductive nested (lower : string -> string) : nat -> list entry -> string -> Prop :=
| nest_nil : forall k, nested lower k [] ""
| nest_text : forall k h es s, nested lower k es s -> nested lower k (Text h :: es) (h ++ s)%string
| nest_section : forall k l id t es1 es2 s1 s2, k < l -> nested lower l es1 s1 -> nested lower k es2 s2 ->
    match es2 with [] => True | Head l' _ _ :: _ => l' <= l | _ => False end ->
    nested lower k (Head l id t :: es1 ++ es2) (section_html lower l id t s1 ++ s2)%string.
(** the attributes that would change this, and are not set *)
Definition section_names : list string := neutral_names ++ ["toc"; "idprefix"; "idseparator"]%string.
