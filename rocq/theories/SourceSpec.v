(** What the properties about the lines of a source say: which lines are kept, conditional regions,
    declarations of attributes. *)
From Coq Require Import List String Ascii NArith Bool.
From Verif Require Import GoBase Utf8 Peg PegBlockSpec PegInlineSpec ConvertSpec.
Import ListNotations.
Local Open Scope list_scope.
Local Open Scope string_scope.

Definition CR : string := String "013"%char "".
Definition no_lf (s : string) : Prop := forall a b, s <> a ++ LF ++ b.
Definition ends_with (s w : string) : Prop := exists a, s = a ++ w.
(** the lines of a source: they end with LF or CR LF, and the last one may have no end.  A line has less
    than 64 KB *)
Definition a_line (l : string) : Prop := no_lf l /\ ~ ends_with l CR /\ (N.of_nat (String.length l) < 65535)%N.
Inductive source_lines : string -> list string -> Prop :=
| src_nil : source_lines "" []
| src_last : forall l e, a_line l -> e = "" \/ e = CR -> l ++ e <> "" -> source_lines (l ++ e) [l]
| src_line : forall l e s ls, a_line l -> e = LF \/ e = CR ++ LF -> source_lines s ls -> source_lines (l ++ e ++ s) (l :: ls).

(** a line that is no directive: it does not begin as one *)
Definition directive_words : list string := [":"; "include::"; "ifdef::"; "ifndef::"; "ifeval::"; "endif::"].
Definition plain_line (l : string) : Prop := forall w u, In w directive_words -> l <> w ++ u.

(** ** conditional regions *)
(** the name of an attribute in a condition; what is between the brackets *)
Definition condition_name (w : list rune) : Prop := w <> [] /\ characters w /\ Forall (fun r => ~ In r [13; 10; 32; 91]%N) w.
Definition bracketed (w : list rune) : Prop := characters w /\ Forall (fun r => ~ In r [13; 10; 93]%N) w.
(** "ifdef::name[content]" *)
Definition directive (word : string) (name content : list rune) (l : string) : Prop :=
  exists ws, blanks ws /\ l = encode_runes (R word ++ name ++ R "[" ++ content ++ R "]" ++ ws)%list.
Inductive condition : bool -> list rune -> list rune -> string -> Prop :=
| cond_ifdef : forall name content l, condition_name name -> bracketed content -> directive "ifdef::" name content l -> condition true name content l
| cond_ifndef : forall name content l, condition_name name -> bracketed content -> directive "ifndef::" name content l -> condition false name content l.
Definition end_of_condition (l : string) : Prop :=
  exists name content, (name = [] \/ condition_name name) /\ bracketed content /\ directive "endif::" name content l.


Section Chosen.
  (** Unicode letters and numbers *)
  Variables letter number : rune -> bool.
  (** ":name: value" and ":name:".  The value has no line end, none of < > & { [ + \, and no blank at its end *)
  Definition attribute_name (w : list rune) : Prop :=
    characters w /\ exists r w', w = r :: w' /\ (word_char letter number r = true \/ r = 95%N) /\
      Forall (fun x => word_char letter number x = true \/ x = 45%N) w'.
  Definition plain_value (v : list rune) : Prop :=
    characters v /\ Forall (fun r => ~ In r [10; 13; 38; 43; 60; 62; 91; 92; 123]%N) v /\
    (forall u r, v = u ++ [r] -> ~ blank r)%list /\ match v with r :: _ => ~ blank r | [] => True end.
  Definition declaration (name : list rune) (l : string) : Prop :=
    attribute_name name /\
    (l = encode_runes (R ":" ++ name ++ R ":")%list \/
     exists ws v, ws <> [] /\ blanks ws /\ plain_value v /\ l = encode_runes (R ":" ++ name ++ R ":" ++ ws ++ v)%list).
  (** ":!name:" and ":name!:" *)
  Definition reset (name : list rune) (l : string) : Prop :=
    attribute_name name /\ exists ws, blanks ws /\
      (l = encode_runes (R ":!" ++ name ++ R ":" ++ ws)%list \/ l = encode_runes (R ":" ++ name ++ R "!:" ++ ws)%list).

  (** the names of the attributes given in the configuration *)
  Variable given : list string.
  (** whether the condition holds when the attributes [d] are declared: [true] for ifdef, [false] for ifndef *)
  Definition holds (b : bool) (name : list rune) (d : list string) : Prop :=
    if b then In (encode_runes name) (given ++ d)%list else ~ In (encode_runes name) (given ++ d)%list.
  (** [chosen d ls out d']: when the attributes [d] are declared, the lines of [ls] that are kept are [out],
      and the attributes declared after them are [d'] *)
  Inductive chosen : list string -> list string -> list string -> list string -> Prop :=
  | ch_nil : forall d, chosen d [] [] d
  | ch_line : forall d l ls out d', plain_line l -> chosen d ls out d' -> chosen d (l :: ls) (l :: out) d'
  | ch_set : forall d name l ls out d', declaration name l -> chosen (encode_runes name :: d) ls out d' -> chosen d (l :: ls) (l :: out) d'
  | ch_unset : forall d name l ls out d', reset name l -> chosen (remove string_dec (encode_runes name) d) ls out d' -> chosen d (l :: ls) (l :: out) d'
  | ch_one : forall d b name content l ls out d', condition b name content l -> content <> [] -> holds b name d ->
      chosen d ls out d' -> chosen d (l :: ls) (encode_runes content :: out) d'
  | ch_one_not : forall d b name content l ls out d', condition b name content l -> content <> [] -> ~ holds b name d ->
      chosen d ls out d' -> chosen d (l :: ls) out d'
  | ch_region : forall d b name l body e out1 d1 ls out d', condition b name [] l -> holds b name d -> chosen d body out1 d1 ->
      end_of_condition e -> chosen d1 ls out d' -> chosen d (l :: body ++ e :: ls)%list (out1 ++ out)%list d'
  (** a region that is left out contains no declaration: it would count (see C09) *)
  | ch_region_not : forall d b name l body e out1 d1 ls out d', condition b name [] l -> ~ holds b name d ->
      chosen d body out1 d1 -> Forall (fun x => forall u, x <> ":" ++ u) body ->
      end_of_condition e -> chosen d ls out d' -> chosen d (l :: body ++ e :: ls)%list out d'.
End Chosen.
