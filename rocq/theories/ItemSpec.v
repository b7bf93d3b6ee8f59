(** C78: the HTML of labeled lists, lists of callouts and the paragraphs of items.  Nothing here depends on the renderer's templates. *)
From Coq Require Import List String Ascii Bool NArith ZArith.
From Verif Require Import GoBase Types Render FrameSpec.
Import ListNotations.
Local Open Scope string_scope.

(** what an item contains: its first element is rendered as part of the list, those that follow (attached) are not *)
Definition deeper (st : rst) : rst := mkRst (r_attrs st) (r_counters st) (r_within st) (r_list st + 1) (r_log st).
Definition back (st : rst) : rst := mkRst (r_attrs st) (r_counters st) (r_within st) (r_list st - 1) (r_log st).
Inductive item_rendered (E : renv) (k : nat) : list val -> rst -> string -> rst -> Prop :=
| i_none : forall st, item_rendered E k [] st "" st
| i_some : forall v l st h st1 t st2, renderElement E k v (deeper st) = Ok (h, st1) -> all_rendered E k l (back st1) t st2 -> item_rendered E k (v :: l) st (h ++ t) st2.
(** the terms and contents of a labeled list *)
Inductive terms_rendered (E : renv) (k : nat) : list val -> rst -> list (string * string) -> rst -> Prop :=
| t_none : forall st, terms_rendered E k [] st [] st
| t_more : forall style term attrs es l st t st1 c st2 entries st3, all_rendered E k term st t st1 -> (forall u, t <> u ++ " ") ->
    item_rendered E k es st1 c st2 -> terms_rendered E k l st2 entries st3 -> terms_rendered E k (LabeledListElement style term attrs es :: l) st ((t, c) :: entries) st3.
Inductive callouts_rendered (E : renv) (k : nat) : list val -> rst -> list string -> rst -> Prop :=
| c_none : forall st, callouts_rendered E k [] st [] st
| c_more : forall n attrs es l st c st1 cs st2, item_rendered E k es st c st1 -> callouts_rendered E k l st1 cs st2 ->
    callouts_rendered E k (CalloutListElement n attrs es :: l) st (c :: cs) st2.

Definition definition_html (e : string * string) : string :=
  "<dt class=""hdlist1"">" ++ fst e ++ "</dt>" ++ LF ++ (if String.eqb (snd e) "" then "" else "<dd>" ++ LF ++ snd e ++ "</dd>" ++ LF).
Definition question_html (e : string * string) : string := "<li>" ++ LF ++ "<p><em>" ++ fst e ++ "</em></p>" ++ LF ++ snd e ++ "</li>" ++ LF.
(** a row per content: the terms before it are on the left; [more]: a row is open *)
Fixpoint rows_html (xhtml more : bool) (entries : list (string * string)) : string :=
  match entries with
  | [] => ""
  | (t, c) :: r =>
      (if more then (if xhtml then "<br/>" else "<br>") ++ LF else "<tr>" ++ LF ++ "<td class=""hdlist1"">" ++ LF) ++ t ++ LF ++
      (if String.eqb c "" then "" else "</td>" ++ LF ++ "<td class=""hdlist2"">" ++ LF ++ c ++ "</td>" ++ LF ++ "</tr>" ++ LF) ++
      rows_html xhtml (String.eqb c "") r
  end.
(** the layouts: the style of the list, the class of its frame, what is inside *)
Definition labeled_html (xhtml : bool) (style id : string) (roles : list string) (title : string) (entries : list (string * string)) : option string :=
  if String.eqb style "" then Some (frame id "dlist" roles (title_line "" title ++ "<dl>" ++ LF ++ String.concat "" (map definition_html entries) ++ "</dl>" ++ LF)) else
  if String.eqb style "qanda" then Some (frame id "qlist qanda" roles (title_line "" title ++ "<ol>" ++ LF ++ String.concat "" (map question_html entries) ++ "</ol>" ++ LF)) else
  if String.eqb style "horizontal" then Some (frame id "hdlist" roles (title_line "" title ++ "<table>" ++ LF ++ rows_html xhtml false entries ++ "</table>" ++ LF)) else None.
Definition callouts_html (id : string) (roles : list string) (title : string) (cs : list string) : string :=
  frame id "colist arabic" roles (title_line "" title ++ "<ol>" ++ LF ++ String.concat "" (map (fun c => "<li>" ++ LF ++ c ++ "</li>" ++ LF) cs) ++ "</ol>" ++ LF).
(** the marks of check lists *)
Definition check_marks : list (string * string) :=
  [("", ""); ("checked", "&#10003; "); ("unchecked", "&#10063; "); ("checked-interactive", "<input type=""checkbox"" data-item-complete=""1"" checked> ");
   ("unchecked-interactive", "<input type=""checkbox"" data-item-complete=""0""> ")].
