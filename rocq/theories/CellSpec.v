(** C79: the HTML of tables.  Nothing here depends on the renderer's templates. *)
From Coq Require Import List String Ascii Bool NArith ZArith.
From Verif Require Import GoBase Types Render FrameSpec ItemSpec.
Import ListNotations.
Local Open Scope string_scope.

(** ** the cells, once rendered *)
(** a block of a cell: a paragraph, or another block whose last line feed is dropped *)
Inductive block_in_cell (E : renv) (k : nat) : val -> rst -> string -> rst -> Prop :=
| text_in_cell : forall attrs es check mark st c st1 t st2, all_rendered E k es st c st1 -> title_attribute (all_rendered E k) attrs st1 t st2 ->
    In (check, mark) check_marks -> text_attribute attrs "checkstyle" check ->
    block_in_cell E k (Paragraph attrs es) st ("<p class=""tableblock"">" ++ mark ++ c ++ "</p>") st2
| other_in_cell : forall v st h c st1, (forall attrs es, v <> Paragraph attrs es) -> renderElement E k v st = Ok (h, st1) ->
    h = c ++ LF \/ (h = c /\ forall u, h <> u ++ LF) -> block_in_cell E k v st ("<div class=""content"">" ++ c ++ "</div>") st1.
Inductive blocks_in_cell (E : renv) (k : nat) : list val -> rst -> string -> rst -> Prop :=
| b_none : forall st, blocks_in_cell E k [] st "" st
| b_more : forall v l st h st1 t st2, block_in_cell E k v st h st1 -> blocks_in_cell E k l st1 t st2 -> blocks_in_cell E k (v :: l) st (h ++ t) st2.
(** a cell of the body: any blocks; a cell of the header or of the footer: one paragraph *)
Inductive body_cell (E : renv) (k : nat) : val -> rst -> string -> rst -> Prop :=
| is_body_cell : forall f es st c st1, blocks_in_cell E k es st c st1 -> body_cell E k (TableCell f es) st c st1.
Inductive edge_cell (E : renv) (k : nat) : val -> rst -> string -> rst -> Prop :=
| is_edge_cell : forall f attrs es st c st1, all_rendered E k es st c st1 -> (forall u, c <> u ++ " ") -> edge_cell E k (TableCell f [Paragraph attrs es]) st c st1.
(** the cells of a row, from left to right, each with its column *)
Inductive cells_rendered (cell : val -> rst -> string -> rst -> Prop) : list rcol -> list val -> rst -> list (rcol * string) -> rst -> Prop :=
| cells_none : forall cols st, cells_rendered cell cols [] st [] st
| cells_more : forall col cols v l st c st1 cs st2, cell v st c st1 -> cells_rendered cell cols l st1 cs st2 -> cells_rendered cell (col :: cols) (v :: l) st ((col, c) :: cs) st2.
Inductive rows_rendered (E : renv) (k : nat) (cols : list rcol) : list val -> rst -> list (list (rcol * string)) -> rst -> Prop :=
| rows_none : forall st, rows_rendered E k cols [] st [] st
| rows_more : forall cells l st cs st1 rows st2, cells_rendered (body_cell E k) cols cells st cs st1 -> rows_rendered E k cols l st1 rows st2 ->
    rows_rendered E k cols (TableRow cells :: l) st (cs :: rows) st2.
(** the row above or below, or none: no cells *)
Inductive edge_rendered (E : renv) (k : nat) (cols : list rcol) : val -> rst -> list (rcol * string) -> rst -> Prop :=
| no_edge : forall v st, (forall cells, v <> TableRow cells) -> edge_rendered E k cols v st [] st
| some_edge : forall cells st cs st1, cells_rendered (edge_cell E k) cols cells st cs st1 -> edge_rendered E k cols (TableRow cells) st cs st1.

(** ** their HTML *)
Definition horizontally (a : string) : string := if String.eqb a "<" then "halign-left" else if String.eqb a "^" then "halign-center" else if String.eqb a ">" then "halign-right" else a.
Definition vertically (a : string) : string := if String.eqb a "<" then "valign-top" else if String.eqb a "^" then "valign-middle" else if String.eqb a ">" then "valign-bottom" else a.
Definition cell_html (tag : string) (e : rcol * string) : string :=
  "<" ++ tag ++ " class=""tableblock " ++ horizontally (rc_halign (fst e)) ++ " " ++ vertically (rc_valign (fst e)) ++ """>" ++ snd e ++ "</" ++ tag ++ ">" ++ LF.
(** the cells of a heading column are headings *)
Definition body_cell_html (e : rcol * string) : string := cell_html (if String.eqb (rc_style (fst e)) "h" then "th" else "td") e.
Definition header_cell_html (e : rcol * string) : string := cell_html "th" e.
Definition footer_cell_html (e : rcol * string) : string := cell_html "td" (fst e, "<p class=""tableblock"">" ++ snd e ++ "</p>").
Definition cells_html (html : rcol * string -> string) (cells : list (rcol * string)) : string := "<tr>" ++ LF ++ String.concat "" (map html cells) ++ "</tr>" ++ LF.
Definition edge_html (tag : string) (html : rcol * string -> string) (cells : list (rcol * string)) : string :=
  match cells with [] => "" | _ => "<" ++ tag ++ ">" ++ LF ++ cells_html html cells ++ "</" ++ tag ++ ">" ++ LF end.
Definition column_html (xhtml : bool) (c : rcol) : string :=
  "<col" ++ (if String.eqb (rc_width c) "" then "" else " style=""width: " ++ rc_width c ++ "%;""") ++ (if xhtml then "/>" else ">") ++ LF.
Definition word (prefix s : string) : string := if String.eqb s "" then "" else " " ++ prefix ++ s.
(** [width]: a percentage, 0 when none is given; a table that is as wide as the page is stretched *)
Definition fitting (width : Z) (autowidth : bool) : string :=
  if (100 <=? width)%Z then "stretch" else if (0 <? width)%Z then "" else if autowidth then "fit-content" else "stretch".
Definition table_html (xhtml : bool) (id frame grid stripes float : string) (roles : list string) (width : Z) (autowidth : bool) (label title : string)
  (cols : list rcol) (header : list (rcol * string)) (rows : list (list (rcol * string))) (footer : list (rcol * string)) : string :=
  "<table " ++ (if String.eqb id "" then "" else "id=""" ++ escaped id ++ """ ") ++ "class=""tableblock frame-" ++ frame ++ " grid-" ++ grid ++ word "stripes-" stripes ++
  word "" (fitting width autowidth) ++ word "" float ++ word "" (String.concat " " roles) ++ """" ++
  (if ((0 <? width) && (width <? 100))%Z%bool then " style=""width: " ++ itoa width ++ "%;""" else "") ++ ">" ++ LF ++
  (if String.eqb title "" then "" else "<caption class=""title"">" ++ label ++ title ++ "</caption>" ++ LF) ++
  (* a table without rows is empty, even when it has a header *)
  match rows with
  | [] => ""
  | _ => "<colgroup>" ++ LF ++ String.concat "" (map (column_html xhtml) cols) ++ "</colgroup>" ++ LF ++ edge_html "thead" header_cell_html header ++
         "<tbody>" ++ LF ++ String.concat "" (map (cells_html body_cell_html) rows) ++ "</tbody>" ++ LF ++ edge_html "tfoot" footer_cell_html footer
  end ++ "</table>" ++ LF.

(** ** the attributes of a table *)
Definition default_attribute (attrs : attributes) (name default value : string) : Prop := mget attrs name = Some (VStr value) \/ (mget attrs name = None /\ value = default).
(** the width: a percentage, with or without its sign *)
Definition width_attribute (attrs : attributes) (n : Z) : Prop :=
  (mget attrs "width" = None /\ n = 0%Z) \/ ((0 < n <= 100)%Z /\ (mget attrs "width" = Some (VStr (itoa n)) \/ mget attrs "width" = Some (VStr (itoa n ++ "%")))).
Definition autowidth_attribute (attrs : attributes) : Prop :=
  (exists os, mget attrs "options" = Some (VOptions os) /\ In (VStr "autowidth") os) \/ mget attrs "autowidth" <> None.
