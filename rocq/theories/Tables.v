(** Model of tables: NewTable, the organisation of cells in rows, the header and footer options, the column definitions
    (pkg/types/types.go:3713-3875, 3945-4056) and their rendering (pkg/renderer/sgml/table.go:13-281).
    [A] is the type of cells: the organisation and the loops over the cells never look inside a cell.
    Simplifications: the "cols" attribute is a field of its own, as the list of column definitions that reparseAttributes
    (document_processing_apply_substitutions.go:289-298) makes of it ([None]: no "cols", or an empty one);
    float64 arithmetic on cell counts (types.go:3769) is exact.  Computed widths are in TableWidths.v. *)
From Verif Require Import GoBase Types Attrs.

Definition AttrAutoWidth := "autowidth".

(** types.go:3945-3953 TableColumn, without alignments and computed width; [c_head]: the style is "h" *)
Record column := mkCol { c_mult : Z; c_weight : Z; c_auto : bool; c_head : bool }.
(** types.go:3983-3990 newDefaultTableColumn *)
Definition newDefaultTableColumn : column := mkCol 1 1 false false.
(** types.go:3955-3981 NewTableColumn, given the values the grammar found; [weight]: "~" or a number *)
Definition newTableColumn (multiplier : option Z) (weight : option (option Z)) (style : option string) : column :=
  mkCol (match multiplier with Some m => m | None => 1%Z end)
        (match weight with Some (Some w) => w | Some None => 0%Z | None => 1%Z end)
        (match weight with Some None => true | _ => false end)
        (match style with Some s => String.eqb s "h" | None => false end).

Section Tables.
Variable A : Type.

(** what the grammar gives between the table delimiters (parser.peg:2587-2609): blank lines and rows of at least one cell *)
Inductive line := LBlank | LRow (cells : list A).

(** types.go:3714-3719 Table *)
Record table := mkTable { t_attrs : attributes; t_cols : option (list column);
  t_header : option (list A); t_rows : list (list A); t_footer : option (list A) }.

Definition line_cells (l : line) : list A := match l with LBlank => [] | LRow c => c end.

(** the loop at types.go:3766-3773: rows of [l] cells; [fuel] bounds the number of rows *)
Fixpoint group (fuel : nat) (l : nat) (cells : list A) : list (list A) :=
  match fuel with
  | O => []
  | S f => match cells with
           | [] => []
           | _ => firstn l cells :: group f l (skipn l cells)
           end
  end.

(** types.go:3756-3775 organizeTableCells *)
Definition organizeTableCells (lines : list line) (rowLength : Z) : result (list (list A)) :=
  let cells := flat_map line_cells lines in
  if (rowLength =? 0)%Z then Panic "integer divide by zero"
  else if (rowLength <? 0)%Z then
    match cells with [] => Ok [] | _ => Panic "makeslice: len out of range" end
  else Ok (group (List.length cells) (Z.to_nat rowLength) cells).

(** types.go:3735-3754 scanTableElements *)
Fixpoint first_row_length (lines : list line) : Z :=
  match lines with
  | [] => 1%Z
  | LRow c :: _ => Z.of_nat (List.length c)
  | LBlank :: r => first_row_length r
  end.
Definition scanTableElements (lines : list line) : result (option (list A) * list (list A)) :=
  match lines with
  | LRow header :: LBlank :: (_ :: _) as rest =>
      do rows <- organizeTableCells (skipn 2 lines) (Z.of_nat (List.length header)); Ok (Some header, rows)
  | _ => do body <- organizeTableCells lines (first_row_length lines); Ok (None, body)
  end.

(** types.go:3721-3733 NewTable *)
Definition newTable (lines : list line) : result table :=
  match lines with
  | [] => Ok (mkTable [] None None [] None)
  | _ => do (header, rows) <- scanTableElements lines; Ok (mkTable [] None header rows None)
  end.

(** [s[len(s)-1]] and [s[:len(s)-1]] of a non-empty slice *)
Fixpoint split_last {B : Type} (x : B) (l : list B) : list B * B :=
  match l with
  | [] => ([], x)
  | y :: r => let (i, z) := split_last y r in (x :: i, z)
  end.

(** types.go:3824-3835 reorganizeRows *)
Definition take_header (t : table) : table :=
  match t_header t, t_rows t with
  | None, r :: rs => if hasOption (t_attrs t) "header" then mkTable (t_attrs t) (t_cols t) (Some r) rs (t_footer t) else t
  | _, _ => t
  end.
Definition take_footer (t : table) : table :=
  match t_footer t, t_rows t with
  | None, r :: rs => if hasOption (t_attrs t) "footer"
                     then let (i, z) := split_last r rs in mkTable (t_attrs t) (t_cols t) (t_header t) i (Some z) else t
  | _, _ => t
  end.
Definition reorganizeRows (t : table) : table := take_footer (take_header t).
(** types.go:3813-3816 AddAttributes *)
Definition addAttributes (t : table) (a : attributes) : table :=
  reorganizeRows (mkTable (aaddall (t_attrs t) a) (t_cols t) (t_header t) (t_rows t) (t_footer t)).
(** types.go:3819-3822 SetAttributes *)
Definition setAttributes (t : table) (a : attributes) : table :=
  reorganizeRows (mkTable a (t_cols t) (t_header t) (t_rows t) (t_footer t)).

(** types.go:3860-3875 rows *)
Definition opt_row (o : option (list A)) : list (list A) := match o with Some r => [r] | None => [] end.
Definition table_rows (t : table) : list (list A) := opt_row (t_header t) ++ t_rows t ++ opt_row (t_footer t).
Definition is_some {B : Type} (o : option B) : bool := match o with Some _ => true | None => false end.

Fixpoint sum_mult (cols : list column) : Z :=
  match cols with [] => 0 | c :: r => (c_mult c + sum_mult r)%Z end.

(** types.go:3837-3858 SetColumnDefinitions *)
Definition setColumnDefinitions (t : table) (cols : list column) : result table :=
  do rows <- organizeTableCells (map LRow (table_rows t)) (sum_mult cols);
  do (hd, rows) <- (if (is_some (t_header t) || hasOption (t_attrs t) "header")%bool then
                       match rows with [] => Panic "index out of range [0]" | r :: rs => Ok (Some r, rs) end
                     else Ok (t_header t, rows));
  do (ft, rows) <- (if (is_some (t_footer t) || hasOption (t_attrs t) "footer")%bool then
                       match rows with [] => Panic "index out of range [-1]"
                       | r :: rs => let (i, z) := split_last r rs in Ok (Some z, i) end
                     else Ok (t_footer t, rows));
  Ok (mkTable (t_attrs t) (t_cols t) hd rows ft).

(** document_processing_apply_substitutions.go:145-189 applySubstitutionsOnTable, the part on rows: the substitutions on
    the content of the cells are not modelled here (they keep the number of cells) *)
Definition applySubstitutionsOnTable (t : table) : result table :=
  match t_cols t with Some cols => setColumnDefinitions t cols | None => Ok t end.

(** What happens to a table from the source to the rendering: its lines, the attributes attached to it (each group of
    attributes with AddAttributes, parser.peg:262 and 1554), its columns.  parser.peg:2587-2592 Table *)
Definition parseTable (lines : list line) (attrs : list attributes) (cols : option (list column)) : result table :=
  do t <- newTable lines;
  let t := fold_left addAttributes attrs t in
  applySubstitutionsOnTable (mkTable (t_attrs t) cols (t_header t) (t_rows t) (t_footer t)).

(** types.go:3992-4056 Columns, without the widths *)
Fixpoint repeat_col (cols : list column) : list column :=
  match cols with [] => [] | c :: r => repeat c (Z.to_nat (c_mult c)) ++ repeat_col r end.
Definition columns (t : table) : list column :=
  let result := match t_cols t with Some cols => repeat_col cols | None => [] end in
  match t_rows t with
  | r :: _ => result ++ repeat newDefaultTableColumn (List.length r - List.length result)
  | [] => result
  end.

(** The rendering of single cells (it depends on the cell and on its column) and the templates are parameters. *)
Variable header_cell footer_cell body_cell : A -> column -> result string.
Variable header_tmpl footer_tmpl row_tmpl body_tmpl : string -> result string.
Variable table_tmpl : list column -> string -> string -> string -> result string.

(** table.go:123-145, 170-196: one loop with [cols[col%len(cols)]] *)
Fixpoint cells_mod (f : A -> column -> result string) (cols : list column) (col : nat) (cells : list A) : result string :=
  match cells with
  | [] => Ok ""
  | c :: r =>
      match cols with
      | [] => Panic "integer divide by zero"
      | _ => do s <- f c (nth (col mod List.length cols) cols newDefaultTableColumn);
             do rest <- cells_mod f cols (S col) r; Ok (s ++ rest)%string
      end
  end.
(** table.go:123-142 renderTableHeader *)
Definition renderTableHeader (h : option (list A)) (cols : list column) : result string :=
  match h with None => Ok "" | Some cells => do s <- cells_mod header_cell cols 0 cells; header_tmpl s end.
(** table.go:166-189 renderTableFooter *)
Definition renderTableFooter (h : option (list A)) (cols : list column) : result string :=
  match h with None => Ok "" | Some cells => do s <- cells_mod footer_cell cols 0 cells; footer_tmpl s end.
(** table.go:235-253 renderTableRow: [cols[i]] *)
Fixpoint cells_at (cols : list column) (i : nat) (cells : list A) : result string :=
  match cells with
  | [] => Ok ""
  | c :: r => match nth_error cols i with
              | None => Panic "index out of range"
              | Some col => do s <- body_cell c col; do rest <- cells_at cols (S i) r; Ok (s ++ rest)%string
              end
  end.
Definition renderTableRow (cols : list column) (cells : list A) : result string :=
  do s <- cells_at cols 0 cells; row_tmpl s.
(** table.go:213-233 renderTableBody *)
Fixpoint rows_loop (cols : list column) (rows : list (list A)) : result string :=
  match rows with
  | [] => Ok ""
  | r :: rs => do s <- renderTableRow cols r; do rest <- rows_loop cols rs; Ok (s ++ rest)%string
  end.
Definition renderTableBody (rows : list (list A)) (cols : list column) : result string :=
  do s <- rows_loop cols rows; body_tmpl s.
(** table.go:13-121 renderTable, the part on columns, header, footer and body *)
Definition renderTable (t : table) : result string :=
  let cols := columns t in
  do header <- renderTableHeader (t_header t) cols;
  do footer <- renderTableFooter (t_footer t) cols;
  do body <- renderTableBody (t_rows t) cols;
  table_tmpl cols header body footer.
End Tables.
Arguments LBlank {A}.
Arguments LRow {A} cells.
Arguments mkTable {A}.
Arguments t_attrs {A}.
Arguments t_cols {A}.
Arguments t_header {A}.
Arguments t_rows {A}.
Arguments t_footer {A}.
Arguments line_cells {A}.
Arguments group {A}.
Arguments organizeTableCells {A}.
Arguments first_row_length {A}.
Arguments scanTableElements {A}.
Arguments newTable {A}.
Arguments take_header {A}.
Arguments take_footer {A}.
Arguments reorganizeRows {A}.
Arguments addAttributes {A}.
Arguments setAttributes {A}.
Arguments opt_row {A}.
Arguments table_rows {A}.
Arguments setColumnDefinitions {A}.
Arguments applySubstitutionsOnTable {A}.
Arguments parseTable {A}.
Arguments columns {A}.
Arguments cells_mod {A}.
Arguments cells_at {A}.
Arguments renderTableHeader {A}.
Arguments renderTableFooter {A}.
Arguments renderTableRow {A}.
Arguments rows_loop {A}.
Arguments renderTableBody {A}.
Arguments renderTable {A}.
