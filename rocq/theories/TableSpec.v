(** What "tables keep all cells, in rows of equal length" means. *)
From Verif Require Import GoBase Types Attrs Tables.

(** all the cells of the source of a table, from top to bottom *)
Definition source_cells {A} (lines : list (line A)) : list A :=
  flat_map (fun l => match l with LBlank => [] | LRow c => c end) lines.
(** the rows of a table as they are displayed: header, body, footer *)
Definition displayed {A} (t : table A) : list (list A) :=
  (match t_header t with Some h => [h] | None => [] end) ++ t_rows t ++ (match t_footer t with Some f => [f] | None => [] end).

(** every row has exactly [n] cells, except possibly the last one, which has at least one and at most [n] *)
Definition regular {A} (n : nat) (rows : list (list A)) : Prop :=
  forall i row, nth_error rows i = Some row ->
    (1 <= List.length row <= n)%nat /\ (S i < List.length rows -> List.length row = n)%nat.

(** a source as the grammar gives it: every row of the source has at least one cell *)
Definition rows_nonempty {A} (lines : list (line A)) : Prop := forall c, In (LRow c) lines -> c <> [].

(** the number of columns that the "cols" attribute asks for *)
Definition asked_columns (cols : list column) : nat := List.length (flat_map (fun c => repeat c (Z.to_nat (c_mult c))) cols).
Definition sensible_cols (cols : list column) : Prop :=
  Forall (fun c => 0 <= c_mult c)%Z cols /\ Exists (fun c => 0 < c_mult c)%Z cols.
Definition no_panic {B} (r : result B) : Prop := forall m, r <> Panic m.
(** the number of cells of the first row of the source *)
Definition first_row {A} (lines : list (line A)) : nat :=
  match flat_map (fun l => match l with LBlank => [] | LRow c => [c] end) lines with c :: _ => List.length c | [] => 1 end.

(** the number of rows of [n] cells (the last may be shorter) that [cells] cells make *)
Definition rows_needed (cells n : nat) : nat := (cells + (n - 1)) / n.
(** the source begins with a row and a blank line, and something follows: the first row is a header *)
Definition implicit_header {A} (lines : list (line A)) : bool := match lines with LRow _ :: LBlank :: _ :: _ => true | _ => false end.
(** the attributes given by the groups of attributes [l]; an option given by a group is not withdrawn by a later group *)
Definition given_attrs (l : list attributes) : attributes := fold_left aaddall l [].
Definition options_kept (l : list attributes) : Prop :=
  forall name pre post, l = pre ++ post -> hasOption (given_attrs pre) name = true -> hasOption (given_attrs l) name = true.
(** how many rows are asked to be header and footer: 0, 1 or 2 *)
Definition special_rows {A} (lines : list (line A)) (attrs : list attributes) : nat :=
  ((if implicit_header lines || hasOption (given_attrs attrs) "header" then 1 else 0) + (if hasOption (given_attrs attrs) "footer" then 1 else 0))%nat.
(** the sum of the multipliers of the columns *)
Definition columns_asked (cols : list column) : Z := fold_right (fun c n => c_mult c + n)%Z 0%Z cols.
