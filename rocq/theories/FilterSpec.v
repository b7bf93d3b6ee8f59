(** What "filtering removes exactly comments and blank lines" means. *)
From Verif Require Import GoBase Types Elements.

Definition comment_or_blank (v : val) : Prop :=
  v = BlankLine \/ (exists s, v = SinglelineComment s) \/ (exists a es, v = DelimitedBlock "comment" a es).

(** [pruned l l']: [l'] is [l] after the removal, at any depth, of comments and blank lines -- and of document headers
    which have neither a title nor attributes nor, after that, anything else.  Nothing else is removed, nothing is added,
    changed or moved. *)
Inductive pruned : list val -> list val -> Prop :=
| pr_nil : pruned [] []
| pr_drop v l l' : comment_or_blank v -> pruned l l' -> pruned (v :: l) l'
| pr_header es l l' : pruned es [] -> pruned l l' -> pruned (DocumentHeader None [] es :: l) l'
| pr_leaf v l l' : getElements v = None -> pruned l l' -> pruned (v :: l) (v :: l')
| pr_keep v es es' l l' : getElements v = Some es -> pruned es es' -> pruned l l' ->
    pruned (v :: l) (set_elements v es' :: l').

(** what is reached from an element through its elements *)
Inductive reached (c : val) : val -> Prop :=
| reached_here : reached c c
| reached_in v es x : getElements v = Some es -> In x es -> reached c x -> reached c v.

(** tables consist of rows, rows of cells, lists of list items (the types of the Go fields) *)
Definition is_item (v : val) : Prop :=
  match v with CalloutListElement _ _ _ | OrderedListElement _ _ _ | UnorderedListElement _ _ _ _ | LabeledListElement _ _ _ _ => True | _ => False end.
Definition typed (v : val) : Prop := forall w, reached w v ->
  match w with
  | Table _ _ rows _ => Forall (fun r => exists cs, r = TableRow cs) rows
  | TableRow cells => Forall (fun c => exists f es, c = TableCell f es) cells
  | ListBlock _ _ items => Forall is_item items
  | _ => True
  end.
