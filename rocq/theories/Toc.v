(** Model of the table of contents: types.go:236-268 TableOfContents.Add and its types.
    Title and Number of a ToCSection are filled in during rendering and start empty: they are
    not represented. *)
From Verif Require Import GoBase.

(** types.go:227-233 ToCSection *)
Inductive tocsec : Type := TocSec (id : string) (level : Z) (sub : list tocsec).
Definition toc_id (t : tocsec) := let (i, _, _) := t in i.
Definition toc_level (t : tocsec) := let (_, l, _) := t in l.
Definition toc_sub (t : tocsec) := let (_, _, c) := t in c.

(** types.go:221-224 TableOfContents *)
Record toc := mkToc { toc_max : Z; toc_sections : list tocsec }.

(** types.go:213-218 NewTableOfContents *)
Definition newToc (maxDepth : Z) : toc := mkToc maxDepth [].

(** the search loop of Add: descend through last children until there is no child or the
    first child has the level of the new section, then append.  The Go code moves a pointer to
    [parent.Children[len-1]]; here the path is rebuilt. *)
Fixpoint toc_insert (ts : tocsec) (parent : tocsec) {struct parent} : tocsec :=
  match parent with
  | TocSec i l sub =>
      match sub with
      | [] => TocSec i l [ts]
      | first :: _ =>
          if (toc_level first =? toc_level ts)%Z then TocSec i l (sub ++ [ts])
          else TocSec i l
                 ((fix on_last (l : list tocsec) : list tocsec :=
                     match l with
                     | [] => []
                     | [x] => [toc_insert ts x]
                     | x :: r => x :: on_last r
                     end) sub)
      end
  end.
Fixpoint toc_on_last (ts : tocsec) (l : list tocsec) : list tocsec :=
  match l with
  | [] => []
  | [x] => [toc_insert ts x]
  | x :: r => x :: toc_on_last ts r
  end.

(** types.go:236-268 TableOfContents.Add for a section with the given id and level *)
Definition tocAdd (t : toc) (id : string) (level : Z) : toc :=
  if (toc_max t <? level)%Z then t
  else
    let ts := TocSec id level [] in
    match toc_sections t with
    | [] => mkToc (toc_max t) [ts]
    | first :: _ =>
        if (level =? toc_level first)%Z
        then mkToc (toc_max t) (toc_sections t ++ [ts])
        else mkToc (toc_max t) (toc_on_last ts (toc_sections t))
    end.
