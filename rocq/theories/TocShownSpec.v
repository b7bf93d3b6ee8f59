(** Specification for C60: what the table of contents shows. *)
From Verif Require Import GoBase Types Attrs Toc TextSpec TextDocSpec MarkSpec.

Section Entries.
Variable refs : list (string * val).        (* the title of each element that has an id *)
Variable numbers : list (string * string).  (* the numbers of the sections, when they are numbered *)
Variable n : nat.                           (* how deep the titles are read *)
Definition entry_title (id : string) : list string :=
  match mget refs id with Some (VSlice l) => texts (text n) false l | Some v => text n false v | None => [] end.
(** the words of an entry: the number and the title of its section, then its sub-entries *)
Fixpoint entry_words (t : tocsec) : list string :=
  match t with
  | TocSec id _ sub => (match mget numbers id with Some number => words number | None => [] end) ++ entry_title id ++ flat_map entry_words sub
  end.
(** the heading of the table; [title]: the attribute "toc-title" *)
Definition toc_heading (title : option val) : list string :=
  match title with
  | None => ["Table"; "of"; "Contents"]
  | Some (VStr s) => words s
  | Some (VSlice l) => texts (text n) false l
  | Some v => text n false v
  end.
(** nothing is shown when no section has an entry *)
Definition toc_words (title : option val) (entries : list tocsec) : list string :=
  match entries with [] => [] | _ => toc_heading title ++ flat_map entry_words entries end.
End Entries.

(** the links of an entry: to its section, then those of its sub-entries *)
Fixpoint entry_links (low : string -> string) (t : tocsec) : list string :=
  match t with TocSec id _ sub => prefixed "href" "#" (low id) ++ flat_map (entry_links low) sub end.

(** the page, where [inner] are the words of the body *)
Definition page_around (n : nat) (wrap manpage noheader : bool) (title : option (list val)) (body : list val) (inner : list string) : list string :=
  if wrap then title_words n title ++ (if noheader then [] else first_words n manpage title body) ++ inner
  else (if manpage then first_words n manpage title body else []) ++ inner.
