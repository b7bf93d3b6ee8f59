(** Model of the parts of the HTML rendering that decide the targets of the table of contents:
    pkg/renderer/sgml/table_of_contents.go, section.go, element_id.go and the HTML templates. *)
From Verif Require Import GoBase Types Attrs Toc.

(** text/template HTMLEscapeString of the Go standard library, byte by byte *)
Definition html_escape_byte (c : ascii) : string :=
  if Ascii.eqb c (chr 34) then "&#34;" else
  if Ascii.eqb c (chr 39) then "&#39;" else
  if Ascii.eqb c "&" then "&amp;" else
  if Ascii.eqb c "<" then "&lt;" else
  if Ascii.eqb c ">" then "&gt;" else
  if Ascii.eqb c (chr 0) then String (chr 239) (String (chr 191) (String (chr 189) EmptyString))
  else String c EmptyString.
Fixpoint htmlEscapeString (s : string) : string :=
  match s with EmptyString => EmptyString | String c r => (html_escape_byte c ++ htmlEscapeString r)%string end.

(** element_id.go:9-14 renderElementID *)
Definition renderElementID (attrs : attributes) : string :=
  match mget attrs "id" with Some (VStr id) => htmlEscapeString id | _ => "" end.

Section Lower.
  (** strings.ToLower, left abstract (Unicode tables) *)
  Variable toLower : string -> string.

  (** section.go:12-44 renderSection, section.go:46-71 renderSectionTitle and the template
      html5/section.go:10 sectionTitleTmpl: the id attributes of the headings of an element, in the order in
      which they are written (renderElements, elements.go:11-22).  Blocks other than sections contain none. *)
  Fixpoint headings (v : val) : list string :=
    match v with
    | Section _ attrs _ els => toLower (renderElementID attrs) :: flat_map headings els
    | _ => []
    end.

  (** table_of_contents.go:117-151 and the template html5/table_of_contents.go:11 tocEntryTmpl: the targets of
      the links, in order *)
  Fixpoint toc_links (t : tocsec) : list string :=
    match t with TocSec id _ sub => toLower id :: flat_map toc_links sub end.

  (** sgml.go:244-273 splitAndRenderForManpage and the template html5/manpage.go:6: the first section of a manpage
      gets the fixed id _name *)
  Definition manpage_headings (body : list val) : list string :=
    match body with
    | Section _ _ _ _ :: rest => "_name" :: flat_map headings rest
    | _ => []
    end.
End Lower.
