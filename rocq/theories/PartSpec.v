(** C80: the HTML of sections, preambles, icons and admonitions with icons.  Nothing here depends on the renderer's templates. *)
From Coq Require Import List String Ascii Bool NArith ZArith.
From Verif Require Import GoBase Types Render FrameSpec TagSpec.
Import ListNotations.
Local Open Scope string_scope.

(** a section: its heading is one level below its own; the content of a section of level 1 is in a division of its own *)
Definition heading_html (level : Z) (id number title : string) : string :=
  "<h" ++ itoa (level + 1) ++ " id=""" ++ id ++ """>" ++ (if String.eqb number "" then "" else number ++ ". ") ++ title ++ "</h" ++ itoa (level + 1) ++ ">" ++ LF.
Definition part_html (level : Z) (id : string) (roles : list string) (number title c : string) : string :=
  "<div class=""" ++ String.concat " " (("sect" ++ itoa level) :: roles) ++ """>" ++ LF ++ heading_html level id number title ++
  (if (level =? 1)%Z then "<div class=""sectionbody"">" ++ LF ++ c ++ "</div>" ++ LF else c) ++ "</div>" ++ LF.
(** the number of a section, by its id, if sections are numbered *)
Definition number_of (E : renv) (attrs : attributes) (number : string) : Prop :=
  (exists id, mget attrs "id" = Some (VStr id) /\ mget (e_numbers E) id = Some number) \/
  ((forall id, mget attrs "id" = Some (VStr id) -> mget (e_numbers E) id = None) /\ mget (e_numbers E) "" = None /\ number = "").
(** what precedes the first section, with a division of its own when the document has a header *)
Definition preamble_html (header : bool) (c : string) : string :=
  if header then "<div id=""preamble"">" ++ LF ++ "<div class=""sectionbody"">" ++ LF ++ c ++ "</div>" ++ LF ++ "</div>" ++ LF else c.

(** ** icons *)
Inductive icons := Texts | Fonts | Images.
Definition icons_attribute (document : attributes) (i : icons) : Prop :=
  match i with
  | Texts => mget document "icons" = None \/ mget document "icons" = Some (VStr "text")
  | Fonts => mget document "icons" = Some (VStr "font")
  | Images => mget document "icons" = Some (VStr "image") \/ mget document "icons" = Some (VStr "")
  end.
Definition optional (prefix s : string) : list string := if String.eqb s "" then [] else [prefix ++ s].
(** the shape of an icon: its size, rotation and flip *)
Definition shape (size rotate flip : string) : list string := optional "fa-" size ++ optional "fa-rotate-" rotate ++ optional "fa-flip-" flip.
Definition icon_html (xhtml : bool) (i : icons) (class src label width height title size rotate flip : string) : string :=
  match i with
  | Texts => "[" ++ label ++ "]"
  | Fonts => "<i class=""" ++ String.concat " " ("fa" :: ("fa-" ++ class) :: shape size rotate flip) ++ """" ++ attr "title" title ++ "></i>"
  | Images => "<img src=""" ++ src ++ """ alt=""" ++ label ++ """" ++ attr "width" width ++ attr "height" height ++ attr "title" title ++
              attr "class" (String.concat " " (shape size rotate flip)) ++ (if xhtml then "/>" else ">")
  end.
Definition linked (link window inner : string) : string :=
  if String.eqb link "" then inner else "<a class=""image"" href=""" ++ link ++ """" ++ attr "target" window ++ ">" ++ inner ++ "</a>".
Definition inline_icon_html (id role link window icon : string) : string :=
  "<span " ++ (if String.eqb id "" then "" else "id=""" ++ escaped id ++ """ ") ++ "class=""icon" ++ (if String.eqb role "" then "" else " " ++ role) ++ """>" ++ linked link window icon ++ "</span>".
(** the icon of an admonition *)
Definition admonition_icon_html (xhtml : bool) (i : icons) (class src caption : string) : string :=
  match i with
  | Texts => "<div class=""title"">" ++ caption ++ "</div>"
  | Fonts => "<i class=""fa icon-" ++ class ++ """ title=""" ++ caption ++ """></i>"
  | Images => "<img src=""" ++ src ++ """ alt=""" ++ caption ++ """" ++ (if xhtml then "/>" else ">")
  end.
Definition admonition_html (id class : string) (roles : list string) (title icon c : string) : string :=
  frame id ("admonitionblock " ++ class) roles ("<table>" ++ LF ++ "<tr>" ++ LF ++ "<td class=""icon"">" ++ LF ++ icon ++ LF ++
    "</td>" ++ LF ++ "<td class=""content"">" ++ LF ++ title_line "" title ++ c ++ "</td>" ++ LF ++ "</tr>" ++ LF ++ "</table>" ++ LF).
