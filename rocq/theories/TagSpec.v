(** C77: the HTML of inline elements.  Nothing here depends on the renderer's templates. *)
From Coq Require Import List String Ascii Bool NArith ZArith.
From Verif Require Import GoBase Types FrameSpec.
Import ListNotations.
Local Open Scope string_scope.

(** an attribute of a tag, not written when it is empty *)
Definition attr (name value : string) : string := if String.eqb value "" then "" else " " ++ name ++ "=""" ++ value ++ """".
(** the tag of each kind of quoted text *)
Definition quote_tags : list (string * string) :=
  [("*", "strong"); ("**", "strong"); ("_", "em"); ("__", "em"); ("#", "mark"); ("##", "mark"); ("`", "code"); ("``", "code"); ("~", "sub"); ("^", "sup")].
(** marked text with roles is text with these roles, not marked *)
Definition tag_of (tag class : string) : string := if String.eqb tag "mark" && negb (String.eqb class "") then "span" else tag.
Definition quoted_html (tag id : string) (roles : list string) (c : string) : string :=
  let class := String.concat " " roles in let tag := tag_of tag class in
  "<" ++ tag ++ attr "id" (escaped id) ++ attr "class" class ++ ">" ++ c ++ "</" ++ tag ++ ">".
Definition link_html (id url : string) (classes : list string) (target : string) (noopener : bool) (text : string) : string :=
  "<a" ++ attr "id" id ++ attr "href" url ++ attr "class" (String.concat " " classes) ++ attr "target" target ++
  (if noopener then " rel=""noopener""" else "") ++ ">" ++ text ++ "</a>".
(** an image, in a link if it has one *)
Definition img_html (xhtml : bool) (link src alt width height title : string) : string :=
  (if String.eqb link "" then "" else "<a class=""image"" href=""" ++ link ++ """>") ++ "<img src=""" ++ src ++ """ alt=""" ++ alt ++ """" ++
  attr "width" width ++ attr "height" height ++ attr "title" title ++ (if xhtml then "/>" else ">") ++ (if String.eqb link "" then "" else "</a>").
Definition inline_image_html (xhtml : bool) (classes : list string) (link src alt width height title : string) : string :=
  "<span class=""" ++ String.concat " " ("image" :: classes) ++ """>" ++ img_html xhtml link src alt width height title ++ "</span>".
(** an image block, with its label and title below *)
Definition block_image_html (xhtml : bool) (id : string) (classes : list string) (link src alt width height label title : string) : string :=
  frame id "imageblock" classes (content (img_html xhtml link src alt width height "" ++ LF) ++ title_line label title).
(** the classes of an image: where it floats, how it is aligned, its roles *)
Definition image_classes (float align : string) (roles : list string) : list string :=
  ((if String.eqb float "" then [] else [float]) ++ (if String.eqb align "" then [] else [("text-" ++ align)%string]) ++ roles)%list.
(** a menu: one item, or a first one, those below it, and the last one *)
Definition menu_html (path : list string) : string :=
  match path with
  | [] => ""
  | [item] => "<b class=""menuref"">" ++ item ++ "</b>"
  | first :: below =>
      "<span class=""menuseq""><b class=""menu"">" ++ first ++ "</b>" ++
      String.concat "" (map (fun item => "&#160;<b class=""caret"">&#8250;</b> <b class=""submenu"">" ++ item ++ "</b>") (removelast below)) ++
      "&#160;<b class=""caret"">&#8250;</b> <b class=""menuitem"">" ++ last below "" ++ "</b></span>"
  end.
(** a footnote where it is written, where it is used again, and where it is unknown *)
Definition footnote_html (n : string) (name : string) : string :=
  "<sup class=""footnote""" ++ (if String.eqb name "" then "" else " id=""_footnote_" ++ name ++ """") ++ ">[<a id=""_footnoteref_" ++ n ++
  """ class=""footnote"" href=""#_footnotedef_" ++ n ++ """ title=""View footnote."">" ++ n ++ "</a>]</sup>".
Definition footnote_again_html (n : string) : string :=
  "<sup class=""footnoteref"">[<a class=""footnote"" href=""#_footnotedef_" ++ n ++ """ title=""View footnote."">" ++ n ++ "</a>]</sup>".
Definition footnote_unknown_html (name : string) : string :=
  "<sup class=""footnoteref red"" title=""Unresolved footnote reference."">[" ++ name ++ "]</sup>".
