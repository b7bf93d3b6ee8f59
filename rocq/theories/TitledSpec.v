(** What the property about documents with a title, and about whole pages (C72), says. *)
From Coq Require Import List String NArith ZArith Bool.
From Verif Require Import GoBase Utf8 Types Attrs IdsSpec Peg PegBlockSpec PegInlineSpec ConvertSpec SectionDocSpec.
Import ListNotations.
Local Open Scope list_scope.

(** * The text
    The title of the document: a line that starts with one equal sign and blanks.  It is followed by an empty line, or
    by nothing (otherwise the next line is about the authors) *)
Section Titled.
  Variables letter number white : rune -> bool.
  Variable macro : list rune -> bool.
  Inductive titled : list rune -> list rune -> list part -> Prop :=
  | titled_document : forall ws t k e tail ps, ws <> [] -> blanks ws -> title t ->
      title_text letter number macro (t ++ repeat 32%N k) -> eol e tail ->
      (tail = [] \/ begins [10%N] tail = true \/ begins [13%N; 10%N] tail = true) ->
      manuscript letter number white macro false tail ps ->
      titled (61%N :: ws ++ t ++ repeat 32%N k ++ e ++ tail) t ps.
End Titled.

(** * The HTML
    What comes before the first section is the preamble: it is marked if there is any *)
Definition is_text (e : entry) : Prop := match e with Text _ => True | _ => False end.
Definition preamble_html (content : string) : string :=
  if String.eqb content "" then ""
  else ("<div id=""preamble"">" ++ LF ++ "<div class=""sectionbody"">" ++ LF ++ content ++ "</div>" ++ LF ++ "</div>" ++ LF)%string.
Inductive contents (lower : string -> string) : list entry -> string -> Prop :=
| con_plain : forall es h, Forall is_text es -> nested lower 0 es h -> contents lower es h
| con_sections : forall es l id t es' p h, Forall is_text es -> nested lower 0 es p -> nested lower 0 (Head l id t :: es') h ->
    contents lower (es ++ Head l id t :: es') (preamble_html p ++ h)%string.
Definition title_html (t : list rune) : string :=
  ("<div id=""header"">" ++ LF ++ "<h1>" ++ encode_runes t ++ "</h1>" ++ LF ++ "</div>" ++ LF)%string.
(** the page around it; [slash]: the end of an empty tag.  The attributes of the configuration say what it shows: the description is only in
    HTML, "noheader" leaves the title out, "nofooter" the last lines *)
Definition is_set (a : attributes) (name : string) : bool := match mget a name with Some _ => true | None => false end.
Definition setting (a : attributes) (name : string) : string := match mget a name with Some (Types.VStr s) => s | _ => "" end.
Definition page (xhtml : bool) (a : attributes) (css : list string) (updated title header content : string) : string :=
  let slash := if xhtml then "/>" else ">" in
  let lines (l : list string) : string := sconcat (map (fun s => s ++ LF)%string l) in
  let when (b : bool) (s : string) : string := if b then s else "" in
  (lines ["<!DOCTYPE html>"; (if xhtml then "<html xmlns=""https://www.w3.org/1999/xhtml"" lang=""en"">" else "<html lang=""en"">"); "<head>";
     "<meta charset=""UTF-8""" ++ slash; "<meta http-equiv=""X-UA-Compatible"" content=""IE=edge""" ++ slash;
     "<meta name=""viewport"" content=""width=device-width, initial-scale=1.0""" ++ slash;
     "<meta name=""generator"" content=""libasciidoc""" ++ slash]
   ++ when (negb xhtml && negb (String.eqb (setting a "description") "")) (lines ["<meta name=""description"" content=""" ++ setting a "description" ++ """" ++ slash])
   ++ lines (map (fun s => "<link type=""text/css"" rel=""stylesheet"" href=""" ++ s ++ """" ++ slash) css)
   ++ lines ["<title>" ++ title ++ "</title>"; "</head>"; "<body class=""article"">"]
   ++ when (negb (is_set a "noheader")) header
   ++ lines ["<div id=""content"">"; content ++ "</div>"]
   ++ when (negb (is_set a "nofooter"))
        (lines ["<div id=""footer"">"; "<div id=""footer-text"">"]
         ++ when (negb (String.eqb (setting a "revnumber") "")) (lines ["Version " ++ setting a "revnumber" ++ "<br" ++ slash])
         ++ lines ["Last updated " ++ updated; "</div>"; "</div>"])
   ++ lines ["</body>"; "</html>"])%string.
(** the attributes that would change this, and are not set; those that are texts *)
Definition page_names : list string := section_names ++ ["authors"]%string.
Definition page_texts (a : attributes) : Prop := forall name, In name ["description"; "revnumber"]%string ->
  match mget a name with Some (Types.VStr _) | None => True | _ => False end.
