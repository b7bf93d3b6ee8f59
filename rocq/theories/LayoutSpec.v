(** C81: the HTML of a document with title, authors, revision and footnotes.  Nothing here depends on the renderer's templates. *)
From Coq Require Import List String Ascii Bool NArith ZArith.
From Verif Require Import GoBase Types Attrs Render FrameSpec TagSpec AuthorsSpec.
From Verif Require ConvertSpec.
Import ListNotations.
Local Open Scope string_scope.

(** ** footnotes: number and text, in one line *)
Inductive notes_rendered (E : renv) (k : nat) : list val -> rst -> list (Z * string) -> rst -> Prop :=
| no_notes : forall st, notes_rendered E k [] st [] st
| more_notes : forall n ref es l st raw st1 lines notes st2, all_rendered E k es st raw st1 -> (forall u, raw <> u ++ " ") ->
    ConvertSpec.stripped raw (String.concat LF lines) -> Forall ConvertSpec.no_lf lines -> notes_rendered E k l st1 notes st2 ->
    notes_rendered E k (Footnote n ref es :: l) st ((n, String.concat " " lines) :: notes) st2.
Definition note_html (e : Z * string) : string :=
  "<div class=""footnote"" id=""_footnotedef_" ++ itoa (fst e) ++ """>" ++ LF ++ "<a href=""#_footnoteref_" ++ itoa (fst e) ++ """>" ++ itoa (fst e) ++ "</a>. " ++ snd e ++ LF ++ "</div>" ++ LF.
Definition notes_html (xhtml : bool) (notes : list (Z * string)) : string :=
  match notes with
  | [] => ""
  | _ => "<div id=""footnotes"">" ++ LF ++ (if xhtml then "<hr/>" else "<hr>") ++ LF ++ String.concat "" (map note_html notes) ++ "</div>" ++ LF
  end.

(** ** authors (name and email) and revision *)
Definition authors_attributes (a : attributes) (authors : list (string * string)) : Prop :=
  (forall i name email, nth_error authors i = Some (name, email) -> mget a (numbered "author" (S i)) = Some (VStr name) /\ text_attribute a (numbered "email" (S i)) email) /\
  (forall s, mget a (numbered "author" (S (List.length authors))) <> Some (VStr s)).
Definition index_of (i : nat) : string := match i with O => "" | S _ => itoaN (N.of_nat (S i)) end.
Definition author_html (xhtml : bool) (i : nat) (p : string * string) : string :=
  let br := if xhtml then "<br/>" else "<br>" in
  (if String.eqb (fst p) "" then "" else "<span id=""author" ++ index_of i ++ """ class=""author"">" ++ fst p ++ "</span>" ++ br) ++
  (if String.eqb (snd p) "" then "" else LF ++ "<span id=""email" ++ index_of i ++ """ class=""email""><a href=""mailto:" ++ snd p ++ """>" ++ snd p ++ "</a></span>" ++ br).
Fixpoint authors_from (xhtml : bool) (i : nat) (l : list (string * string)) : list string := match l with [] => [] | p :: r => author_html xhtml i p :: authors_from xhtml (S i) r end.
(** [label]: before the number of the revision *)
Definition details_html (xhtml : bool) (authors : list (string * string)) (label number date remark : string) : string :=
  let shown := String.concat LF (authors_from xhtml 0 authors) in
  "<div class=""details"">" ++ (if String.eqb shown "" then "" else LF ++ shown) ++
  (if String.eqb number "" then "" else LF ++ "<span id=""revnumber"">" ++ (if String.eqb label "" then "" else label ++ " ") ++ number ++ (if String.eqb date "" then "" else ",") ++ "</span>") ++
  (if String.eqb date "" then "" else LF ++ "<span id=""revdate"">" ++ date ++ "</span>") ++
  (if String.eqb remark "" then "" else LF ++ (if xhtml then "<br/>" else "<br>") ++ "<span id=""revremark"">" ++ remark ++ "</span>") ++ LF ++ "</div>" ++ LF.
(** the details, by the attributes: none when the document has no authors *)
Inductive details (xhtml : bool) (a : attributes) : string -> Prop :=
| no_details : mget a "authors" = None -> details xhtml a ""
| some_details : forall authors label number date remark, mget a "authors" <> None -> authors_attributes a authors -> text_attribute a "version-label" label ->
    text_attribute a "revnumber" number -> text_attribute a "revdate" date -> text_attribute a "revremark" remark ->
    details xhtml a (details_html xhtml authors label number date remark).
Definition header_html (title details : string) : string := "<div id=""header"">" ++ LF ++ "<h1>" ++ title ++ "</h1>" ++ LF ++ details ++ "</div>" ++ LF.

(** ** the page *)
Definition layout_html (xhtml : bool) (description names : string) (css : list string) (title id doctype : string) (roles : list string) (header content : string)
  (noheader nofooter : bool) (revision updated : string) : string :=
  let e := if xhtml then "/>" else ">" in
  "<!DOCTYPE html>" ++ LF ++ (if xhtml then "<html xmlns=""https://www.w3.org/1999/xhtml"" lang=""en"">" else "<html lang=""en"">") ++ LF ++ "<head>" ++ LF ++
  "<meta charset=""UTF-8""" ++ e ++ LF ++ "<meta http-equiv=""X-UA-Compatible"" content=""IE=edge""" ++ e ++ LF ++
  "<meta name=""viewport"" content=""width=device-width, initial-scale=1.0""" ++ e ++ LF ++ "<meta name=""generator"" content=""libasciidoc""" ++ e ++ LF ++
  (if xhtml then "" else if String.eqb description "" then "" else "<meta name=""description"" content=""" ++ description ++ """" ++ e ++ LF) ++
  (if String.eqb names "" then "" else "<meta name=""author"" content=""" ++ names ++ """" ++ e ++ LF) ++
  String.concat "" (map (fun s => "<link type=""text/css"" rel=""stylesheet"" href=""" ++ s ++ """" ++ e ++ LF) css) ++
  "<title>" ++ title ++ "</title>" ++ LF ++ "</head>" ++ LF ++ "<body" ++ attr "id" (escaped id) ++ " class=""" ++ String.concat " " (doctype :: roles) ++ """>" ++ LF ++
  (if noheader then "" else header) ++ "<div id=""content"">" ++ LF ++ content ++ "</div>" ++ LF ++
  (if nofooter then "" else "<div id=""footer"">" ++ LF ++ "<div id=""footer-text"">" ++ LF ++ (if String.eqb revision "" then "" else "Version " ++ revision ++ "<br" ++ e ++ LF) ++
     "Last updated " ++ updated ++ LF ++ "</div>" ++ LF ++ "</div>" ++ LF) ++ "</body>" ++ LF ++ "</html>" ++ LF.
