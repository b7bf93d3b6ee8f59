(** Specification for C59: the ids and the links of an element, as they must be written in HTML. *)
From Verif Require Import GoBase Types Attrs TextSpec TextDocSpec.

(** the pieces of [l] are all in [out] *)
Definition part (m out : string) : Prop := exists a b, out = (a ++ m ++ b)%string.
Definition has (l : list string) (out : string) : Prop := Forall (fun m => part m out) l.

(** name="value".  Said of values that need no escaping: not empty, printable, without spaces or the characters that HTML escapes *)
Definition plain_value (s : string) : bool := negb (String.eqb s "") && all_kept s.
Definition quoted (name value : string) : string := (name ++ "=""" ++ value ++ """")%string.
Definition mark (name value : string) : list string := if plain_value value then [quoted name value] else [].
Definition attr_mark (name : string) (attrs : attributes) (key : string) : list string :=
  match mget attrs key with Some (VStr s) => mark name s | _ => [] end.
Definition id_mark (attrs : attributes) : list string := attr_mark "id" attrs "id".
(** an id or a link made of a prefix and of a value *)
Definition prefixed (name pre value : string) : list string := if plain_value value then [quoted name (pre ++ value)] else [].

Section Parts.
Variable low : string -> string.                       (* strings.ToLower *)
Variable t : bool -> val -> list string.               (* the marks of the parts *)
Variable w : bool -> val -> list string.               (* their words *)
Definition part_marks (emb : bool) (l : list val) : list string := flat_map (t emb) l.
Definition label_marks (emb : bool) (v : option val) : list string := match v with Some (VSlice l) => part_marks emb l | _ => [] end.
Definition title_marks (emb : bool) (attrs : attributes) : list string := label_marks emb (mget attrs "title").
(** a block of source code with a language may be highlighted, by another package *)
Definition source_marks (attrs : attributes) (es : list val) : list string :=
  match mget attrs "language" with None | Some (VStr EmptyString) => part_marks true es | _ => [] end.
Definition paragraph_marks (emb : bool) (attrs : attributes) (es : list val) : list string :=
  if emb || styled attrs ["pass"; "manpage"] then part_marks emb es else   (* neither id nor title *)
  if styled attrs ["source"] then id_mark attrs ++ title_marks emb attrs ++ source_marks attrs es else
  if styled attrs ["verse"] then id_mark attrs ++ title_marks emb attrs else   (* the content is shown as plain text *)
  if styled attrs admonition_styles then
    match flat_map (w emb) es, part_marks emb es with [], [] => [] | _, l => id_mark attrs ++ title_marks emb attrs ++ l end  (* nothing if there is no content *)
  else id_mark attrs ++ title_marks emb attrs ++ part_marks emb es.
Definition block_marks (emb : bool) (kind : string) (attrs : attributes) (es : list val) : list string :=
  if String.eqb kind "pass" then part_marks true es else   (* neither id nor title *)
  if String.eqb kind "listing" && styled attrs ["source"] then id_mark attrs ++ title_marks emb attrs ++ source_marks attrs es else
  let emb := emb || among ["fenced"; "listing"; "verse"] kind in
  id_mark attrs ++ title_marks emb attrs ++ part_marks emb es.
Definition item_marks (emb : bool) (es : list val) : list string := match es with [] => [] | e :: r => t true e ++ part_marks emb r end.
Definition items_marks (kind : string) (emb : bool) (l : list val) : list string :=
  flat_map (fun item => match item with
    | LabeledListElement _ term _ es => (if String.eqb kind "labeled_list" then part_marks emb term else []) ++ item_marks emb es
    | UnorderedListElement _ _ _ es | OrderedListElement _ _ es | CalloutListElement _ _ es => item_marks emb es
    | _ => []
    end) l.
(** paragraphs in cells are shown without their id and their title *)
Definition edge_cell_marks (emb : bool) (c : val) : list string := match c with TableCell _ [Paragraph _ es] => part_marks emb es | _ => [] end.
Definition cell_marks (emb : bool) (c : val) : list string :=
  match c with TableCell _ bs => flat_map (fun b => match b with Paragraph _ es => part_marks emb es | _ => t emb b end) bs | _ => [] end.
Definition table_marks (emb : bool) (attrs : attributes) (header : val) (rows : list val) (footer : val) : list string :=
  id_mark attrs ++ title_marks emb attrs ++
  match rows with
  | [] => []
  | _ => row_text (edge_cell_marks emb) header ++ flat_map (row_text (cell_marks emb)) rows ++ row_text (edge_cell_marks emb) footer
  end.
(** a footnote has the number [id]; its reference has the id "_footnoteref_[id]" and the link to the note, which has the id "_footnotedef_[id]" and the link
    back; further references to the same note have no id *)
Definition reference_marks (id : Z) (dup : bool) : list string :=
  if negb (Z.eqb id (-1)) && negb dup then [quoted "id" ("_footnoteref_" ++ itoa id); quoted "href" ("#_footnotedef_" ++ itoa id)]
  else if dup then [quoted "href" ("#_footnotedef_" ++ itoa id)] else [].
Definition note_marks (id : Z) : list string := [quoted "id" ("_footnotedef_" ++ itoa id); quoted "href" ("#_footnoteref_" ++ itoa id)].
End Parts.

(** the marks of an element, down to the given depth of nesting *)
Fixpoint marks (low : string -> string) (n : nat) (emb : bool) (v : val) : list string :=
  match n with
  | O => []
  | S n =>
    let t := marks low n in
    match v with
    | QuotedText _ es attrs => id_mark attrs ++ part_marks t emb es
    | InlinePassthrough kind es => if String.eqb kind "+" then [] else part_marks t emb es
    | IndexTerm es | Preamble es => part_marks t emb es
    | Footnote id _ es => note_marks id ++ part_marks t emb es
    | FootnoteReference id _ dup => reference_marks id dup
    | InlineLink attrs loc =>
        id_mark attrs ++ match loc with Location scheme (VStr path) => mark "href" (scheme ++ path) | _ => [] end ++ label_marks t emb (mget attrs "text")
    | InternalCrossReference (VStr id) _ => prefixed "href" "#" (low id)
    | ExternalCrossReference _ attrs => label_marks t emb (mget attrs "xrefLabel")
    | Icon _ attrs => id_mark attrs ++ attr_mark "href" attrs "link"
    | InlineImage _ attrs => attr_mark "href" attrs "link"
    | ImageBlock _ attrs => id_mark attrs ++ attr_mark "href" attrs "link" ++ title_marks t emb attrs
    | Paragraph attrs es => paragraph_marks t (text n) emb attrs es
    | DelimitedBlock kind attrs es => block_marks t emb kind attrs es
    | ListBlock kind attrs es => id_mark attrs ++ title_marks t emb attrs ++ items_marks t kind emb es
    | Table attrs header rows footer => table_marks t emb attrs header rows footer
    | Section _ attrs title es =>
        match mget attrs "id" with Some (VStr s) => if all_kept s then mark "id" (low s) else [] | _ => [] end ++   (* in lower case *)
        match title with Some l => part_marks t emb l | None => [] end ++ part_marks t emb es
    | _ => []
    end
  end.

(** ** the whole document *)
Definition header_marks (low : string -> string) (n : nat) (title : option (list val)) : list string :=
  match title with Some l => part_marks (marks low n) false l | None => [] end.
(** the NAME section of a manpage: its title and its first paragraph *)
Definition name_marks (low : string -> string) (n : nat) (name : val) : list string :=
  match name with
  | Section _ _ title (Paragraph _ es :: _) => header_marks low n title ++ part_marks (marks low n) false es
  | _ => []
  end.
(** [body]: the elements without the header; [notes]: the footnotes *)
Definition body_marks (low : string -> string) (n : nat) (manpage : bool) (body notes : list val) : list string :=
  part_marks (marks low n) false (if manpage then tl body else body) ++ part_marks (marks low n) false notes.
Definition first_marks (low : string -> string) (n : nat) (manpage : bool) (title : option (list val)) (body : list val) : list string :=
  if manpage then match body with name :: _ => name_marks low n name | [] => [] end else header_marks low n title.
(** with the surrounding page: the id of the document, then (if the attribute "noheader" is not set) the title or the NAME section *)
Definition page_marks (low : string -> string) (n : nat) (wrap manpage noheader : bool) (attrs : attributes) (title : option (list val)) (body notes : list val) : list string :=
  if wrap then id_mark attrs ++ (if noheader then [] else first_marks low n manpage title body) ++ body_marks low n manpage body notes
  else (if manpage then first_marks low n manpage title body else []) ++ body_marks low n manpage body notes.
