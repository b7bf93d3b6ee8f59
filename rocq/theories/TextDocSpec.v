(** Specification for C57: the text of an element, as the list of its words in reading order. *)
From Verif Require Import GoBase Types Attrs TextSpec.

Definition among (l : list string) (s : string) : bool := existsb (String.eqb s) l.

Section Parts.
(** the text of the parts.  The flag says that the part is inside of a verbatim block or is the first element of the item of a list:
    paragraphs there are shown without their title *)
Variable t : bool -> val -> list string.
Definition texts (emb : bool) (l : list val) : list string := flat_map (t emb) l.
(** a title or a label *)
Definition label_text (emb : bool) (v : option val) : list string :=
  match v with Some (VStr s) => words s | Some (VSlice l) => texts emb l | _ => [] end.
Definition title_text (emb : bool) (attrs : attributes) : list string := label_text emb (mget attrs "title").
(** the author and the work of a quotation; the work is not shown if the author is given as an empty string *)
Definition attribution_text (attrs : attributes) : list string :=
  match mget attrs "quoteAuthor", mget attrs "quoteTitle" with
  | Some (VStr a), Some (VStr w) => if String.eqb a "" then [] else words a ++ words w
  | Some (VStr a), _ => words a
  | _, Some (VStr w) => words w
  | _, _ => []
  end.
(** a block of source code with a language may be highlighted, by another package *)
Definition source_text (attrs : attributes) (es : list val) : list string :=
  match mget attrs "language" with None | Some (VStr EmptyString) => texts true es | _ => [] end.
Definition styled (attrs : attributes) (l : list string) : bool := match mget attrs "style" with Some (VStr s) => among l s | _ => false end.
Definition admonition_styles : list string := ["TIP"; "NOTE"; "IMPORTANT"; "WARNING"; "CAUTION"].

Definition paragraph_text (emb : bool) (attrs : attributes) (es : list val) : list string :=
  if emb || styled attrs ["pass"; "manpage"] then texts emb es else   (* no title *)
  if styled attrs ["source"] then title_text emb attrs ++ source_text attrs es else
  if styled attrs ["quote"; "verse"] then title_text emb attrs ++ texts emb es ++ attribution_text attrs else
  if styled attrs admonition_styles then match texts emb es with [] => [] | l => title_text emb attrs ++ l end (* nothing if there is no content *)
  else title_text emb attrs ++ texts emb es.
Definition block_text (emb : bool) (kind : string) (attrs : attributes) (es : list val) : list string :=
  if String.eqb kind "pass" then texts true es else   (* no title *)
  if String.eqb kind "listing" && styled attrs ["source"] then title_text emb attrs ++ source_text attrs es else
  let emb := emb || among ["fenced"; "listing"; "verse"] kind in
  title_text emb attrs ++ texts emb es ++ (if among ["quote"; "markdown-quote"; "verse"] kind then attribution_text attrs else []).

Definition item_text (emb : bool) (es : list val) : list string := match es with [] => [] | e :: r => t true e ++ texts emb r end.
Definition items_text (kind : string) (emb : bool) (l : list val) : list string :=
  flat_map (fun item => match item with
    | LabeledListElement _ term _ es => (if String.eqb kind "labeled_list" then texts emb term else []) ++ item_text emb es
    | UnorderedListElement _ _ _ es | OrderedListElement _ _ es | CalloutListElement _ _ es => item_text emb es
    | _ => []
    end) l.

(** a cell of the header or of the footer has one paragraph; paragraphs in cells are shown without their title *)
Definition edge_cell_text (emb : bool) (c : val) : list string := match c with TableCell _ [Paragraph _ es] => texts emb es | _ => [] end.
Definition cell_text (emb : bool) (c : val) : list string :=
  match c with TableCell _ bs => flat_map (fun b => match b with Paragraph _ es => texts emb es | _ => t emb b end) bs | _ => [] end.
Definition row_text (cell : val -> list string) (row : val) : list string := match row with TableRow cells => flat_map cell cells | _ => [] end.
(** without rows in its body, a table loses its header and its footer *)
Definition table_text (emb : bool) (attrs : attributes) (header : val) (rows : list val) (footer : val) : list string :=
  title_text emb attrs ++
  match rows with
  | [] => []
  | _ => row_text (edge_cell_text emb) header ++ flat_map (row_text (cell_text emb)) rows ++ row_text (edge_cell_text emb) footer
  end.
End Parts.

(** the text of an element, down to the given depth of nesting *)
Fixpoint text (n : nat) (emb : bool) (v : val) : list string :=
  match n with
  | O => []
  | S n =>
    let t := text n in
    match v with
    | StringElement s => words s
    | QuotedText _ es _ | InlinePassthrough _ es | IndexTerm es | Preamble es | Footnote _ _ es => texts t emb es
    | InlineLink attrs loc =>
        match mget attrs "text", loc with
        | None, Location _ (VStr path) => words path
        | l, _ => label_text t emb l
        end
    | InternalCrossReference _ (VStr label) => words label
    | ExternalCrossReference _ attrs => label_text t emb (mget attrs "xrefLabel")
    | InlineButton attrs => match mget attrs "label" with Some (VStr s) => words s | _ => [] end
    | InlineMenu path => flat_map words path
    | ImageBlock _ attrs => title_text t emb attrs
    | Paragraph attrs es => paragraph_text t emb attrs es
    | DelimitedBlock kind attrs es => block_text t emb kind attrs es
    | ListBlock kind attrs es => title_text t emb attrs ++ items_text t kind emb es
    | Table attrs header rows footer => table_text t emb attrs header rows footer
    | Section _ _ title es => match title with Some l => texts t emb l | None => [] end ++ texts t emb es
    | _ => []
    end
  end.

(** the whole document *)
Definition title_words (n : nat) (title : option (list val)) : list string := match title with Some l => texts (text n) false l | None => [] end.
(** the NAME section of a manpage: its title and its first paragraph *)
Definition name_words (n : nat) (name : val) : list string :=
  match name with
  | Section _ _ title (Paragraph _ es :: _) => title_words n title ++ texts (text n) false es
  | _ => []
  end.
(** the text of the elements, or of a manpage without its NAME section; [body]: the elements without the header *)
Definition body_words (n : nat) (manpage : bool) (body notes : list val) : list string :=
  texts (text n) false (if manpage then tl body else body) ++ texts (text n) false notes.
Definition first_words (n : nat) (manpage : bool) (title : option (list val)) (body : list val) : list string :=
  if manpage then match body with name :: _ => name_words n name | [] => [] end else title_words n title.
(** with the surrounding page: the title in the head of the page, then (if the attribute "noheader" is not set) the title again, or
    the NAME section of a manpage, then the rest *)
Definition page_words (n : nat) (wrap manpage noheader : bool) (title : option (list val)) (body notes : list val) : list string :=
  if wrap then title_words n title ++ (if noheader then [] else first_words n manpage title body) ++ body_words n manpage body notes
  else (if manpage then first_words n manpage title body else []) ++ body_words n manpage body notes.
