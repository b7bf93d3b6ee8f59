(** Model of the collection of footnotes: pkg/types/types.go (Footnotes, SubstituteFootnotes) and
    pkg/parser/document_processing_collect_footnotes.go. *)
From Verif Require Import GoBase Types.

(** types.go:2171-2174 Footnotes: the last value of the sequence and the notes collected so far *)
Record footnotes := mkNotes { fn_seq : Z; fn_notes : list val }.
(** types.go:2177-2182 NewFootnotes *)
Definition newFootnotes : footnotes := mkNotes 0 [].

(** Footnote.Ref is a Go string; NewFootnote (types.go:2140-2154) puts "" when there is no reference *)
Definition ref_str (v : val) : string := match v with VStr s => s | _ => "" end.

(** types.go:2185-2192 Footnotes.indexOf *)
Fixpoint indexOf (notes : list val) (ref : string) : option Z :=
  match notes with
  | [] => None
  | Footnote id r _ :: rest => if String.eqb (ref_str r) ref then Some id else indexOf rest ref
  | _ :: rest => indexOf rest ref
  end.

(** types.go:2195-2197 InvalidFootnoteReference *)
Definition InvalidFootnoteReference : Z := (-1)%Z.

(** types.go:2200-2218 Footnotes.Reference; the Go int of the sequence is unbounded here *)
Definition reference (f : footnotes) (ref : val) (es : list val) : footnotes * val :=
  match es with
  | _ :: _ =>
      let id := (fn_seq f + 1)%Z in
      (mkNotes id (fn_notes f ++ [Footnote id ref es]), FootnoteReference id ref false)
  | [] =>
      match indexOf (fn_notes f) (ref_str ref) with
      | Some id => (f, FootnoteReference id ref true)
      | None => (f, FootnoteReference InvalidFootnoteReference ref false)
      end
  end.

(** the loop shared by Paragraph.SubstituteFootnotes (types.go:1828-1834), Section.SubstituteFootnotes
    (2586-2592, on the title) and LabeledListElement.SubstituteFootnotes (1713-1717, on the term) *)
Fixpoint sub_inline (f : footnotes) (es : list val) : footnotes * list val :=
  match es with
  | [] => (f, [])
  | e :: r =>
      let (f1, e') := match e with Footnote _ ref c => reference f ref c | _ => (f, e) end in
      let (f2, r') := sub_inline f1 r in (f2, e' :: r')
  end.

(** The implementations of WithFootnotes.SubstituteFootnotes (types.go:975, 1149, 1282, 1448, 1712, 1828, 2586);
    an element of any other type is left alone by the callers (types.go:977, 1151, 1284, 1450, 1719 and
    document_processing_collect_footnotes.go:34) *)
Fixpoint substituteFootnotes (f : footnotes) (v : val) {struct v} : footnotes * val :=
  let fix loop (f : footnotes) (l : list val) {struct l} : footnotes * list val :=
    match l with
    | [] => (f, [])
    | e :: r => let (f1, e') := substituteFootnotes f e in let (f2, r') := loop f1 r in (f2, e' :: r')
    end in
  match v with
  | ListElements es => let (f', es') := loop f es in (f', ListElements es')
  | CalloutListElement r a es => let (f', es') := loop f es in (f', CalloutListElement r a es')
  | OrderedListElement s a es => let (f', es') := loop f es in (f', OrderedListElement s a es')
  | UnorderedListElement b c a es => let (f', es') := loop f es in (f', UnorderedListElement b c a es')
  | LabeledListElement s t a es =>
      let (f1, t') := sub_inline f t in
      let (f2, es') := loop f1 es in (f2, LabeledListElement s t' a es')
  | Paragraph a es => let (f', es') := sub_inline f es in (f', Paragraph a es')
  | Section l a (Some t) es => let (f', t') := sub_inline f t in (f', Section l a (Some t') es)
  | _ => (f, v)
  end.
Fixpoint sub_all (f : footnotes) (l : list val) : footnotes * list val :=
  match l with
  | [] => (f, [])
  | e :: r => let (f1, e') := substituteFootnotes f e in let (f2, r') := sub_all f1 r in (f2, e' :: r')
  end.

(** A fragment of the document: its elements or its error (types.go:62-66 DocumentFragment) *)
Definition fragment := (list val + string)%type.

(** document_processing_collect_footnotes.go:25-39 collectFootnotes *)
Definition collectFootnotes (f : footnotes) (fr : fragment) : footnotes * fragment :=
  match fr with
  | inr _ => (f, fr)
  | inl es => let (f', es') := sub_all f es in (f', inl es')
  end.
(** document_processing_collect_footnotes.go:8-23 CollectFootnotes, run to its end on the fragments of a
    document, in order *)
Fixpoint collectStage (f : footnotes) (frs : list fragment) : footnotes * list fragment :=
  match frs with
  | [] => (f, [])
  | fr :: r =>
      let (f1, fr') := collectFootnotes f fr in
      let (f2, r') := collectStage f1 r in (f2, fr' :: r')
  end.
