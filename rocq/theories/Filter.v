(** Model of pkg/parser/document_processing_filter_elements.go *)
From Verif Require Import GoBase Types Elements Footnotes.

(** document_processing_filter_elements.go:94-115: the matchers; all three are used at every level (43-52, 93) *)
Definition matched (v : val) : bool :=
  match v with
  | BlankLine | SinglelineComment _ => true
  | DelimitedBlock k _ _ => String.eqb k "comment"
  | _ => false
  end.

(** types.go:369-373 DocumentHeader.IsEmpty, the only types.Filterable *)
Definition isEmpty (v : val) : bool :=
  match v with DocumentHeader None [] [] => true | _ => false end.

(** document_processing_filter_elements.go:41-92 doFilterOut: the treatment of an element that is kept
    ([filterElem], lines 53-78) and the loop ([filterElems]).  A nil result and an empty one (86-88) are the same here. *)
Fixpoint filterElem (v : val) : result val :=
  let fix loop (l : list val) : result (list val) :=
    match l with
    | [] => Ok []
    | e :: r =>
        if matched e then loop r
        else do e' <- filterElem e;
             do r' <- loop r;
             Ok (if isEmpty e' then r' else e' :: r')
    end in
  let fix items (l : list val) : result (list val) :=
    match l with
    | [] => Ok []
    | e :: r => do e' <- filterElem e; do r' <- items r; Ok (e' :: r')
    end in
  match v with
  (* 54-59 *)
  | DelimitedBlock k a es => do es' <- loop es; Ok (DelimitedBlock k a es')
  (* 60-69 *)
  | ListBlock k a es => do es' <- items es; Ok (ListBlock k a es')
  (* 70-77 *)
  | DocumentHeader _ _ es | ListElements es | CalloutListElement _ _ es | OrderedListElement _ _ es
  | UnorderedListElement _ _ _ es | LabeledListElement _ _ _ es | Paragraph _ es | Section _ _ _ es
  | QuotedText _ es _ | Table _ _ es _ | TableRow es | TableCell _ es => do es' <- loop es; setElements v es'
  | _ => Ok v
  end.
Fixpoint filterElems (l : list val) : result (list val) :=
  match l with
  | [] => Ok []
  | e :: r =>
      if matched e then filterElems r
      else do e' <- filterElem e;
           do r' <- filterElems r;
           Ok (if isEmpty e' then r' else e' :: r')
  end.

(** document_processing_filter_elements.go:29-39 filterOut *)
Definition filterOut (f : fragment) : fragment :=
  match f with
  | inr e => inr e
  | inl es => match filterElems es with Ok es' => inl es' | Err e => inr e | Panic e => inr e end
  end.
(** document_processing_filter_elements.go:12-27 FilterOut, on all the fragments *)
Definition filterStage (fs : list fragment) : list fragment := map filterOut fs.
