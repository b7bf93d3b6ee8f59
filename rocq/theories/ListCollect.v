(** Model of types.NewListElements (pkg/types/types.go): the elements the grammar finds in a list (parser.peg:1470-1502: items, block
    attributes, continuations, comments and lines of text) are gathered into list items and continuations. *)
From Verif Require Import GoBase Types Attrs Elements Footnotes Lists.

(** the implementations of SetAttributes for list items: types.go:1116-1118 CalloutListElement, 1266-1276 OrderedListElement,
    1433-1443 UnorderedListElement, 1697-1707 LabeledListElement *)
Definition item_set_attributes (e : val) (a : attributes) : val :=
  match e with
  | CalloutListElement _ _ _ => withAttrs e a
  | _ => withAttrs e (toAttributesWithMapping a [(AttrPositional1, "style")])
  end.

(** types.go:1029-1034 ListContinuation.AddElement, and AddElement of the items (types.go:1123, 1249, 1397, 1661);
    [None]: the last element is not a WithElementAddition.  In a continuation the grammar puts paragraphs, delimited blocks, tables,
    images, thematic breaks, comments, blank lines and attribute declarations (parser.peg:1538-1557): of these only paragraphs
    (types.go:1768) accept elements. *)
Definition addElement (e x : val) : result val :=
  match e with
  | ListContinuation off c =>
      match c with
      | Paragraph a es => do p <- paragraph_add a es x; Ok (ListContinuation off p)
      | _ => Err "unable to attach element in a list"
      end
  | CalloutListElement _ _ _ | OrderedListElement _ _ _ | UnorderedListElement _ _ _ _ | LabeledListElement _ _ _ _ =>
      addToListElement e x
  | _ => Err "unable to attach element in a list"
  end.

(** types.go:893-938 NewListElements, the loop; [attrs]: the variable of that name, [None] for nil; [done]: elmts, the last one first *)
Fixpoint newListElements_loop (attrs : option attributes) (done es : list val) : result (list val) :=
  match es with
  | [] => Ok (List.rev done)
  | e :: r =>
      match e with
      (* 903-904 *)
      | VAttributes a => newListElements_loop (Some (aaddall (match attrs with Some b => b | None => [] end) a)) done r
      (* 905-910 *)
      | CalloutListElement _ _ _ | OrderedListElement _ _ _ | UnorderedListElement _ _ _ _ | LabeledListElement _ _ _ _ =>
          newListElements_loop None (match attrs with Some a => item_set_attributes e a | None => e end :: done) r
      (* 911-922 *)
      | RawLine _ | SinglelineComment _ =>
          match done with
          | [] => newListElements_loop attrs done r
          | last :: d => do last' <- addElement last e; newListElements_loop attrs (last' :: d) r
          end
      (* 923-927 *)
      | ListContinuation _ VNil => newListElements_loop None done r
      | ListContinuation _ _ => newListElements_loop None (e :: done) r
      (* 928-930 *)
      | _ => newListElements_loop None (e :: done) r
      end
  end.
(** types.go:893-938 NewListElements *)
Definition newListElements (es : list val) : result (list val) := newListElements_loop None [] es.
