(** Model of pkg/parser/document_processing_arrange_lists.go and of the list types of pkg/types/types.go:
    grouping a run of list elements into nested lists.

    In Go the stack holds pointers to the lists that are open; a list is appended to the last item of its parent when it
    is pushed.  Here an open list is appended to that item when it is closed.  Nothing else is appended to the item in
    between (adding to a list closes the lists above it first), so the result is the same. *)
From Verif Require Import GoBase Types Attrs Elements Footnotes.

(** an open list: types.go:792-796 List, never empty (types.go:995-1013 NewList); [ol_last]: its last item *)
Record olist := mkOL { ol_kind : string; ol_attrs : attributes; ol_init : list val; ol_last : val }.
Definition ol_first (l : olist) : val := match ol_init l with [] => ol_last l | x :: _ => x end.
Definition to_block (l : olist) : val := ListBlock (ol_kind l) (ol_attrs l) (ol_init l ++ [ol_last l]).

(** the implementations of ListElement.ListKind (types.go:1100, 1224, 1368, 1656); [None]: not a types.ListElement *)
Definition listKind (v : val) : option string :=
  match v with
  | CalloutListElement _ _ _ => Some "callout_list"
  | OrderedListElement _ _ _ => Some "ordered_list"
  | UnorderedListElement _ _ _ _ => Some "unordered_list"
  | LabeledListElement _ _ _ _ => Some "labeled_list"
  | _ => None
  end.

(** the implementations of ListElement.matchesStyle (types.go:1090-1093, 1212-1217, 1347-1353, 1644-1649) *)
Definition matchesStyle (e other : val) : bool :=
  match e, other with
  | CalloutListElement _ _ _, CalloutListElement _ _ _ => true
  | OrderedListElement s _ _, OrderedListElement s' _ _ => String.eqb s s'
  | UnorderedListElement b _ _ _, UnorderedListElement b' _ _ _ => String.eqb b b'
  | LabeledListElement s _ _ _, LabeledListElement s' _ _ _ => String.eqb s s'
  | _, _ => false
  end.

(** types.go:829-840 List.CanAddElement *)
Definition canAdd (l : olist) (e : val) : bool :=
  match e with
  | ListContinuation _ _ => true
  | _ => match listKind e with
         | Some k => String.eqb k (ol_kind l) && matchesStyle e (ol_last l)
         | None => false
         end
  end.

(** types.go:1493-1506 UnorderedListElementBulletStyle.next *)
Definition bullet_next (s : string) : string :=
  if String.eqb s "dash" then "1asterisk"
  else if String.eqb s "1asterisk" then "2asterisks"
  else if String.eqb s "2asterisks" then "3asterisks"
  else if String.eqb s "3asterisks" then "4asterisks"
  else "5asterisks".
(** the implementations of ListElement.AdjustStyle (types.go:1095, 1219, 1355-1367, 1651); [top]: the list on top of the
    stack, if any *)
Definition adjustStyle (e : val) (top : option olist) : val :=
  match e, top with
  | UnorderedListElement _ c a es, Some l =>
      match ol_first l with
      | UnorderedListElement b' _ _ _ => UnorderedListElement (bullet_next b') c a es
      | _ => e
      end
  | _, _ => e
  end.

(** types.go:1472-1481 UnorderedListElementCheckStyle.interactive *)
Definition check_interactive (s : string) : string :=
  if String.eqb s "checked" || String.eqb s "checked-interactive" then "checked-interactive"
  else if String.eqb s "unchecked" || String.eqb s "unchecked-interactive" then "unchecked-interactive"
  else "nocheck".
(** types.go:1381-1392 UnorderedListElement.interactive *)
Definition interactive (e : val) : val :=
  match e with
  | UnorderedListElement b c a es =>
      let c' := check_interactive c in
      UnorderedListElement b c' a
        (if String.eqb c' "nocheck" then es
         else match es with
              | Paragraph pa pes :: r => Paragraph (mset pa "checkstyle" (VStr c')) pes :: r
              | _ => es
              end)
  | _ => e
  end.
Definition interactive_if (b : bool) (e : val) : val := if b then interactive e else e.

Definition append_element (e x : val) : val :=
  match getElements e with Some es => set_elements e (es ++ [x]) | None => e end.

(** types.go:1770-1776 Paragraph.AddElement *)
Definition paragraph_add (a : attributes) (es : list val) (x : val) : result val :=
  match List.rev es with
  | [] => Panic "index out of range [-1]"
  | RawLine s :: r => Ok (Paragraph a (List.rev r ++ [RawLine (s ++ LF)%string; x]))
  | _ => Ok (Paragraph a (es ++ [x]))
  end.
(** types.go:770-790 addToListElement *)
Definition addToListElement (e x : val) : result val :=
  match x with
  | RawLine _ =>
      match getElements e with
      | Some es =>
          match List.rev es with
          | Paragraph a pes :: r =>
              do p <- paragraph_add a pes x; Ok (set_elements e (List.rev r ++ [p]))
          | _ => Ok (append_element e (Paragraph [] [x]))
          end
      | None => Ok e
      end
  | _ => Ok (append_element e x)
  end.

(** a closed list is the last element of the last item of its parent (document_processing_arrange_lists.go:130-142 listStack.push, see above) *)
Definition attach (l : olist) (pending : option val) : olist :=
  match pending with
  | None => l
  | Some b => mkOL (ol_kind l) (ol_attrs l) (ol_init l) (append_element (ol_last l) b)
  end.

(** document_processing_arrange_lists.go:153-160 listStack.pop, [n] times; the top of the stack comes first.
    When the last list is popped nothing is left of the root. *)
Fixpoint pops (n : nat) (pending : option val) (s : list olist) : list olist :=
  match s with
  | [] => []
  | l :: r =>
      match n with
      | O => attach l pending :: r
      | S n' => pops n' (Some (to_block (attach l pending))) r
      end
  end.

(** document_processing_arrange_lists.go:162-183 listStack.parentFor: the search, from the top; the lists above the one
    that is found are closed *)
Fixpoint find_parent (pending : option val) (s : list olist) (e : val) : option (olist * list olist) :=
  match s with
  | [] => None
  | l :: r => if canAdd l e then Some (attach l pending, r)
              else find_parent (Some (to_block (attach l pending))) r e
  end.

(** types.go:995-1013 NewList; SetAttributes(nil) (types.go:1116, 1266, 1436, 1696) leaves no attributes *)
Definition newList (e : val) : olist :=
  mkOL (match listKind e with Some k => k | None => "" end) (getAttributes e) []
    (interactive_if (hasOption (getAttributes e) "interactive") (withAttrs e [])).

(** types.go:845-864 List.AddElement *)
Definition list_add (l : olist) (e : val) : result olist :=
  match e with
  | ListContinuation _ x =>
      do last <- addToListElement (ol_last l) x;
      Ok (mkOL (ol_kind l) (ol_attrs l) (ol_init l) last)
  | _ =>
      match listKind e with
      | Some k =>
          if String.eqb k (ol_kind l)
          then Ok (mkOL (ol_kind l) (ol_attrs l) (ol_init l ++ [ol_last l])
                     (interactive_if (hasOption (ol_attrs l) "interactive") e))
          else Err "cannot add element to list"
      | None => Err "cannot add element to list"
      end
  end.

(** document_processing_arrange_lists.go:78-111 doArrangeListElements, the body of the loop *)
Definition arrange_step (s : list olist) (e : val) : result (list olist) :=
  let s := match e with ListContinuation off _ => pops (Z.to_nat off) None s | _ => s end in
  match find_parent None s e with
  | Some (l, r) => do l' <- list_add l e; Ok (l' :: r)
  | None =>
      match listKind e with
      | Some _ => Ok (newList (adjustStyle e (match s with [] => None | l :: _ => Some l end)) :: s)
      | None => Err "unable to process element in the list"
      end
  end.
Fixpoint arrange_loop (s : list olist) (es : list val) : result (list olist) :=
  match es with
  | [] => Ok s
  | e :: r => do s' <- arrange_step s e; arrange_loop s' r
  end.
(** document_processing_arrange_lists.go:123-128 listStack.root, with everything above it closed *)
Fixpoint close_all (pending : option val) (s : list olist) : val :=
  match s with
  | [] => match pending with Some b => b | None => VNil end
  | l :: r => close_all (Some (to_block (attach l pending))) r
  end.
(** document_processing_arrange_lists.go:78-111 doArrangeListElements *)
Definition doArrangeListElements (es : list val) : result val :=
  do s <- arrange_loop [] es; Ok (close_all None s).

(** document_processing_arrange_lists.go:49-76 arrangeListElements *)
Fixpoint arrangeElem (v : val) : result val :=
  match v with
  | DelimitedBlock k a es =>
      do es' <- (fix loop (l : list val) : result (list val) :=
                   match l with
                   | [] => Ok []
                   | x :: r => do x' <- arrangeElem x; do r' <- loop r; Ok (x' :: r')
                   end) es;
      Ok (DelimitedBlock k a es')
  | ListElements es => doArrangeListElements es
  | _ => Ok v
  end.
Definition arrangeListElements (es : list val) : result (list val) := mapM arrangeElem es.

(** document_processing_arrange_lists.go:28-47 arrangeLists *)
Definition arrangeLists (f : fragment) : fragment :=
  match f with
  | inr e => inr e
  | inl es => match arrangeListElements es with Ok es' => inl es' | Err e => inr e | Panic e => inr e end
  end.
