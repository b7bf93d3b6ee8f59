(** Model of pkg/types/types_utils.go: merging of parsed inline content. *)
From Verif Require Import GoBase Types.

(** types_utils.go:12-59 merge, the state of the loop: (result, content of buf) *)
Definition mstate := (list val * string)%type.
(** `if content := buf.String(); len(content) > 0 { append; reset }` *)
Definition mflush (st : mstate) : list val :=
  if String.eqb (snd st) "" then fst st else fst st ++ [StringElement (snd st)].
(** the [default] branch, types_utils.go:40-51 *)
Definition mdefault (st : mstate) (element : val) : mstate :=
  let '(result, content) := st in
  if String.eqb content "" then (result ++ [element], "")
  else
    let content' :=
      match element with
      | Symbol name => if String.eqb name " -- " && has_suffix content " "
                       then stake (String.length content - 1) content else content
      | _ => content
      end in
    (result ++ [StringElement content'; element], "").

(** merge on elements none of which is a slice (used for the call `merge(append(result, f...)...)`, whose
    arguments are results of merge and hence not slices: see lemma [merge_flat] in MergeLemmas) *)
Definition mflat_step (st : mstate) (e : val) : mstate :=
  match e with
  | VNil => st
  | VStr s | StringElement s => (fst st, (snd st ++ s)%string)
  | _ => mdefault st e
  end.
Definition mergeFlat (l : list val) : list val := mflush (fold_left mflat_step l ([], "")).

(** types_utils.go:12-59 merge, one iteration of the loop; [VStr] stands for string and []byte *)
Fixpoint mstep (e : val) (st : mstate) {struct e} : mstate :=
  match e with
  | VNil => st
  | VStr s | StringElement s => (fst st, (snd st ++ s)%string)
  | VSlice l =>
      match l with
      | [] => st
      | _ =>
          let f := mflush ((fix loop (l : list val) (st : mstate) : mstate :=
                              match l with [] => st | x :: r => loop r (mstep x st) end) l ([], "")) in
          (mergeFlat (mflush st ++ f), "")
      end
  | _ => mdefault st e
  end.
Fixpoint mloop (l : list val) (st : mstate) : mstate :=
  match l with [] => st | x :: r => mloop r (mstep x st) end.
Definition merge (l : list val) : list val := mflush (mloop l ([], "")).

(** types_utils.go:62-73 Flatten *)
Definition Flatten (elements : list val) : list val :=
  flat_map (fun e => match e with VSlice l => l | _ => [e] end) elements.

(** types_utils.go:76-90 AllNilEntries *)
Fixpoint allNil (e : val) : bool :=
  match e with
  | VSlice l => forallb allNil l
  | VNil => true
  | _ => false
  end.
Definition AllNilEntries (l : list val) : bool := forallb allNil l.

(** types_utils.go:98-132 Reduce, without options *)
Definition Reduce (elements : val) : val :=
  match elements with
  | VSlice l =>
      match merge l with
      | [] => VNil
      | [StringElement c] => VStr c
      | e => VSlice e
      end
  | StringElement c => if String.eqb c "" then VNil else VStr c
  | VStr s => if String.eqb s "" then VNil else VStr s
  | _ => elements
  end.

(** types_utils.go:168-182 TrimTrailingSpaces *)
Definition TrimTrailingSpaces (content : list val) : list val :=
  match List.rev content with
  | StringElement s :: r =>
      let s' := trim_right_char " "%char s in
      if String.eqb s' "" then List.rev r else List.rev (StringElement s' :: r)
  | _ => content
  end.

(** types_utils.go:185-198 Append *)
Definition Append (elements : list val) : list val :=
  flat_map (fun e => match e with VSlice l => l | VNil => [] | _ => [e] end) elements.

(** types_utils.go:200-230 SplitElementsPerLine, inner loop over the parts of one string:
    the last part stays on the current line *)
Fixpoint split_parts (parts : list string) (line : list val) : list (list val) * list val :=
  let add s := if String.eqb s "" then line else line ++ [StringElement s] in
  match parts with
  | [] => ([], line)
  | [s] => ([], add s)
  | s :: r => let (lines, line') := split_parts r [] in (add s :: lines, line')
  end.
Fixpoint split_lines_loop (elements : list val) (line : list val) : list (list val) :=
  match elements with
  | [] => match line with [] => [] | _ => [line] end
  | StringElement c :: r =>
      let (ls, line') := split_parts (split_char (chr 10) c) line in ls ++ split_lines_loop r line'
  | e :: r => split_lines_loop r (line ++ [e])
  end.
(** types_utils.go:200-230 SplitElementsPerLine *)
Definition SplitElementsPerLine (elements : list val) : list (list val) := split_lines_loop elements [].

(** types_utils.go:234-243 InsertAt; an index out of range makes the slice expression panic *)
Definition InsertAt (elements : list val) (element : val) (index : Z) : result (list val) :=
  match element with
  | VNil => Ok elements
  | _ => if ((index <? 0) || (Z.of_nat (List.length elements) <? index))%Z then Panic "slice bounds out of range"
         else Ok (firstn (Z.to_nat index) elements ++ element :: skipn (Z.to_nat index) elements)
  end.
