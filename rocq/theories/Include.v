(** Model of the selection of lines of an included file: readAll, readWithinLines and
    readWithinTags of pkg/parser/document_preprocessing.go, LineRanges and TagRanges of
    pkg/types/types.go, and of bufio.Scanner on lines. *)
From Verif Require Import GoBase Types Attrs.

(** *** bufio.Scanner with bufio.ScanLines (Go standard library) *)
(** bufio.dropCR *)
Definition dropCR (s : string) : string := trim_suffix s (String (chr 13) "").
(** lines end at LF; a last line without LF is a line unless it is empty *)
Fixpoint drop_last_empty (l : list string) : list string :=
  match l with
  | [] => []
  | [x] => if String.eqb x "" then [] else [x]
  | x :: r => x :: drop_last_empty r
  end.
Definition raw_lines (s : string) : list string := drop_last_empty (split_char (chr 10) s).
(** bufio.MaxScanTokenSize: a line of 65536 bytes or more stops the scanner (ErrTooLong).  The
    boolean says whether the scan ended with that error. *)
Definition too_long (l : string) : bool := (65536 <=? N.of_nat (String.length l))%N.
Fixpoint scan_loop (l : list string) : list string * bool :=
  match l with
  | [] => ([], false)
  | x :: r => if too_long x then ([], true)
              else let (a, e) := scan_loop r in (dropCR x :: a, e)
  end.
Definition scan (s : string) : list string * bool := scan_loop (raw_lines s).

(** *** lines=...: types.go:3329-3332 LineRange *)
Record linerange := mkLR { lr_start : Z; lr_end : Z }.
(** types.go:3347-3358 LineRanges.Match *)
Fixpoint lr_match (r : list linerange) (line : Z) : bool :=
  match r with
  | [] => false
  | lr :: rest =>
      if ((lr_start lr <=? line) && ((line <=? lr_end lr) || (lr_end lr =? -1)))%Z then true
      else if (line <? lr_start lr)%Z then false
      else lr_match rest line
  end.
(** types.go:3305-3323 NewLineRanges: sort.Sort by start line.  sort.Sort is not stable; an insertion
    sort stands for it here, the theorems about ranges hold for every sorted permutation. *)
Fixpoint lr_insert (x : linerange) (l : list linerange) : list linerange :=
  match l with
  | [] => [x]
  | y :: r => if (lr_start y <? lr_start x)%Z then y :: lr_insert x r else x :: l
  end.
Definition newLineRanges (l : list linerange) : list linerange := fold_right lr_insert [] l.

(** *** tags=...: types.go:3425-3428 TagRange *)
Record tagrange := mkTR { tr_name : string; tr_incl : bool }.
(** types.go:3444-3447 CurrentTagRange ([cr_end] = -1: not closed) *)
Record curtag := mkCur { cr_start : Z; cr_end : Z }.

(** types.go:3394-3418 TagRanges.Match.  [cur] is given in the order in which the Go runtime happens
    to iterate over the map. *)
Definition tr_step (t : tagrange) (m : bool) (nr : string * curtag) : bool :=
  let (n, r) := nr in
  if negb (cr_end r =? -1)%Z then m
  else if String.eqb (tr_name t) "*" then tr_incl t
  else if String.eqb (tr_name t) n then tr_incl t
  else m.
Definition tr_match (tr : list tagrange) (cur : gomap curtag) : bool :=
  fold_left (fun m t => if String.eqb (tr_name t) "**" then true
                        else fold_left (tr_step t) cur m) tr false.

(** parser.peg:205-215 IncludedFileLine: the text and tag directives of a line *)
Inductive lineitem := IText (s : string) | IStart (tag : string) | IEnd (tag : string).
(** types.go:3462-3472 IncludedFileLine.HasTag *)
Definition hasTag (l : list lineitem) : bool :=
  existsb (fun i => match i with IText _ => false | _ => true end) l.
(** types.go:3475-3482 IncludedFileLine.GetStartTag *)
Fixpoint getStartTag (l : list lineitem) : option string :=
  match l with
  | [] => None
  | IStart t :: _ => Some t
  | _ :: r => getStartTag r
  end.
(** types.go:3485-3492 IncludedFileLine.GetEndTag *)
Fixpoint getEndTag (l : list lineitem) : option string :=
  match l with
  | [] => None
  | IEnd t :: _ => Some t
  | _ :: r => getEndTag r
  end.

Section Read.
  (** the parser applied to one line, entry point IncludedFileLine; [None]: a parse error *)
  Variable fileLine : string -> option (list lineitem).

  (** document_preprocessing.go:442-467 readAll *)
  Fixpoint readAll (lines : list string) : result string :=
    match lines with
    | [] => Ok ""
    | l :: r =>
        match fileLine l with
        | None => Err "parse error"
        | Some fl =>
            do rest <- readAll r;
            Ok (if hasTag fl then rest else (l ++ LF ++ rest)%string)
        end
    end.

  (** document_preprocessing.go:358-386 readWithinLines *)
  Fixpoint readWithinLines (ranges : list linerange) (lines : list string) (n : Z) : result string :=
    match lines with
    | [] => Ok ""
    | l :: r =>
        match fileLine l with
        | None => Err "parse error"
        | Some fl =>
            do rest <- readWithinLines ranges r (n + 1);
            Ok (if hasTag fl then rest
                else if lr_match ranges (n + 1) then (l ++ LF ++ rest)%string else rest)
        end
    end%Z.

  (** document_preprocessing.go:388-440 readWithinTags, the loop over the lines: the text kept and the
      final table of tags.  [currentRanges[endTag.Value].EndLine = ...] on a missing key is a nil
      pointer dereference. *)
  Fixpoint readTagsLoop (tr : list tagrange) (lines : list string) (n : Z) (cur : gomap curtag)
    : result (string * gomap curtag) :=
    match lines with
    | [] => Ok ("", cur)
    | l :: r =>
        match fileLine l with
        | None => Err "parse error"
        | Some fl =>
            let n := (n + 1)%Z in
            let cur := match getStartTag fl with
                       | Some t => mset cur t (mkCur n (-1))
                       | None => cur
                       end in
            do cur <- match getEndTag fl with
                      | Some t => match mget cur t with
                                  | Some c => Ok (mset cur t (mkCur (cr_start c) n))
                                  | None => Panic "nil pointer dereference"
                                  end
                      | None => Ok cur
                      end;
            do (rest, cur') <- readTagsLoop tr r n cur;
            Ok (if tr_match tr cur && negb (hasTag fl) then (l ++ LF ++ rest)%string else rest, cur')
        end
    end.
  (** document_preprocessing.go:388-440 readWithinTags *)
  Definition readWithinTags (tr : list tagrange) (lines : list string) : result string :=
    do (content, cur) <- readTagsLoop tr lines 0%Z [];
    if forallb (fun t => String.eqb (tr_name t) "*" || String.eqb (tr_name t) "**"
                         || mhas cur (tr_name t)) tr
    then Ok content else Err "tag not found in file to include".
End Read.
