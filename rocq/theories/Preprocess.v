(** Model of pkg/parser/document_preprocessing.go: preprocess, includeFile, contentOf, open, the
    builder, the stack of conditions, level offsets and the delimiter tracker. *)
From Verif Require Import GoBase Types Attrs Context Cond Include.

(** what the rule DocumentRawLine (parser.peg:26-37) recognises in one line; for all of them the raw
    text is the line itself (c.text up to EOF) *)
Inductive rawelt :=
| RDecl (name : string) (value : val)
| RReset (name : string)
| RInclude (path : val) (attrs : attributes)
| RCond (c : cond)
| REnd
| RDelim (kind : string) (length : Z)
| RSection (level : Z).

(** document_preprocessing.go:140-144 builder *)
Record builder := mkB { b_buf : string; b_insertLF : bool; b_enabled : bool }.
Definition bWrite (b : builder) (s : string) : builder :=
  if b_enabled b
  then mkB (b_buf b ++ (if b_insertLF b then LF else "") ++ s)%string true (b_enabled b)
  else b.
Definition bEnable (b : builder) (e : bool) : builder := mkB (b_buf b) (b_insertLF b) e.

(** document_preprocessing.go:171-173 conditions: only the values computed when the conditions were
    opened matter; last one at the end *)
Definition conditions := list bool.
(** document_preprocessing.go:202-213 conditions.eval *)
Definition cEval (c : conditions) : bool := forallb (fun x => x) c.
(** document_preprocessing.go:186-192 conditions.push *)
Definition cPush (c : conditions) (v : bool) : conditions := c ++ [v].
(** document_preprocessing.go:194-200 conditions.pop *)
Definition cPop (c : conditions) : conditions := removelast c.

(** document_preprocessing.go:83-85 blockDelimiterTracker: the stack, last element on top *)
Definition tracker := list (string * Z).
(** document_preprocessing.go:98-110 track *)
Definition track (t : tracker) (kind : string) (len : Z) : tracker :=
  match List.rev t with
  | (k, l) :: _ => if String.eqb k kind && (l =? len)%Z then removelast t else t ++ [(kind, len)]
  | [] => t ++ [(kind, len)]
  end.
(** document_preprocessing.go:112-114 withinDelimitedBlock *)
Definition withinDelimitedBlock (t : tracker) : bool := negb (List.length t =? 0)%nat.

(** document_preprocessing.go:295-298 levelOffset *)
Record offset := mkOff { off_abs : bool; off_val : Z }.
(** strings.Repeat: a negative count panics *)
Definition repeat_eq (n : Z) : result string :=
  if (n <? 0)%Z then Panic "strings: negative Repeat count" else Ok (srepeat "=" (Z.to_nat n)).
(** strings.Replace(s, old, new, 1) for a non-empty [old] *)
Fixpoint replace_first (s old new : string) : string :=
  if has_prefix s old then (new ++ sdrop (String.length old) s)%string
  else match s with
       | EmptyString => EmptyString
       | String c r => String c (replace_first r old new)
       end.
(** types.go:2430-2433 RawSection.OffsetLevel, on (level, raw text) *)
Definition offsetLevel (s : Z * string) (off : Z) : result (Z * string) :=
  let (level, raw) := s in
  do a <- repeat_eq (level + 1);
  do b <- repeat_eq (level + 1 + off);
  Ok ((level + off)%Z, replace_first raw (a ++ " ") (b ++ " ")).
(** document_preprocessing.go:300-308 levelOffset.apply: the section and the offset afterwards (an
    absolute offset turns into a relative one) *)
Definition offApply (o : offset) (s : Z * string) : result (offset * (Z * string)) :=
  let o' := if off_abs o then mkOff false (off_val o - fst s)%Z else o in
  do s' <- offsetLevel s (off_val o'); Ok (o', s').
(** document_preprocessing.go:278-286 levelOffsets.apply *)
Fixpoint offsApply (os : list offset) (s : Z * string) : result (list offset * string) :=
  match os with
  | [] => Ok ([], snd s)
  | o :: r => do (o', s') <- offApply o s; do (r', raw) <- offsApply r s'; Ok (o' :: r', raw)
  end.

(** context.go:12-19 ParseContext, the parts used here: sectionEnabled and withinDelimitedBlock are
    entries of the parser options (the last one counts) *)
Record pctx := mkP {
  p_file : string;
  p_attrs : ctxattrs;
  p_offs : list offset;
  p_secs : bool;
  p_within : bool
}.
(** context.go:43-52 ParseContext.Clone.  The offsets are pointers shared with the original: see
    [run_include]. *)
Definition pclone (c : pctx) : pctx :=
  mkP (p_file c) (cclone (p_attrs c)) (p_offs c) (p_secs c) (p_within c).

(** outcome of a run: it also says where the process is (working directory), and [RTimeout] stands
    for a run that needs a deeper nesting of inclusions than the fuel *)
Inductive run (A : Type) :=
| RDone (a : A) (cwd : string)
| RErr (msg : string) (cwd : string)
| RPanic (msg : string) (cwd : string)
| RTimeout.
Arguments RDone {A}. Arguments RErr {A}. Arguments RPanic {A}. Arguments RTimeout {A}.

Section Preprocess.
  (** the parser on one line, with options sectionEnabled and withinDelimitedBlock; [None] on a
      parse error *)
  Variable parseLine : bool -> bool -> string -> option rawelt.
  Variable fileLine : string -> option (list lineitem).
  (** parser entry points LineRanges and TagRanges *)
  Variable parseLineRanges : string -> option (list linerange).
  Variable parseTagRanges : string -> option (list tagrange).
  (** path of an inclusion once attribute references are replaced (Location.ToString) *)
  Variable target : ctxattrs -> val -> result string.
  (** package path/filepath *)
  Variable joinPath : string -> string -> string.
  Variable dirOf : string -> string.
  Variable absPath : string -> string -> string.        (* working directory, path *)
  Variable isAsciidoc : string -> bool.
  (** the file system: can one change to the directory, contents of a file *)
  Variable dirOK : string -> bool.
  Variable readFile : string -> option string.

  (** os.Chdir *)
  Definition chdir (cwd dir : string) : string * bool :=
    if dirOK dir then (dir, true) else (cwd, false).

  (** document_preprocessing.go:469-514 open: file contents and absolute path, or an error; the new
      working directory; the working directory the deferred function goes back to.
      os.Getwd is assumed to succeed. *)
  Definition openFile (cwd path : string) : result (string * string) * string * string :=
    let abs := absPath cwd path in
    let (cwd', ok) := chdir cwd (dirOf abs) in
    if ok then
      match readFile abs with
      | Some content => (Ok (content, abs), cwd', cwd)
      | None => (Err "no such file", cwd', cwd)
      end
    else (Err "no such directory", cwd', cwd).

  (** document_preprocessing.go:215-274 contentOf: reads the lines, computes the new context.
      [restore] is the deferred closeFile(). *)
  Definition contentOf (cwd : string) (ctx : pctx) (path : string) (attrs : attributes)
    : run (string * bool * pctx) :=
    let filename := joinPath (dirOf (p_file ctx)) path in
    let '(f, cwd1, wd) := openFile cwd filename in
    let restore := fst (chdir cwd1 wd) in
    match f with
    | Err m => RErr m restore
    | Panic m => RPanic m restore
    | Ok (content, abs) =>
        let (lines, toolong) := scan content in
        let selected :=
          match getAsString attrs "lines" with
          | Some s => match parseLineRanges s with
                      | None => Err "unresolved directive"
                      | Some lr => readWithinLines fileLine (newLineRanges lr) lines 0%Z
                      end
          | None =>
              match getAsString attrs "tags" with
              | Some s => match parseTagRanges s with
                          | None => Err "unresolved directive"
                          | Some tr => readWithinTags fileLine tr lines
                          end
              | None => readAll fileLine lines
              end
          end in
        match selected with
        | Err m => RErr m restore
        | Panic m => RPanic m restore
        | Ok txt =>
            if toolong then RErr "token too long" restore
            else
              match getAsString attrs "leveloffset" with
              | None => RDone (txt, isAsciidoc abs,
                               mkP abs (p_attrs ctx) (p_offs ctx) (p_secs ctx) (p_within ctx)) restore
              | Some lvl =>
                  match atoi lvl with
                  | None => RErr "unresolved directive" restore
                  | Some z =>
                      let offs := if has_prefix lvl "+" || has_prefix lvl "-"
                                  then p_offs ctx ++ [mkOff false z] else [mkOff true z] in
                      RDone (txt, isAsciidoc abs,
                             mkP abs (p_attrs ctx) offs (p_secs ctx) (p_within ctx)) restore
                  end
              end
        end
    end.

  (** The level offsets a child context shares with its parent are the same pointers: what the child
      does to them is seen by the parent.  [leveloffset=n] (absolute) starts a new list. *)
  Definition shared_back (parent child : list offset) (attrs : attributes) : list offset :=
    match getAsString attrs "leveloffset" with
    | Some lvl => if has_prefix lvl "+" || has_prefix lvl "-"
                  then firstn (List.length parent) child else parent
    | None => child
    end.

  Section Loop.
    (** preprocess of an included file: context, source text *)
    Variable pre : string -> pctx -> string -> run (string * list offset).

    (** document_preprocessing.go:120-138 includeFile; returns the text and the parent's offsets.
        [ctx] is the clone made by the caller. *)
    Definition includeFile (cwd : string) (ctx : pctx) (path : val) (attrs : attributes)
      : run (string * list offset) :=
      match target (p_attrs ctx) path with
      | Err m => RErr m cwd
      | Panic m => RPanic m cwd
      | Ok p =>
          match contentOf cwd ctx p attrs with
          | RErr m d => RErr m d
          | RPanic m d => RPanic m d
          | RTimeout => RTimeout
          | RDone (content, adoc, ctx') d =>
              if negb adoc then RDone (content, p_offs ctx) d
              else
                match pre d (mkP (p_file ctx') (p_attrs ctx') (p_offs ctx') true (p_within ctx')) content with
                | RDone (out, offs') d' => RDone (out, shared_back (p_offs ctx) offs' attrs) d'
                | RErr m d' => RErr m d'
                | RPanic m d' => RPanic m d'
                | RTimeout => RTimeout
                end
          end
      end.

    (** document_preprocessing.go:25-81 preprocess, the loop over the lines *)
    Fixpoint loop (cwd : string) (ctx : pctx) (b : builder) (c : conditions) (t : tracker)
             (lines : list string) : run (string * list offset) :=
      match lines with
      | [] => RDone (b_buf b, p_offs ctx) cwd
      | l :: r =>
          match parseLine (p_secs ctx) (p_within ctx) l with
          | None => loop cwd ctx (bWrite b l) c t r
          | Some (RDecl n v) =>
              loop cwd (mkP (p_file ctx) (cset (p_attrs ctx) n v) (p_offs ctx) (p_secs ctx) (p_within ctx))
                   (bWrite b l) c t r
          | Some (RReset n) =>
              loop cwd (mkP (p_file ctx) (cunset (p_attrs ctx) n) (p_offs ctx) (p_secs ctx) (p_within ctx))
                   (bWrite b l) c t r
          | Some (RSection lvl) =>
              match offsApply (p_offs ctx) (lvl, l) with
              | Ok (offs', s) =>
                  loop cwd (mkP (p_file ctx) (p_attrs ctx) offs' (p_secs ctx) (p_within ctx))
                       (bWrite b s) c t r
              | Err m => RErr m cwd
              | Panic m => RPanic m cwd
              end
          | Some (RInclude path attrs) =>
              match includeFile cwd (pclone ctx) path attrs with
              | RDone (f, offs') d =>
                  loop d (mkP (p_file ctx) (p_attrs ctx) offs' (p_secs ctx) (p_within ctx))
                       (bWrite b f) c t r
              | RErr m d => RErr m d
              | RPanic m d => RPanic m d
              | RTimeout => RTimeout
              end
          | Some (RDelim k len) =>
              let t' := track t k len in
              loop cwd (mkP (p_file ctx) (p_attrs ctx) (p_offs ctx) (p_secs ctx) (withinDelimitedBlock t'))
                   (bWrite b l) c t' r
          | Some (RCond cd) =>
              let v := evalCond (callAttributes (p_attrs ctx)) cd in
              match singleLineContent cd with
              | Some content => loop cwd ctx (if v then bWrite b content else b) c t r
              | None => let c' := cPush c v in loop cwd ctx (bEnable b (cEval c')) c' t r
              end
          | Some REnd => let c' := cPop c in loop cwd ctx (bEnable b (cEval c')) c' t r
          end
      end.
  End Loop.

  (** document_preprocessing.go:25-81 preprocess.  scanner.Err() is not looked at: a line of 64 KB or
      more ends the document silently.  [fuel] bounds the nesting of inclusions. *)
  Fixpoint preprocess (fuel : nat) (cwd : string) (ctx : pctx) (source : string)
    : run (string * list offset) :=
    match fuel with
    | O => RTimeout
    | S f => loop (preprocess f) cwd ctx (mkB "" false true) [] [] (fst (scan source))
    end.
End Preprocess.
