(** The parser generated by pigeon (pkg/parser/parser.go): its expressions, its values, and how it
    runs them.  The Go code embedded in the grammar (predicates, state blocks and actions) is a
    parameter, [host]; the few predicates and actions whose result decides how the parser moves are
    given their meaning here.  The grammar itself is in PegGrammar.v.
    Simplifications: the input is a list of runes (a document that is not valid UTF-8 makes the
    generated parser record an error as well); the messages of errors, the positions they carry and
    the statistics are not kept; there are no throw/recovery expressions in this grammar. *)
From Coq Require Import List String NArith ZArith Bool Ascii.
Import ListNotations.
Local Open Scope list_scope.

Definition rune := N.

(** what an action returns: parser.peg, the code blocks that follow an expression *)
Inductive action : Type :=
| AText                     (* return string(c.text), nil *)
| ALabel (l : string)       (* return l, nil *)
| ANil                      (* return nil, nil *)
| ALen (k : Z)              (* return len(c.text) - k, nil *)
| AThen (code l : string)   (* code that does not assign l but may update what it points to, then: return l, nil *)
| AHost (code : string).    (* any other code *)

(** parser.peg, the code blocks of the form &{ ... } *)
Inductive pred : Type :=
| PSome (ls : list string)          (* l1 != nil || l2 != nil || ... *)
| PMainOrExtras (m x : string)      (* m != nil || len(x.([]interface{})) > 0 *)
| PNotAllNil (l : string)           (* !types.AllNilEntries(l.([]interface{})) *)
| PNonBlank (l : string)            (* len(strings.TrimSpace(l.(string))) > 0 *)
| PIntLe (l : string) (k : Z)       (* l.(int) <= k *)
| PLenLe (l : string) (k : Z)       (* len(l.(string)) <= k *)
| PLenIn (l : string) (a b : Z)     (* a <= len(l.(string)) && len(l.(string)) <= b *)
| PHost (code : string).            (* any other code *)

(** parser.go:72560-72680 the expression types *)
Inductive expr : Type :=
| ELit (w : list rune) (ignoreCase : bool)
| ECls (chars : list rune) (ranges : list (rune * rune)) (classes : list string) (inverted : bool)
| EAny
| ESeq (l : list expr)
| EAlt (l : list expr)
| EStar (e : expr)
| EPlus (e : expr)
| EOpt (e : expr)
| EAnd (e : expr)
| ENot (e : expr)
| EPred (p : pred)
| EState (code : string)
| EAct (a : action) (e : expr)
| ELab (l : string) (e : expr)
| ERef (r : string).

Definition grammar := list (string * expr).
(** parser.go:73062-73067 buildRulesTable *)
Fixpoint rule_of (g : grammar) (r : string) : option expr :=
  match g with
  | [] => None
  | (k, e) :: g' => if String.eqb r k then Some e else rule_of g' r
  end.

(** Go values: nil, []byte, string, int, []interface{}, and whatever the host code builds *)
Inductive value (HV : Type) : Type :=
| VNil
| VBytes (t : list rune)
| VStr (t : list rune)
| VInt (z : Z)
| VList (l : list (value HV))
| VHost (x : HV).
Arguments VNil {HV}. Arguments VBytes {HV}. Arguments VStr {HV}. Arguments VInt {HV}.
Arguments VList {HV}. Arguments VHost {HV}.

(** the labels of the innermost scope: the top of p.vstack *)
Definition labels (HV : Type) := list (string * value HV).
(** stack["l"]: nil when the label is absent *)
Fixpoint label {HV} (en : labels HV) (l : string) : value HV :=
  match en with
  | [] => VNil
  | (k, v) :: en' => if String.eqb l k then v else label en' l
  end.

(** parser.go:72775-72800 what the code blocks can see besides the labels: c.text, c.pos (here: the
    runes before it, last first), c.globalStore and c.state; and whether an error was recorded (p.errs) *)
Record soft (HS HT : Type) : Type :=
  Soft { c_text : list rune; c_pos : list rune; p_errs : bool; c_store : HS; c_state : HT }.
Arguments Soft {HS HT}. Arguments c_text {HS HT}. Arguments c_pos {HS HT}. Arguments p_errs {HS HT}.
Arguments c_store {HS HT}. Arguments c_state {HS HT}.
(** parser.go:73055-73059 restoreState: c.state is again what it was in [s]; the rest is kept *)
Definition back {HS HT} (s s' : soft HS HT) : soft HS HT :=
  Soft (c_text s') (c_pos s') (p_errs s') (c_store s') (c_state s).

(** the Go code of the grammar and of the unicode package.  [None] is a panic; the boolean tells
    that the code returned an error *)
Record host : Type := Host {
  HV : Type;
  HS : Type;                               (* what c.globalStore holds *)
  HT : Type;                               (* what c.state holds *)
  state0 : HT;                             (* the empty c.state *)
  in_class : string -> rune -> bool;       (* unicode.Is *)
  to_lower : rune -> rune;                 (* unicode.ToLower *)
  is_white : rune -> bool;                 (* unicode.IsSpace *)
  h_act : string -> labels HV -> soft HS HT -> option (value HV * bool * HS);
  h_pred : string -> labels HV -> soft HS HT -> option (bool * bool * HS);
  h_state : string -> labels HV -> soft HS HT -> option (bool * HS * HT)
}.

(** the position: the runes read so far (last first) and the runes left *)
Record pos : Type := Pos { before : list rune; rest : list rune }.
(** parser.go:72992-73009 read: one rune further (no move at the end) *)
Definition advance (p : pos) : pos :=
  match rest p with [] => p | r :: t => Pos (r :: before p) t end.
(** p.pt.rn: utf8.RuneError at the end of the input *)
Definition RuneError : rune := 65533%N.
Definition peek (p : pos) : rune := match rest p with [] => RuneError | r :: _ => r end.
Definition at_eof (p : pos) : bool := match rest p with [] => true | _ => false end.
(** parser.go:73057-73060 sliceFrom *)
Definition slice (p q : pos) : list rune := firstn (List.length (rest p) - List.length (rest q)) (rest p).

(** len(s) of a Go string, from its runes *)
Definition rune_len (r : rune) : Z :=
  if N.ltb r 128 then 1%Z else if N.ltb r 2048 then 2%Z else if N.ltb r 65536 then 3%Z else 4%Z.
Definition byte_len (t : list rune) : Z := fold_right (fun r a => (rune_len r + a)%Z) 0%Z t.

(** types_utils.go:76-90 AllNilEntries *)
Fixpoint all_nil_entry {HV} (v : value HV) : bool :=
  match v with
  | VNil => true
  | VList l => forallb all_nil_entry l
  | _ => false
  end.

Section Run.
  Variable H : host.
  Variable G : grammar.

  Inductive res : Type :=
  | ROk (v : value (HV H)) (p : pos) (en : labels (HV H)) (s : soft (HS H) (HT H))
  | RFail (p : pos) (s : soft (HS H) (HT H))
  | RPanic.

  (** parser.go:73353-73370 parseLitMatcher *)
  Fixpoint lit_from (w : list rune) (ic : bool) (p : pos) : option pos :=
    match w with
    | [] => Some p
    | c :: w' =>
        let cur := if ic then to_lower H (peek p) else peek p in
        if N.eqb cur c then lit_from w' ic (advance p) else None
    end.
  (** parser.go:73262-73322 parseCharClassMatcher *)
  Definition in_cls (chars : list rune) (ranges : list (rune * rune)) (classes : list string) (r : rune) : bool :=
    existsb (N.eqb r) chars || existsb (fun ab => N.leb (fst ab) r && N.leb r (snd ab)) ranges
    || existsb (fun c => in_class H c r) classes.

  (** the predicates with a fixed meaning; [None] is a failed type assertion *)
  Definition run_pred (q : pred) (en : labels (HV H)) (s : soft (HS H) (HT H)) : option (bool * soft (HS H) (HT H)) :=
    match q with
    | PSome ls => Some (existsb (fun l => match label en l with VNil => false | _ => true end) ls, s)
    | PMainOrExtras m x =>
        match label en m with
        | VNil => match label en x with
                  | VList l => Some (match l with [] => false | _ => true end, s)
                  | _ => None
                  end
        | _ => Some (true, s)
        end
    | PNotAllNil l => match label en l with VList vs => Some (negb (forallb all_nil_entry vs), s) | _ => None end
    | PNonBlank l => match label en l with VStr t => Some (existsb (fun r => negb (is_white H r)) t, s) | _ => None end
    | PIntLe l k => match label en l with VInt z => Some (Z.leb z k, s) | _ => None end
    | PLenLe l k => match label en l with VStr t => Some (Z.leb (byte_len t) k, s) | _ => None end
    | PLenIn l a b => match label en l with
                      | VStr t => Some (Z.leb a (byte_len t) && Z.leb (byte_len t) b, s)
                      | _ => None
                      end
    | PHost c => match h_pred H c en s with
                 | Some (b, err, g) => Some (b, Soft (c_text s) (c_pos s) (p_errs s || err) g (c_state s))
                 | None => None
                 end
    end.
  (** the value of a label after code that may have updated what it points to: nil is still nil, and
      something is still something; the code gives the new value, or nil when it changed nothing *)
  Definition updated (old new : value (HV H)) : value (HV H) :=
    match old, new with VNil, _ => VNil | _, VNil => old | _, _ => new end.
  Definition run_act (a : action) (en : labels (HV H)) (s : soft (HS H) (HT H)) : option (value (HV H) * soft (HS H) (HT H)) :=
    match a with
    | AText => Some (VStr (c_text s), s)
    | ALabel l => Some (label en l, s)
    | ANil => Some (VNil, s)
    | ALen k => Some (VInt (byte_len (c_text s) - k), s)
    | AThen c l => match h_act H c en s with
                   | Some (v, err, g) => Some (updated (label en l) v, Soft (c_text s) (c_pos s) (p_errs s || err) g (c_state s))
                   | None => None
                   end
    | AHost c => match h_act H c en s with
                 | Some (v, err, g) => Some (v, Soft (c_text s) (c_pos s) (p_errs s || err) g (c_state s))
                 | None => None
                 end
    end.

  Definition evaluator := expr -> pos -> labels (HV H) -> soft (HS H) (HT H) -> option res.

  (** parser.go:73437-73452 parseSeqExpr *)
  Fixpoint seq_from (ev : evaluator) (l : list expr) (p0 : pos) (s0 : soft (HS H) (HT H)) (p : pos) (en : labels (HV H))
      (s : soft (HS H) (HT H))
      (acc : list (value (HV H))) : option res :=
    match l with
    | [] => Some (ROk (VList (rev acc)) p en s)
    | e :: l' =>
        match ev e p en s with
        | None => None
        | Some (ROk v p' en' s') => seq_from ev l' p0 s0 p' en' s' (v :: acc)
        | Some (RFail _ s') => Some (RFail p0 (back s0 s'))
        | Some RPanic => Some RPanic
        end
    end.
  (** parser.go:73324-73340 parseChoiceExpr: each alternative has its own labels *)
  Fixpoint alt_from (ev : evaluator) (l : list expr) (p : pos) (en : labels (HV H)) (s : soft (HS H) (HT H)) : option res :=
    match l with
    | [] => Some (RFail p s)
    | e :: l' =>
        match ev e p [] s with
        | None => None
        | Some (ROk v p' _ s') => Some (ROk v p' en s')
        | Some (RFail p' s') => alt_from ev l' p' en (back s s')
        | Some RPanic => Some RPanic
        end
    end.
  (** parser.go:73475-73487 parseZeroOrMoreExpr and 73397-73413 parseOneOrMoreExpr: the loop *)
  Fixpoint star_from (ev : evaluator) (n : nat) (e : expr) (atleast1 : bool) (p : pos) (en : labels (HV H))
      (s : soft (HS H) (HT H)) (acc : list (value (HV H))) : option res :=
    match n with
    | O => None
    | S n' =>
        match ev e p [] s with
        | None => None
        | Some (ROk v p' _ s') => star_from ev n' e atleast1 p' en s' (v :: acc)
        | Some (RFail p' s') =>
            match acc, atleast1 with
            | [], true => Some (RFail p' s')
            | _, _ => Some (ROk (VList (rev acc)) p' en s')
            end
        | Some RPanic => Some RPanic
        end
    end.

  (** parser.go:73156-73206 parseExpr, with a bound on the depth of the calls and on the number of
      iterations of each loop: [None] says that the bound was reached *)
  Fixpoint eval (n : nat) (e : expr) (p : pos) (en : labels (HV H)) (s : soft (HS H) (HT H)) {struct n} : option res :=
    match n with
    | O => None
    | S n' =>
        match e with
        | ELit w ic => Some (match lit_from w ic p with
                             | Some p' => ROk (VBytes (slice p p')) p' en s
                             | None => RFail p s
                             end)
        | ECls cs rs us inv =>
            Some (if at_eof p then RFail p s
                  else if Bool.eqb (in_cls cs rs us (peek p)) inv then RFail p s
                  else ROk (VBytes (slice p (advance p))) (advance p) en s)
        | EAny => (* parser.go:73250-73260 *)
            Some (if at_eof p then RFail p s else ROk (VBytes (slice p (advance p))) (advance p) en s)
        | ESeq l => seq_from (eval n') l p s p en s []
        | EAlt l => alt_from (eval n') l p en s
        | EStar e1 => star_from (eval n') n' e1 false p en s []
        | EPlus e1 => star_from (eval n') n' e1 true p en s []
        | EOpt e1 => (* parser.go:73489-73495 *)
            match eval n' e1 p [] s with
            | None => None
            | Some (ROk v p' _ s') => Some (ROk v p' en s')
            | Some (RFail p' s') => Some (ROk VNil p' en s')
            | Some RPanic => Some RPanic
            end
        | EAnd e1 => (* parser.go:73238-73248 *)
            match eval n' e1 p [] s with
            | None => None
            | Some (ROk _ _ _ s') => Some (ROk VNil p en (back s s'))
            | Some (RFail _ s') => Some (RFail p (back s s'))
            | Some RPanic => Some RPanic
            end
        | ENot e1 => (* parser.go:73383-73395 *)
            match eval n' e1 p [] s with
            | None => None
            | Some (ROk _ _ _ s') => Some (RFail p (back s s'))
            | Some (RFail _ s') => Some (ROk VNil p en (back s s'))
            | Some RPanic => Some RPanic
            end
        | EPred q => (* parser.go:73226-73236 *)
            Some (match run_pred q en s with
                  | None => RPanic
                  | Some (true, s') => ROk VNil p en s'
                  | Some (false, s') => RFail p s'
                  end)
        | EState c => (* parser.go:73454-73460 *)
            Some (match h_state H c en s with
                  | None => RPanic
                  | Some (err, g, st) => ROk VNil p en (Soft (c_text s) (c_pos s) (p_errs s || err) g st)
                  end)
        | EAct a e1 => (* parser.go:73208-73224 *)
            match eval n' e1 p en s with
            | None => None
            | Some (ROk _ p' en' s') =>
                Some (match run_act a en' (Soft (slice p p') (before p) (p_errs s') (c_store s') (c_state s')) with
                      | None => RPanic
                      | Some (v, s'') => ROk v p' en' s''
                      end)
            | Some (RFail p' s') => Some (RFail p' s')
            | Some RPanic => Some RPanic
            end
        | ELab l e1 => (* parser.go:73342-73351 *)
            match eval n' e1 p [] s with
            | None => None
            | Some (ROk v p' _ s') => Some (ROk v p' ((l, v) :: en) s')
            | Some (RFail p' s') => Some (RFail p' s')
            | Some RPanic => Some RPanic
            end
        | ERef r => (* parser.go:73424-73435 parseRuleRefExpr, 73147-73154 parseRule *)
            match rule_of G r with
            | None => Some (RFail p (Soft (c_text s) (c_pos s) true (c_store s) (c_state s)))
            | Some e1 =>
                match eval n' e1 p [] s with
                | None => None
                | Some (ROk v p' _ s') => Some (ROk v p' en s')
                | Some (RFail p' s') => Some (RFail p' s')
                | Some RPanic => Some RPanic
                end
            end
        end
    end.

  (** parser.go:73069-73132 parse, from an entry point, on a whole text *)
  Definition parse (n : nat) (entry : string) (text : list rune) (g : HS H) : option res :=
    eval n (ERef entry) (Pos [] text) [] (Soft [] [] false g (state0 H)).
End Run.
Arguments ROk {H}. Arguments RFail {H}. Arguments RPanic {H}.

(** literals of the generated grammar *)
Fixpoint R (s : string) : list rune :=
  match s with EmptyString => [] | String c t => N_of_ascii c :: R t end.
