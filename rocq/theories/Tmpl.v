(** The part of the Go package text/template that the templates of the renderer use: parsing of the template
    text, and execution on a struct given by the values of its fields.  Called by sgml_renderer.go:244-254 (execute)
    and sgml_renderer.go:256-271 (newTemplate).
    Simplifications: trim markers, comments, nested templates, pipelines other than "len F | eq N" and calls of
    functions other than those below are not part of the language ([parse] fails on them). *)
From Verif Require Import GoBase Attrs.

(** a field of the struct given to the template *)
Inductive fval :=
| FS (s : string)
| FI (n : Z)
| FB (b : bool)
| FL (l : list (list (string * string))).  (* slice: the fields of every element ("" for the element itself) *)
Definition fields := list (string * fval).

Inductive cond :=
| CField (f : string)
| CNot (f : string)
| COr (fs : list string)
| CNe (f s : string)
| CEq (f : string) (n : Z)
| CLen (f : string) (n : Z)
| CLast (l i : string).
Inductive node :=
| NLit (s : string)
| NField (f : string)
| NFn (fn f : string)
| NIndex (f : string) (n : nat)
| NIf (c : cond) (a b : list node)
| NRange (i v f : string) (body : list node).

(** ** parsing *)
Inductive seg := SLit (s : string) | SAct (toks : list string).

Definition is_letter (c : ascii) : bool :=
  let n := N_of_ascii c in ((65 <=? n) && (n <=? 90) || (97 <=? n) && (n <=? 122))%N.
Definition alnum (c : ascii) : bool := is_letter c || is_digit c.

(** the tokens of an action; [cur] is the token being read, reversed; its kind: 0 none, 1 word, 2 field or variable,
    3 string, 4 ":" *)
Definition flush (cur : string) (acc : list string) : list string :=
  match cur with EmptyString => acc | _ => acc ++ [srev cur] end.
Fixpoint lex (s : string) (kind : nat) (cur : string) (acc : list string) : option (list string) :=
  match s with
  | EmptyString => match kind with 3 | 4 => None | _ => Some (flush cur acc) end
  | String c r =>
      match kind with
      | 3 => if Ascii.eqb c (chr 34) then lex r 0 EmptyString (acc ++ [srev (String c cur)]) else lex r 3 (String c cur) acc
      | 4 => if Ascii.eqb c "=" then lex r 0 EmptyString (acc ++ [":="]) else None
      | _ =>
        if alnum c then (match kind with 0 => lex r 1 (String c EmptyString) acc | _ => lex r kind (String c cur) acc end)
        else if Ascii.eqb c "." then
          (match kind with 2 => lex r 2 (String c cur) acc | _ => lex r 2 (String c EmptyString) (flush cur acc) end)
        else if Ascii.eqb c "$" then lex r 2 (String c EmptyString) (flush cur acc)
        else if Ascii.eqb c " " then lex r 0 EmptyString (flush cur acc)
        else if Ascii.eqb c "|" then lex r 0 EmptyString (flush cur acc ++ ["|"])
        else if Ascii.eqb c "," then lex r 0 EmptyString (flush cur acc ++ [","])
        else if Ascii.eqb c ":" then lex r 4 EmptyString (flush cur acc)
        else if Ascii.eqb c (chr 34) then lex r 3 (String c EmptyString) (flush cur acc)
        else None
      end
  end.

(** the text cut into literal text and actions; [cur] is reversed *)
Fixpoint segments (s : string) (inact : bool) (cur : string) : option (list seg) :=
  match s with
  | EmptyString => if inact then None else Some (match cur with EmptyString => [] | _ => [SLit (srev cur)] end)
  | String c1 (String c2 r as r1) =>
      if inact then
        if Ascii.eqb c1 "}" && Ascii.eqb c2 "}" then
          match lex (srev cur) 0 EmptyString [], segments r false EmptyString with
          | Some t, Some l => Some (SAct t :: l)
          | _, _ => None
          end
        else segments r1 true (String c1 cur)
      else
        if Ascii.eqb c1 "{" && Ascii.eqb c2 "{" then
          match segments r true EmptyString with
          | Some l => Some (match cur with EmptyString => l | _ => SLit (srev cur) :: l end)
          | None => None
          end
        else segments r1 false (String c1 cur)
  | String c EmptyString => if inact then None else Some [SLit (srev (String c cur))]
  end.

Definition is_field (t : string) : bool :=
  match t with String c _ => Ascii.eqb c "." || Ascii.eqb c "$" | EmptyString => false end.
Definition is_string (t : string) : bool := match t with String c _ => Ascii.eqb c (chr 34) | EmptyString => false end.
Definition unquote (t : string) : string := stake (String.length t - 2) (sdrop 1 t).
Definition functions : list string := ["halign"; "toLower"; "trimLineFeedSuffix"; "valign"].

Definition parse_cond (ts : list string) : option cond :=
  match ts with
  | [a] => if is_field a then Some (CField a) else None
  | [a; b] => if String.eqb a "not" && is_field b then Some (CNot b) else
              if String.eqb a "or" && is_field b then Some (COr [b]) else None
  | [a; b; c] =>
      if String.eqb a "ne" && is_field b && is_string c then Some (CNe b (unquote c)) else
      if String.eqb a "eq" && is_field b then match atoi c with Some n => Some (CEq b n) | None => None end else
      if String.eqb a "lastInStrings" && is_field b && is_field c then Some (CLast b c) else
      if String.eqb a "or" && is_field b && is_field c then Some (COr [b; c]) else None
  | a :: r =>
      if String.eqb a "or" && forallb is_field r then Some (COr r) else
      match ts with
      | [a; b; c; d; e] =>
          if String.eqb a "len" && is_field b && String.eqb c "|" && String.eqb d "eq"
          then match atoi e with Some n => Some (CLen b n) | None => None end else None
      | _ => None
      end
  | [] => None
  end.

(** how a list of nodes ended: end of the text, "end", "else", or "else if" *)
Inductive stop := SEof | SEnd | SElse | SElseIf (c : cond).

(** [al]: the variables bound by "with", and the field each stands for *)
Definition alias (al : list (string * string)) (f : string) : string := match mget al f with Some g => g | None => f end.
Definition alias_cond (al : list (string * string)) (c : cond) : cond :=
  match c with
  | CField f => CField (alias al f) | CNot f => CNot (alias al f) | COr fs => COr (map (alias al) fs)
  | CNe f s => CNe (alias al f) s | CEq f n => CEq (alias al f) n | CLen f n => CLen (alias al f) n
  | CLast l i => CLast (alias al l) (alias al i)
  end.
Fixpoint parse_nodes (fuel : nat) (al : list (string * string)) (l : list seg) : option (list node * stop * list seg) :=
  match fuel with
  | O => None
  | S k =>
    let continue (n : node) (r : list seg) :=
      match parse_nodes k al r with Some (ns, s, r') => Some (n :: ns, s, r') | None => None end in
    (* the body of an "if" whose condition is [c]; used again for "else if" *)
    let fix if_body (k' : nat) (c : cond) (r : list seg) : option (node * list seg) :=
      match k' with
      | O => None
      | S k'' =>
        match parse_nodes k al r with
        | Some (a, SEnd, r') => Some (NIf c a [], r')
        | Some (a, SElse, r') =>
            match parse_nodes k al r' with Some (b, SEnd, r'') => Some (NIf c a b, r'') | _ => None end
        | Some (a, SElseIf c', r') =>
            match if_body k'' c' r' with Some (n, r'') => Some (NIf c a [n], r'') | None => None end
        | _ => None
        end
      end in
    match l with
    | [] => Some ([], SEof, [])
    | SLit s :: r => continue (NLit s) r
    | SAct ts :: r =>
        match ts with
        | [a] =>
            if String.eqb a "end" then Some ([], SEnd, r) else
            if String.eqb a "else" then Some ([], SElse, r) else
            if is_field a then continue (NField (alias al a)) r else None
        | a :: ts' =>
            if String.eqb a "if" then
              match parse_cond ts' with
              | Some c => match if_body k (alias_cond al c) r with Some (n, r') => continue n r' | None => None end
              | None => None
              end
            else if String.eqb a "else" then
              match ts' with
              | i :: cs => if String.eqb i "if" then match parse_cond cs with Some c => Some ([], SElseIf (alias_cond al c), r) | None => None end else None
              | [] => None
              end
            else if String.eqb a "range" then
              match (match ts' with
                     | [v; e; f] => if String.eqb e ":=" && is_field v && is_field f then Some (("", v), f) else None
                     | [i; c; v; e; f] =>
                         if String.eqb e ":=" && String.eqb c "," && is_field i && is_field v && is_field f then Some ((i, v), f) else None
                     | _ => None
                     end) with
              | Some ((i, v), f) =>
                  match parse_nodes k al r with
                  | Some (b, SEnd, r') => continue (NRange i v (alias al f) b) r'
                  | _ => None
                  end
              | None => None
              end
            else if String.eqb a "with" then
              match ts' with
              | [v; e; f] =>
                  if String.eqb e ":=" && is_field v && is_field f then
                    match parse_nodes k ((v, alias al f) :: al) r with
                    | Some (b, SEnd, r') => continue (NIf (CField (alias al f)) b []) r'
                    | _ => None
                    end
                  else None
              | _ => None
              end
            else
              match ts' with
              | [f] => if existsb (String.eqb a) functions && is_field f then continue (NFn a (alias al f)) r else None
              | [f; n] => if String.eqb a "index" && is_field f
                          then match atoi n with Some z => continue (NIndex (alias al f) (Z.to_nat z)) r | None => None end else None
              | _ => None
              end
        | [] => None
        end
    end
  end.

Definition parse (s : string) : option (list node) :=
  match segments s false EmptyString with
  | Some l => match parse_nodes (S (List.length l)) [] l with Some (ns, SEof, _) => Some ns | _ => None end
  | None => None
  end.

(** ** execution *)
Section Exec.
  (** strings.ToLower *)
  Variable toLower : string -> string.

  (** sgml.go:179-190 halign, valign *)
  Definition halign (v : string) : string :=
    if String.eqb v "<" then "halign-left" else if String.eqb v "^" then "halign-center" else
    if String.eqb v ">" then "halign-right" else v.
  Definition valign (v : string) : string :=
    if String.eqb v "<" then "valign-top" else if String.eqb v "^" then "valign-middle" else
    if String.eqb v ">" then "valign-bottom" else v.

  (** printing of a field (package fmt) *)
  Definition show (v : fval) : result string :=
    match v with
    | FS s => Ok s
    | FI n => Ok (itoa n)
    | FB b => Ok (if b then "true" else "false")
    | FL _ => Err "slices are not printed by these templates"
    end.
  (** text/template: the zero values are false *)
  Definition truth (v : fval) : bool :=
    match v with FS s => negb (String.eqb s "") | FI n => negb (Z.eqb n 0) | FB b => b
               | FL l => match l with [] => false | _ => true end end.

  Definition field (e : fields) (f : string) : result fval :=
    match mget e f with Some v => Ok v | None => Err "can't evaluate field" end.

  Fixpoint any_truth (e : fields) (fs : list string) : result bool :=
    match fs with
    | [] => Ok false
    | f :: r => do v <- field e f; if truth v then Ok true else any_truth e r
    end.
  Definition eval (e : fields) (c : cond) : result bool :=
    match c with
    | CField f => do v <- field e f; Ok (truth v)
    | CNot f => do v <- field e f; Ok (negb (truth v))
    | COr fs => any_truth e fs
    | CNe f s => do v <- field e f; match v with FS t => Ok (negb (String.eqb t s)) | _ => Err "incompatible types for comparison" end
    | CEq f n => do v <- field e f; match v with FI m => Ok (Z.eqb m n) | _ => Err "incompatible types for comparison" end
    | CLen f n => do v <- field e f; match v with FL l => Ok (Z.eqb (Z.of_nat (List.length l)) n) | _ => Err "len of type" end
    | CLast l i => do v <- field e l; do w <- field e i;
        match v, w with
        | FL xs, FI n => Ok (Z.eqb n (Z.of_nat (List.length xs) - 1))   (* sgml.go:205-207 lastInStrings *)
        | _, _ => Err "wrong type for value"
        end
    end.

  Definition call (fn : string) (v : fval) : result string :=
    match v with
    | FS s =>
        if String.eqb fn "toLower" then Ok (toLower s) else
        if String.eqb fn "halign" then Ok (halign s) else
        if String.eqb fn "valign" then Ok (valign s) else
        if String.eqb fn "trimLineFeedSuffix" then Ok (trim_suffix s LF) (* sgml.go:218-220 *) else Err "function not defined"
    | _ => Err "wrong type for value"
    end.

  (** the variables inside a "range": the index, and the element with its fields *)
  Definition bind_elt (i v : string) (n : nat) (elt : list (string * string)) (e : fields) : fields :=
    map (fun p => ((v ++ fst p)%string, FS (snd p))) elt ++ (i, FI (Z.of_nat n)) :: e.

  Fixpoint exec_node (n : node) (e : fields) {struct n} : result string :=
    let fix exec_nodes (ns : list node) (e : fields) : result string :=
      match ns with
      | [] => Ok EmptyString
      | n :: r => do s <- exec_node n e; do t <- exec_nodes r e; Ok (s ++ t)%string
      end in
    match n with
    | NLit s => Ok s
    | NField f => do v <- field e f; show v
    | NFn fn f => do v <- field e f; call fn v
    | NIndex f k => do v <- field e f;
        match v with
        | FL l => match nth_error l k with
                  | Some elt => match mget elt "" with Some s => Ok s | None => Err "can't print" end
                  | None => Err "error calling index: index out of range"
                  end
        | _ => Err "can't index item"
        end
    | NIf c a b => do t <- eval e c; if t then exec_nodes a e else exec_nodes b e
    | NRange i v f body => do x <- field e f;
        match x with
        | FL l => (fix range (l : list (list (string * string))) (k : nat) : result string :=
                     match l with
                     | [] => Ok EmptyString
                     | elt :: r => do s <- exec_nodes body (bind_elt i v k elt e); do t <- range r (S k); Ok (s ++ t)%string
                     end) l 0
        | _ => Err "range can't iterate over"
        end
    end.
  Fixpoint exec_nodes (ns : list node) (e : fields) : result string :=
    match ns with
    | [] => Ok EmptyString
    | n :: r => do s <- exec_node n e; do t <- exec_nodes r e; Ok (s ++ t)%string
    end.
  Fixpoint exec_range (i v : string) (body : list node) (e : fields) (l : list (list (string * string))) (k : nat) : result string :=
    match l with
    | [] => Ok EmptyString
    | elt :: r => do s <- exec_nodes body (bind_elt i v k elt e); do t <- exec_range i v body e r (S k); Ok (s ++ t)%string
    end.

  (** sgml_renderer.go:244-254 execute, newTemplate *)
  Definition execute (tmpl : string) (e : fields) : result string :=
    if String.eqb tmpl "" then Err "empty template" else
    match parse tmpl with Some ns => exec_nodes ns e | None => Err "failed to initialize the template" end.
End Exec.
