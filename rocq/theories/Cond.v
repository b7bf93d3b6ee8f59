(** Model of conditional inclusions: pkg/types/types.go (IfdefCondition, IfndefCondition,
    IfevalCondition and its operands) and the rule [Ifeval] of pkg/parser/parser.peg. *)
From Verif Require Import GoBase Types Attrs Utf8.

(** types.go:3047-3221, the six IfevalOperand functions, by name *)
Inductive operand := OpEq | OpNe | OpLt | OpLe | OpGt | OpGe.

(** Go's comparison of strings is bytewise lexicographic: Coq's [String.compare]. *)
Definition cmp_holds (op : operand) (c : comparison) : bool :=
  match op, c with
  | OpEq, Eq => true
  | OpNe, (Lt | Gt) => true
  | OpLt, Lt => true
  | OpLe, (Lt | Eq) => true
  | OpGt, Gt => true
  | OpGe, (Gt | Eq) => true
  | _, _ => false
  end.

(** types.go:3049-3217 EqualOperand, NotEqualOperand, LessThanOperand, LessOrEqualOperand,
    GreaterThanOperand, GreaterOrEqualOperand: both strings, both floats, both ints; false
    otherwise.  Floats do not occur in this model (see Types.v). *)
Definition apply_operand (op : operand) (l r : val) : bool :=
  match l, r with
  | VStr a, VStr b => cmp_holds op (String.compare a b)
  | VInt a, VInt b => cmp_holds op (Z.compare a b)
  | _, _ => false
  end.

(** types.go:2945-2948 IfdefCondition, types.go:2975-2978 IfndefCondition,
    types.go:3002-3006 IfevalCondition *)
Inductive cond :=
| Ifdef (name substitution : string)
| Ifndef (name substitution : string)
| Ifeval (left right : val) (op : operand).

(** types.go:3025-3032 IfevalCondition.left (and types.go:3034-3041 right): an attribute reference
    stands for the value of the attribute when it is set *)
Definition member_value (attrs : attributes) (v : val) : val :=
  match v with
  | AttributeReference n => match mget attrs n with Some x => x | None => v end
  | _ => v
  end.

(** types.go:2963-2969, 2993-2996, 3021-3023: Eval *)
Definition evalCond (attrs : attributes) (c : cond) : bool :=
  match c with
  | Ifdef n _ => mhas attrs n
  | Ifndef n _ => negb (mhas attrs n)
  | Ifeval l r op => apply_operand op (member_value attrs l) (member_value attrs r)
  end.

(** types.go:2971-2973, 2998-3000, 3043-3045: SingleLineContent *)
Definition singleLineContent (c : cond) : option string :=
  match c with
  | Ifdef _ s | Ifndef _ s => if String.eqb s "" then None else Some s
  | Ifeval _ _ _ => None
  end.

(** *** the rule Ifeval of the grammar, parser.peg:82-117.
    PEG choices are ordered and committed: the first alternative that matches wins. *)
Section Peg.
  (** unicode.Letter / unicode.Number of a rune *)
  Variable is_alnum : N -> bool.

  Definition lit (p s : string) : option string :=
    if has_prefix s p then Some (sdrop (String.length p) s) else None.
  (** longest prefix of runes that satisfy [f] *)
  Fixpoint take_runes (f : N -> bool) (fuel : nat) (s : string) : string * string :=
    match fuel with
    | O => ("", s)
    | S k => match s with
             | EmptyString => ("", s)
             | _ => let (r, w) := decode_rune s in
                    if f r then let (a, b) := take_runes f k (sdrop w s) in
                                ((stake w s ++ a)%string, b)
                    else ("", s)
             end
    end.
  Definition many1 (f : N -> bool) (s : string) : option (string * string) :=
    let (a, b) := take_runes f (String.length s) s in
    match a with EmptyString => None | _ => Some (a, b) end.
  (** parser.peg:2852 Space* *)
  Fixpoint skip_spaces (s : string) : string :=
    match s with
    | String c r => if Ascii.eqb c " " || Ascii.eqb c (chr 9) then skip_spaces r else s
    | _ => s
    end.
  Notation "'peg' x <- e ; k" := (match e with Some x => k | None => None end)
    (at level 200, x pattern, e at level 100, k at level 200).

  (** parser.peg:318-320 AttributeName *)
  Definition attributeName (s : string) : option (string * string) :=
    match s with
    | EmptyString => None
    | _ => let (r, w) := decode_rune s in
           if is_alnum r || (r =? 95)%N
           then let (a, b) := take_runes (fun r => is_alnum r || (r =? 45)%N) (String.length s) (sdrop w s) in
                Some ((stake w s ++ a)%string, b)
           else None
    end.
  (** parser.peg:643-654 AttributeReferenceValue *)
  Definition attributeReferenceValue (s : string) : option (val * string) :=
    match (peg s1 <- lit "\{" s; peg (n, s2) <- attributeName s1; peg s3 <- lit "}" s2;
           Some (StringElement ("{" ++ n ++ "}"), s3)) with
    | Some x => Some x
    | None => peg s1 <- lit "{" s; peg (n, s2) <- attributeName s1; peg s3 <- lit "}" s2;
              Some (AttributeReference n, s3)
    end.
  (** [\pL\pN,?!;_-]+ *)
  Definition word_rune (r : N) : bool :=
    is_alnum r || existsb (N.eqb r) [44; 63; 33; 59; 95; 45]%N.
  Definition quoted (q : string) (p : string -> option (val * string)) (s : string) : option (val * string) :=
    peg s1 <- lit q s; peg (v, s2) <- p s1; peg s3 <- lit q s2; Some (v, s3).
  Definition word (s : string) : option (val * string) :=
    peg (w, s1) <- many1 word_rune s; Some (VStr w, s1).
  (** parser.peg:2844-2846 Integer *)
  Definition integer (s : string) : option (val * string) :=
    let (sign, s1) := match lit "-" s with Some r => ("-", r) | None => ("", s) end in
    peg (d, s2) <- many1 (fun r => (48 <=? r)%N && (r <=? 57)%N) s1;
    peg z <- atoi (sign ++ d); Some (VInt z, s2).
  Fixpoint choice {A B} (alts : list (A -> option B)) (s : A) : option B :=
    match alts with
    | [] => None
    | p :: r => match p s with Some x => Some x | None => choice r s end
    end.
  (** parser.peg:91-97 IfevalExpressionMember *)
  Definition ifevalMember : string -> option (val * string) :=
    choice [quoted """" attributeReferenceValue; quoted "'" attributeReferenceValue;
            attributeReferenceValue; quoted """" word; quoted "'" word; integer].
  (** parser.peg:99-117 IfevalExpressionOperand *)
  Definition ifevalOperand : string -> option (operand * string) :=
    let alt p op s := peg r <- lit p s; Some (op, r) in
    choice [alt "==" OpEq; alt "!=" OpNe; alt "<" OpLt; alt "<=" OpLe; alt ">" OpGt; alt ">=" OpGe].
  (** parser.peg:82-89 Ifeval, on a whole line *)
  Definition ifevalRule (s : string) : option cond :=
    peg s1 <- lit "ifeval::[" s;
    peg (l, s2) <- ifevalMember s1;
    peg (op, s3) <- ifevalOperand (skip_spaces s2);
    peg (r, s4) <- ifevalMember (skip_spaces s3);
    peg s5 <- lit "]" s4;
    match skip_spaces s5 with EmptyString => Some (Ifeval l r op) | _ => None end.
End Peg.
