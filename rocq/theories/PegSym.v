(** All the outcomes a given text can have, whatever the Go code of the grammar does: a run of the
    parser of Peg.v in which every code block may return anything.  With [opened], only the beginning
    of the text is given: the run gives up when it looks further.  Each outcome tells whether only
    code without effects ([quiet_pred]) was run.  Soundness in P_PegSym.v.  Models no further code of
    /repo. *)
From Coq Require Import List String NArith ZArith Bool.
From Verif Require Import Peg.
Import ListNotations.
Local Open Scope list_scope.

Inductive sval : Type := SAny | SNil | SBytes (t : list rune) | SStr (t : list rune) | SInt (z : Z) | SList (l : list sval).
Definition senv := list (string * sval).
Fixpoint slabel (en : senv) (l : string) : sval :=
  match en with [] => SNil | (k, v) :: en' => if String.eqb l k then v else slabel en' l end.
(** [d]: some code that may have effects was run *)
Inductive out : Type := OOk (v : sval) (p : pos) (en : senv) (d : bool) | OFail (d : bool) | OPanic.
Definition stain (d : bool) (o : out) : out :=
  match o with OOk v p en d' => OOk v p en (d || d') | OFail d' => OFail (d || d') | OPanic => OPanic end.

Definition isFail (o : out) : bool := match o with OFail _ => true | _ => false end.
Definition isClean (o : out) : bool := match o with OFail false => true | _ => false end.
Definition isDirty (o : out) : bool := match o with OFail true => true | _ => false end.
Definition isPanic (o : out) : bool := match o with OPanic => true | _ => false end.
(** at most one failure of each kind and one panic *)
Definition tidy (l : list out) : list out :=
  filter (fun o => match o with OOk _ _ _ _ => true | _ => false end) l
  ++ (if existsb isClean l then [OFail false] else []) ++ (if existsb isDirty l then [OFail true] else []) ++ (if existsb isPanic l then [OPanic] else []).

Section Sym.
  (** what is known of the unicode tables *)
  Variable kcls : string -> rune -> option bool.
  Variable klow : rune -> option rune.
  Variable kwhite : rune -> option bool.
  (** predicates that do not panic, report no error and change nothing *)
  Variable quiet_pred : string -> bool.
  (** the text goes on after what is given *)
  Variable opened : bool.
  Variable G : grammar.

  (** the next rune cannot be known *)
  Definition beyond (p : pos) : bool := opened && at_eof p.
  Fixpoint slit (w : list rune) (ic : bool) (p : pos) : option (option pos) :=
    match w with
    | [] => Some (Some p)
    | c :: w' =>
        if beyond p then None else
        match (if ic then klow (peek p) else Some (peek p)) with
        | None => None
        | Some cur => if N.eqb cur c then slit w' ic (advance p) else Some None
        end
    end.
  Fixpoint kor (l : list (option bool)) : option bool :=
    match l with
    | [] => Some false
    | Some true :: _ => Some true
    | Some false :: l' => kor l'
    | None :: l' => match kor l' with Some true => Some true | _ => None end
    end.
  Definition scls (cs : list rune) (rs : list (rune * rune)) (us : list string) (r : rune) : option bool :=
    if existsb (N.eqb r) cs || existsb (fun ab => N.leb (fst ab) r && N.leb r (snd ab)) rs then Some true
    else kor (map (fun c => kcls c r) us).

  Definition maybe (p : pos) (en : senv) (b : option bool) : list out :=
    match b with
    | Some true => [OOk SNil p en false]
    | Some false => [OFail false]
    | None => [OOk SNil p en true; OFail true; OPanic]
    end.
  Definition isnil (v : sval) : option bool := match v with SNil => Some true | SAny => None | _ => Some false end.
  Fixpoint sallnil (v : sval) : option bool :=
    match v with
    | SAny => None
    | SNil => Some true
    | SList l => (fix go l := match l with
                              | [] => Some true
                              | x :: l' => match sallnil x with
                                           | Some true => go l'
                                           | Some false => Some false
                                           | None => None
                                           end
                              end) l
    | _ => Some false
    end.
  Definition spred (q : pred) (p : pos) (en : senv) : list out :=
    match q with
    | PSome ls => maybe p en (kor (map (fun l => option_map negb (isnil (slabel en l))) ls))
    | PNonBlank l => match slabel en l with
                     | SStr t => maybe p en (kor (map (fun r => option_map negb (kwhite r)) t))
                     | _ => maybe p en None
                     end
    | PNotAllNil l => match slabel en l with
                      | SList vs => maybe p en (option_map negb (sallnil (SList vs)))
                      | _ => maybe p en None
                      end
    | PIntLe l k => match slabel en l with SInt z => maybe p en (Some (Z.leb z k)) | _ => maybe p en None end
    | PLenLe l k => match slabel en l with SStr t => maybe p en (Some (Z.leb (byte_len t) k)) | _ => maybe p en None end
    | PLenIn l a b => match slabel en l with
                      | SStr t => maybe p en (Some (Z.leb a (byte_len t) && Z.leb (byte_len t) b))
                      | _ => maybe p en None
                      end
    | PHost c => if quiet_pred c then [OOk SNil p en false; OFail false] else maybe p en None
    | _ => maybe p en None
    end.
  Definition sact (a : action) (text : list rune) (p' : pos) (en : senv) : list out :=
    match a with
    | AText => [OOk (SStr text) p' en false]
    | ALabel l => [OOk (slabel en l) p' en false]
    | ANil => [OOk SNil p' en false]
    | ALen k => [OOk (SInt (byte_len text - k)) p' en false]
    | AThen _ l => [OOk (match slabel en l with SNil => SNil | _ => SAny end) p' en true; OPanic]
    | AHost _ => [OOk SAny p' en true; OPanic]
    end.

  Fixpoint gather {A} (f : A -> option (list out)) (l : list A) : option (list out) :=
    match l with
    | [] => Some []
    | x :: l' => match f x, gather f l' with Some a, Some b => Some (a ++ b) | _, _ => None end
    end.

  Definition sev := expr -> pos -> senv -> option (list out).
  Fixpoint sseq (ev : sev) (l : list expr) (p : pos) (en : senv) (acc : list sval) : option (list out) :=
    match l with
    | [] => Some [OOk (SList (rev acc)) p en false]
    | x :: l' =>
        match ev x p en with
        | None => None
        | Some outs => gather (fun o => match o with
                                        | OOk v p' en' d => option_map (map (stain d)) (sseq ev l' p' en' (v :: acc))
                                        | o => Some [o]
                                        end) outs
        end
    end.
  Definition scoped (en : senv) (outs : list out) : list out :=
    map (fun o => match o with OOk v p' _ d => OOk v p' en d | o => o end) outs.
  Fixpoint salt (ev : sev) (l : list expr) (p : pos) (en : senv) : option (list out) :=
    match l with
    | [] => Some [OFail false]
    | x :: l' =>
        match ev x p [] with
        | None => None
        | Some outs =>
            if existsb isFail outs
            then match salt ev l' p en with
                 | None => None
                 | Some more => Some (scoped en (filter (fun o => negb (isFail o)) outs)
                                      ++ map (stain (existsb isDirty outs)) more)
                 end
            else Some (scoped en outs)
        end
    end.
  Fixpoint sstar (ev : sev) (n : nat) (e : expr) (b : bool) (p : pos) (en : senv) (acc : list sval) : option (list out) :=
    match n with
    | O => None
    | S n' =>
        match ev e p [] with
        | None => None
        | Some outs => gather (fun o => match o with
                                        | OOk v p' _ d => option_map (map (stain d)) (sstar ev n' e b p' en (v :: acc))
                                        | OFail d => Some [match acc, b with [], true => OFail d | _, _ => OOk (SList (rev acc)) p en d end]
                                        | OPanic => Some [OPanic]
                                        end) outs
        end
    end.

  Fixpoint sym (n : nat) (e : expr) (p : pos) (en : senv) {struct n} : option (list out) :=
    match n with
    | O => None
    | S n' =>
        option_map tidy
        match e with
        | ELit w ic => match slit w ic p with
                       | None => None
                       | Some (Some p') => Some [OOk (SBytes (slice p p')) p' en false]
                       | Some None => Some [OFail false]
                       end
        | ECls cs rs us inv =>
            if beyond p then None else
            Some (if at_eof p then [OFail false]
                  else match scls cs rs us (peek p) with
                       | Some m => if Bool.eqb m inv then [OFail false] else [OOk (SBytes (slice p (advance p))) (advance p) en false]
                       | None => [OFail false; OOk (SBytes (slice p (advance p))) (advance p) en false]
                       end)
        | EAny => if beyond p then None else
                  Some (if at_eof p then [OFail false] else [OOk (SBytes (slice p (advance p))) (advance p) en false])
        | ESeq l => sseq (sym n') l p en []
        | EAlt l => salt (sym n') l p en
        | EStar e1 => sstar (sym n') n' e1 false p en []
        | EPlus e1 => sstar (sym n') n' e1 true p en []
        | EOpt e1 =>
            option_map (map (fun o => match o with
                                      | OOk v p' _ d => OOk v p' en d
                                      | OFail d => OOk SNil p en d
                                      | OPanic => OPanic
                                      end)) (sym n' e1 p [])
        | EAnd e1 =>
            option_map (map (fun o => match o with OOk _ _ _ d => OOk SNil p en d | o => o end)) (sym n' e1 p [])
        | ENot e1 =>
            option_map (map (fun o => match o with OOk _ _ _ d => OFail d | OFail d => OOk SNil p en d | OPanic => OPanic end)) (sym n' e1 p [])
        | EPred q => Some (spred q p en)
        | EState _ => Some [OOk SNil p en true; OPanic]
        | EAct a e1 =>
            match sym n' e1 p en with
            | None => None
            | Some outs => gather (fun o => match o with
                                            | OOk _ p' en' d => Some (map (stain d) (sact a (slice p p') p' en'))
                                            | o => Some [o]
                                            end) outs
            end
        | ELab l e1 =>
            option_map (map (fun o => match o with OOk v p' _ d => OOk v p' ((l, v) :: en) d | o => o end)) (sym n' e1 p [])
        | ERef r =>
            match rule_of G r with
            | None => Some [OFail true]
            | Some e1 => option_map (scoped en) (sym n' e1 p [])
            end
        end
    end.
End Sym.

(** facts about Go's unicode package used in the examples: the classes L and N and IsSpace, for the
    runes below 128 and for U+00A0 (no-break space); ToLower below 128 *)
Definition ascii_letter (r : rune) : bool := (N.leb 65 r && N.leb r 90) || (N.leb 97 r && N.leb r 122).
Definition ascii_digit (r : rune) : bool := N.leb 48 r && N.leb r 57.
Definition known_class (c : string) (r : rune) : option bool :=
  if N.ltb r 128 then
    if String.eqb c "L" then Some (ascii_letter r) else if String.eqb c "N" then Some (ascii_digit r) else None
  else if N.eqb r 160 then
    if String.eqb c "L" then Some false else if String.eqb c "N" then Some false else None
  else None.
Definition known_lower (r : rune) : option rune :=
  if N.ltb r 128 then Some (if N.leb 65 r && N.leb r 90 then (r + 32)%N else r) else None.
Definition known_white (r : rune) : option bool :=
  if N.ltb r 128 then Some ((N.leb 9 r && N.leb r 13) || N.eqb r 32)
  else if N.eqb r 160 then Some true else None.
Definition unicode_ok (H : host) : Prop :=
  (forall c r b, known_class c r = Some b -> in_class H c r = b) /\
  (forall r b, known_lower r = Some b -> to_lower H r = b) /\
  (forall r b, known_white r = Some b -> is_white H r = b).
Definition symbolic := sym known_class known_lower known_white (fun _ => false) false.
