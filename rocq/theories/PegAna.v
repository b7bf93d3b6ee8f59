(** A conservative analysis of a grammar of Peg.v, proved sound in P_PegAna.v: for each rule and for
    each possible next rune it says whether the rule can fail, whether it can succeed without
    reading anything (and with which kind of value), and what can follow when it has read
    something.  Nothing here models code of /repo: it is the certificate checker used by the
    proofs about parsing. *)
From Coq Require Import List String NArith ZArith Bool Arith.
From Verif Require Import Peg.
Import ListNotations.
Local Open Scope list_scope.

(** the next rune: end of input, LF, CR, '|' or any other one *)
Inductive head := HEof | HLF | HCR | HBar | HOther.
Definition heads : list head := [HEof; HLF; HCR; HBar; HOther].
Definition head_of (p : pos) : head :=
  match rest p with
  | [] => HEof
  | r :: _ => if N.eqb r 10 then HLF else if N.eqb r 13 then HCR else if N.eqb r 124 then HBar else HOther
  end.
Definition rune_of (h : head) : option rune :=
  match h with HLF => Some 10%N | HCR => Some 13%N | HBar => Some 124%N | _ => None end.
Definition special (r : rune) : bool := N.eqb r 10 || N.eqb r 13 || N.eqb r 124.

Record hset := Hset { m_eof : bool; m_lf : bool; m_cr : bool; m_bar : bool; m_oth : bool }.
Definition has (h : head) (s : hset) : bool :=
  match h with HEof => m_eof s | HLF => m_lf s | HCR => m_cr s | HBar => m_bar s | HOther => m_oth s end.
Definition hnone : hset := Hset false false false false false.
Definition hall : hset := Hset true true true true true.
Definition hset_of (f : head -> bool) : hset := Hset (f HEof) (f HLF) (f HCR) (f HBar) (f HOther).
Definition hunion (a b : hset) : hset := hset_of (fun h => has h a || has h b).
Definition hsub (a b : hset) : bool := forallb (fun h => implb (has h a) (has h b)) heads.

(** kinds of values: nil, an empty list, a list of nothing but nils, anything *)
Inductive kind := KNil | KEmpty | KAllNil | KAny.
Definition kjoin (a b : kind) : kind :=
  match a, b with
  | KNil, KNil => KNil
  | KEmpty, KEmpty => KEmpty
  | KAny, _ => KAny
  | _, KAny => KAny
  | _, _ => KAllNil
  end.
Definition okjoin (a b : option kind) : option kind :=
  match a, b with None, x => x | x, None => x | Some x, Some y => Some (kjoin x y) end.
Definition nilish (k : kind) : bool := match k with KAny => false | _ => true end.
Definition kle (a b : kind) : bool :=
  match a, b with
  | _, KAny => true
  | KAny, _ => false
  | _, KAllNil => true
  | KNil, KNil => true
  | KEmpty, KEmpty => true
  | _, _ => false
  end.
Definition okle (a b : option kind) : bool :=
  match a, b with None, _ => true | Some x, Some y => kle x y | Some _, None => false end.

Record ares := Ares { a_fail : bool; a_null : option kind; a_next : hset }.
Definition ale (a b : ares) : bool :=
  implb (a_fail a) (a_fail b) && okle (a_null a) (a_null b) && hsub (a_next a) (a_next b).
Definition ajoin (a b : ares) : ares :=
  Ares (a_fail a || a_fail b) (okjoin (a_null a) (a_null b)) (hunion (a_next a) (a_next b)).
Definition anothing : ares := Ares false None hnone.
Definition can_ok (a : ares) : bool := (match a_null a with Some _ => true | None => false end) || existsb (fun h => has h (a_next a)) heads.

(** what is known of the labels: [None] is nothing; an absent label is nil *)
Definition aenv := option (list (string * kind)).
Fixpoint klabel (ae : list (string * kind)) (l : string) : kind :=
  match ae with
  | [] => KNil
  | (k, v) :: ae' => if String.eqb l k then v else klabel ae' l
  end.

Definition table := list (string * list ares).
Definition hidx (h : head) : nat := match h with HEof => 0 | HLF => 1 | HCR => 2 | HBar => 3 | HOther => 4 end.
Fixpoint tab_row {A} (t : list (string * list A)) (r : string) : option (list A) :=
  match t with
  | [] => None
  | (k, v) :: t' => if String.eqb r k then Some v else tab_row t' r
  end.
Definition tab_get {A} (d : A) (t : list (string * list A)) (r : string) (h : head) : A :=
  match tab_row t r with Some row => nth (hidx h) row d | None => d end.
(** a rule that is not in the table may do anything *)
Definition aany : ares := Ares true (Some KAny) hall.

Definition lit_an (w : list rune) (ic : bool) (h : head) : ares :=
  match w with
  | [] => Ares false (Some KAny) hnone
  | c :: w' =>
      if ic then Ares true (Some KAny) hall
      else match h with
           | HEof => if N.eqb c RuneError then Ares true (Some KAny) hnone else Ares true None hnone
           | HOther => if special c then Ares true None hnone else Ares true None hall
           | _ => match rune_of h with
                  | Some r => if N.eqb r c then Ares (match w' with [] => false | _ => true end) None hall
                              else Ares true None hnone
                  | None => Ares true None hall
                  end
           end
  end.
Definition cls_an (cs : list rune) (rs : list (rune * rune)) (us : list string) (inv : bool) (h : head) : ares :=
  match h with
  | HEof => Ares true None hnone
  | HOther => match rs, us with
              | [], [] => if forallb special cs
                          then if inv then Ares false None hall else Ares true None hnone
                          else Ares true None hall
              | _, _ => Ares true None hall
              end
  | _ => match rune_of h, us with
         | Some r, [] =>
             let m := existsb (N.eqb r) cs || existsb (fun ab => N.leb (fst ab) r && N.leb r (snd ab)) rs in
             if Bool.eqb m inv then Ares true None hnone else Ares false None hall
         | _, _ => Ares true None hall
         end
  end.
Definition pred_an (q : pred) (ae : aenv) : ares :=
  let unknown := Ares true (Some KNil) hnone in
  let never := Ares true None hnone in
  match ae with
  | None => unknown
  | Some e =>
      match q with
      | PSome ls => if forallb (fun l => match klabel e l with KNil => true | _ => false end) ls then never else unknown
      | PMainOrExtras m x => match klabel e m, klabel e x with KNil, KEmpty => never | _, _ => unknown end
      | PNotAllNil l => if nilish (klabel e l) then never else unknown
      | _ => unknown
      end
  end.
Definition act_kind (a : action) (ae : aenv) : kind :=
  match a with
  | ANil => KNil
  | ALabel l => match ae with Some e => klabel e l | None => KAny end
  | AThen _ l => match ae with Some e => match klabel e l with KNil => KNil | _ => KAny end | None => KAny end
  | _ => KAny
  end.

(** a sequence, from left to right: the path on which nothing was read yet (whether it is the empty
    prefix, whether all values so far are nil, the labels) and the others *)
Record sst := Sst { q_fail : bool; q_null : option (bool * bool * aenv); q_next : hset }.
Definition seq_step (f : head -> aenv -> ares * aenv) (h : head) (st : sst) : sst :=
  let '(f0, n0, x0) :=
    match q_null st with
    | None => (false, None, hnone)
    | Some (_, alln, ae) =>
        let (r, ae') := f h ae in
        (a_fail r, match a_null r with None => None | Some k => Some (false, alln && nilish k, ae') end, a_next r)
    end in
  let rs := map (fun h2 => (h2, if has h2 (q_next st) then fst (f h2 None) else anothing)) heads in
  Sst (q_fail st || f0 || existsb (fun hr => a_fail (snd hr)) rs)
      n0
      (hunion x0 (fold_right (fun hr acc =>
         hunion (hunion (a_next (snd hr)) (match a_null (snd hr) with Some _ => hset_of (fun h2 => match h2, fst hr with
            | HEof, HEof => true | HLF, HLF => true | HCR, HCR => true | HBar, HBar => true | HOther, HOther => true | _, _ => false end)
            | None => hnone end)) acc) hnone rs)).
Definition seq_res (st : sst) : ares * aenv :=
  match q_null st with
  | None => (Ares (q_fail st) None (q_next st), None)
  | Some (emp, alln, ae) =>
      (Ares (q_fail st) (Some (if emp then KEmpty else if alln then KAllNil else KAny)) (q_next st), ae)
  end.

Section Ana.
  Variable T : table.

  Fixpoint an (e : expr) (h : head) (ae : aenv) {struct e} : ares * aenv :=
    match e with
    | ELit w ic => (lit_an w ic h, ae)
    | ECls cs rs us inv => (cls_an cs rs us inv h, ae)
    | EAny => (match h with HEof => Ares true None hnone | _ => Ares false None hall end, ae)
    | ESeq l =>
        let fix go (l : list expr) (st : sst) : sst :=
          match l with [] => st | x :: l' => go l' (seq_step (an x) h st) end in
        seq_res (go l (Sst false (Some (true, true, ae)) hnone))
    | EAlt l =>
        let fix go (l : list expr) : ares :=
          match l with
          | [] => Ares true None hnone
          | x :: l' =>
              let r := fst (an x h (Some [])) in
              if a_fail r then let r2 := go l' in
                Ares (a_fail r2) (okjoin (a_null r) (a_null r2)) (hunion (a_next r) (a_next r2))
              else r
          end in
        (go l, ae)
    | EStar e1 =>
        let r := fst (an e1 h (Some [])) in
        (Ares false (match a_null r with Some _ => Some KAny | None => if a_fail r then Some KEmpty else None end)
              (if existsb (fun x => has x (a_next r)) heads
               then hset_of (fun h2 => a_fail (fst (an e1 h2 (Some [])))) else hnone), ae)
    | EPlus e1 =>
        let r := fst (an e1 h (Some [])) in
        (Ares (a_fail r) (match a_null r with Some _ => Some KAny | None => None end)
              (if existsb (fun x => has x (a_next r)) heads
               then hset_of (fun h2 => a_fail (fst (an e1 h2 (Some [])))) else hnone), ae)
    | EOpt e1 =>
        let r := fst (an e1 h (Some [])) in
        (Ares false (okjoin (a_null r) (if a_fail r then Some KNil else None)) (a_next r), ae)
    | EAnd e1 =>
        let r := fst (an e1 h (Some [])) in
        (Ares (a_fail r) (if can_ok r then Some KNil else None) hnone, ae)
    | ENot e1 =>
        let r := fst (an e1 h (Some [])) in
        (Ares (can_ok r) (if a_fail r then Some KNil else None) hnone, ae)
    | EPred q => (pred_an q ae, ae)
    | EState _ => (Ares false (Some KNil) hnone, ae)
    | EAct a e1 =>
        let (r, ae') := an e1 h ae in
        (Ares (a_fail r) (match a_null r with Some _ => Some (act_kind a ae') | None => None end) (a_next r), ae')
    | ELab l e1 =>
        let r := fst (an e1 h (Some [])) in
        (r, match ae, a_null r with Some e, Some k => Some ((l, k) :: e) | _, _ => None end)
    | ERef r => (tab_get aany T r h, ae)
    end.

  Definition seq_an (h : head) : list expr -> sst -> sst :=
    fix go (l : list expr) (st : sst) : sst :=
      match l with [] => st | x :: l' => go l' (seq_step (an x) h st) end.
  Definition alt_an (h : head) : list expr -> ares :=
    fix go (l : list expr) : ares :=
      match l with
      | [] => Ares true None hnone
      | x :: l' =>
          let r := fst (an x h (Some [])) in
          if a_fail r then let r2 := go l' in
            Ares (a_fail r2) (okjoin (a_null r) (a_null r2)) (hunion (a_next r) (a_next r2))
          else r
      end.

  (** every loop reads something each time: its body cannot succeed on nothing *)
  Fixpoint loops_ok (e : expr) : bool :=
    match e with
    | ESeq l => forallb loops_ok l
    | EAlt l => forallb loops_ok l
    | EStar e1 => loops_ok e1 && forallb (fun h => match a_null (fst (an e1 h (Some []))) with None => true | _ => false end) heads
    | EPlus e1 => loops_ok e1 && forallb (fun h => match a_null (fst (an e1 h (Some []))) with None => true | _ => false end) heads
    | EOpt e1 => loops_ok e1
    | EAnd e1 => loops_ok e1
    | ENot e1 => loops_ok e1
    | EAct _ e1 => loops_ok e1
    | ELab _ e1 => loops_ok e1
    | _ => true
    end.

  (** the rules called before anything is read, by their rank *)
  Variable rank : list (string * list nat).
  Fixpoint calls (e : expr) (h : head) (ae : aenv) {struct e} : nat :=
    match e with
    | ESeq l =>
        let fix go (l : list expr) (ae : aenv) : nat :=
          match l with
          | [] => 0
          | x :: l' =>
              let (r, ae') := an x h ae in
              Nat.max (calls x h ae) (match a_null r with None => 0 | Some _ => go l' ae' end)
          end in
        go l ae
    | EAlt l =>
        let fix go (l : list expr) : nat :=
          match l with [] => 0 | x :: l' => Nat.max (calls x h (Some [])) (go l') end in
        go l
    | EStar e1 => calls e1 h (Some [])
    | EPlus e1 => calls e1 h (Some [])
    | EOpt e1 => calls e1 h (Some [])
    | EAnd e1 => calls e1 h (Some [])
    | ENot e1 => calls e1 h (Some [])
    | EAct _ e1 => calls e1 h ae
    | ELab _ e1 => calls e1 h (Some [])
    | ERef r => S (tab_get 0 rank r h)
    | _ => 0
    end.
  Definition seq_calls (h : head) : list expr -> aenv -> nat :=
    fix go (l : list expr) (ae : aenv) : nat :=
      match l with
      | [] => 0
      | x :: l' =>
          let (r, ae') := an x h ae in
          Nat.max (calls x h ae) (match a_null r with None => 0 | Some _ => go l' ae' end)
      end.
  Definition alt_calls (h : head) : list expr -> nat :=
    fix go (l : list expr) : nat :=
      match l with [] => 0 | x :: l' => Nat.max (calls x h (Some [])) (go l') end.
End Ana.

(** what has to be checked of a grammar, a table and ranks *)
Definition table_ok (g : grammar) (t : table) : bool :=
  forallb (fun ke => forallb (fun h => ale (fst (an t (snd ke) h (Some []))) (tab_get aany t (fst ke) h)) heads) g
  && forallb (fun row => match rule_of g (fst row) with Some _ => true | None => false end) t.
Definition loops_all_ok (g : grammar) (t : table) : bool := forallb (fun ke => loops_ok t (snd ke)) g.
Definition ranks_ok (g : grammar) (t : table) (rk : list (string * list nat)) : bool :=
  forallb (fun ke => forallb (fun h => Nat.leb (calls t rk (snd ke) h (Some [])) (tab_get 0 rk (fst ke) h)) heads) g.

(** how the table and the ranks are found (the checks above do not depend on it) *)
Definition table_next (g : grammar) (t : table) : table :=
  map (fun ke => (fst ke, map (fun h => ajoin (tab_get anothing t (fst ke) h) (fst (an t (snd ke) h (Some [])))) heads)) g.
Fixpoint table_iter (n : nat) (g : grammar) (t : table) : table :=
  match n with O => t | S n' => table_iter n' g (table_next g t) end.
Definition table_of (n : nat) (g : grammar) : table :=
  table_iter n g (map (fun ke => (fst ke, map (fun _ => anothing) heads)) g).
Definition ranks_next (g : grammar) (t : table) (rk : list (string * list nat)) :=
  map (fun ke => (fst ke, map (fun h => calls t rk (snd ke) h (Some [])) heads)) g.
Fixpoint ranks_iter (n : nat) (g : grammar) (t : table) (rk : list (string * list nat)) :=
  match n with O => rk | S n' => ranks_iter n' g t (ranks_next g t rk) end.
Definition ranks_of (n : nat) (g : grammar) (t : table) := ranks_iter n g t [].
