(** Specification of section numbers. *)
From Verif Require Import GoBase Types.

(** "sectnums" and its alias "numbered" switch numbering on, their reset switches it off.  The
    state after a list of elements is that of the last switch in reading order. *)
Definition is_switch (name : string) : bool := String.eqb name "sectnums" || String.eqb name "numbered".
Fixpoint switches (v : val) : list bool :=
  match v with
  | AttributeDeclaration n _ => if is_switch n then [true] else []
  | AttributeReset n => if is_switch n then [false] else []
  | Section _ _ _ els => flat_map switches els
  | _ => []
  end.
Definition state_after (en : bool) (els : list val) : bool := last (flat_map switches els) en.

(** number of sections among [els] (not inside them) at which numbering is on *)
Fixpoint numbered_siblings (en : bool) (els : list val) : N :=
  match els with
  | [] => 0
  | e :: r => (match e with Section _ _ _ _ => if en then 1 else 0 | _ => 0 end) +
              numbered_siblings (state_after en [e]) r
  end%N.

(** [section_number en prefix els id n]: the section [id] of [els] has number [n] *)
Inductive section_number : bool -> string -> list val -> string -> string -> Prop :=
| number_here en prefix pre l a t sub post id :
    state_after en pre = true ->
    mget a "id" = Some (VStr id) ->
    section_number en prefix (pre ++ Section l a t sub :: post) id
      (prefix ++ itoaN (1 + numbered_siblings en pre))
| number_inside en prefix pre l a t sub post id n :
    section_number (state_after en pre)
      (if state_after en pre
       then prefix ++ itoaN (1 + numbered_siblings en pre) ++ "."
       else ".")%string
      sub id n ->
    section_number en prefix (pre ++ Section l a t sub :: post) id n.

(** ids of all sections, in document order *)
Fixpoint section_ids (v : val) : list string :=
  match v with
  | Section _ a _ els =>
      (match mget a "id" with Some (VStr id) => [id] | _ => [""] end) ++ flat_map section_ids els
  | _ => []
  end.

(** every section has an id *)
Fixpoint all_have_ids (v : val) : Prop :=
  match v with
  | Section _ a _ els =>
      (exists id, mget a "id" = Some (VStr id)) /\
      (fix all (l : list val) : Prop :=
         match l with [] => True | x :: r => all_have_ids x /\ all r end) els
  | _ => True
  end.

(** position of a section in the tree: rank among the sibling sections, level by level *)
Inductive section_at : list val -> string -> list N -> Prop :=
| at_here pre l a t sub post id :
    mget a "id" = Some (VStr id) ->
    section_at (pre ++ Section l a t sub :: post) id
      [(1 + N.of_nat (List.length (filter (fun v => match v with Section _ _ _ _ => true | _ => false end) pre)))%N]
| at_inside pre l a t sub post id p :
    section_at sub id p ->
    section_at (pre ++ Section l a t sub :: post) id
      ((1 + N.of_nat (List.length (filter (fun v => match v with Section _ _ _ _ => true | _ => false end) pre)))%N :: p).

(** 1.2.3 *)
Definition dotted (p : list N) : string := join "." (map itoaN p).
