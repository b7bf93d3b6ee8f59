(** Model of section numbering: types.go:151-199. *)
From Verif Require Import GoBase Types Attrs Utf8 Ids Toc Context Aggregate.

Definition toggles_numbering (name : string) : bool :=
  String.eqb name AttrSectionNumbering || String.eqb name AttrNumbered.

(** types.go:166-198 traverseElements.  [counter] is the local counter of the Go loop, the map
    [result] is threaded as an accumulator: entries are written in the order in which the Go
    code writes them into the (local, then merged) maps; the merge loop ranges over a map with
    distinct keys, so its order is immaterial. *)
Fixpoint traverse (e : val) (enabled : bool) (prefix : string) (counter : N) {struct e}
  : gomap string * bool * N :=
  match e with
  | AttributeDeclaration name _ => ([], enabled || toggles_numbering name, counter)
  | AttributeReset name => ([], enabled && negb (toggles_numbering name), counter)
  | Section lvl attrs title els =>
      let counter' := if enabled then (counter + 1)%N else counter in
      let n := if enabled then (prefix ++ itoaN counter')%string else "" in
      let own := if enabled then [(sectionID e, n)] else [] in
      let fix loop (l : list val) (en : bool) (c : N) : gomap string * bool :=
        match l with
        | [] => ([], en)
        | x :: r =>
            let '(m1, en1, c1) := traverse x en (n ++ ".")%string c in
            let '(m2, en2) := loop r en1 c1 in
            (m1 ++ m2, en2)
        end in
      let '(m, en') := loop els enabled 0%N in
      (own ++ m, en', counter')
  | _ => ([], enabled, counter)
  end.
Fixpoint traverse_list (l : list val) (enabled : bool) (prefix : string) (counter : N)
  : gomap string * bool :=
  match l with
  | [] => ([], enabled)
  | x :: r =>
      let '(m1, en1, c1) := traverse x enabled prefix counter in
      let '(m2, en2) := traverse_list r en1 prefix c1 in
      (m1 ++ m2, en2)
  end.

(** types.go:166-198 traverseElements: all the writes, in order, then the map they leave: a later
    write of the same key wins *)
Definition traverseElements (els : list val) (enabled : bool) (prefix : string)
  : gomap string * bool :=
  let '(writes, en) := traverse_list els enabled prefix 0%N in
  (fold_left (fun acc kv => mset acc (fst kv) (snd kv)) writes [], en).

(** types.go:153-164 Document.SectionNumbers (never an error) *)
Definition sectionNumbers (els : list val) : gomap string :=
  let enabled :=
    match docHeader els with
    | Some (DocumentHeader _ _ h, _) => snd (traverseElements h false "")
    | _ => false
    end in
  fst (traverseElements els enabled "").
