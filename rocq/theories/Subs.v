(** Model of pkg/parser/document_substitutions.go: which substitutions apply to a block. *)
From Verif Require Import GoBase Types Attrs.

(** document_substitutions.go:12-31 *)
Definition AttributeRefs := "attributes".
Definition Callouts := "callouts".
Definition InlinePassthroughs := "inline_passthrough".
Definition Macros := "macros".
Definition PostReplacements := "post_replacements".
Definition Quotes := "quotes".
Definition Replacements := "replacements".
Definition SpecialCharacters := "specialchars".
(** attributes.go:163-164 *)
Definition AttrSubstitutions := "subs".

(** document_substitutions.go:33-45 normalSubstitutions.  A [*substitutions] is its sequence. *)
Definition normalSubstitutions : list string :=
  [InlinePassthroughs; AttributeRefs; SpecialCharacters; Quotes; Replacements; Macros; PostReplacements].
(** document_substitutions.go:47-58 headerSubstitutions *)
Definition headerSubstitutions : list string :=
  [InlinePassthroughs; AttributeRefs; SpecialCharacters; Quotes; Macros; Replacements].
(** document_substitutions.go:60-71 attributeSubstitutions *)
Definition attributeSubstitutions : list string :=
  [InlinePassthroughs; AttributeRefs; SpecialCharacters; Quotes; Replacements].
(** document_substitutions.go:73-75 noneSubstitutions *)
Definition noneSubstitutions : list string := [].
(** document_substitutions.go:77-84 verbatimSubstitutions *)
Definition verbatimSubstitutions : list string := [Callouts; SpecialCharacters].

(** document_substitutions.go:240-256 substitutionsFor *)
Definition substitutionsFor (s : string) : result (list string) :=
  if String.eqb s "normal" then Ok normalSubstitutions
  else if String.eqb s "none" then Ok noneSubstitutions
  else if String.eqb s "verbatim" then Ok verbatimSubstitutions
  else if existsb (String.eqb s)
            ["attributes"; "macros"; "quotes"; "replacements"; "post_replacements"; "callouts";
             "specialchars"] then Ok [s]
  else Err "unsupported substitution".

(** document_substitutions.go:204-211 append *)
Definition sub_append (seq : list string) (v : string) : result (list string) :=
  do other <- substitutionsFor v; Ok (seq ++ other).
(** document_substitutions.go:213-220 prepend *)
Definition sub_prepend (seq : list string) (v : string) : result (list string) :=
  do other <- substitutionsFor v; Ok (other ++ seq).
(** document_substitutions.go:222-238 remove *)
Definition sub_remove (seq : list string) (v : string) : result (list string) :=
  do other <- substitutionsFor v;
  Ok (fold_left (fun sq toRemove => filter (fun x => negb (String.eqb x toRemove)) sq) other seq).

(** document_substitutions.go:134-159 defaultSubstitutions *)
Definition defaultSubstitutions (fmtv : val -> string) (b : val) : list string :=
  match b with
  | DelimitedBlock kind _ _ =>
      if existsb (String.eqb kind) ["example"; "quote"; "verse"; "sidebar"; "markdown-quote"; "open"]
      then normalSubstitutions
      else if existsb (String.eqb kind) ["comment"; "pass"] then noneSubstitutions
      else verbatimSubstitutions
  | Paragraph attrs _ =>
      let style := getAsStringD fmtv attrs AttrStyle "" in
      if String.eqb style "listing" then verbatimSubstitutions
      else if String.eqb style "pass" then noneSubstitutions
      else normalSubstitutions
  | _ => normalSubstitutions
  end.

(** document_substitutions.go:162-171 allIncremental *)
Definition allIncremental (subs : list string) : bool :=
  forallb (fun sub => has_prefix sub "+" || has_prefix sub "-" || has_suffix sub "+") subs.

(** document_substitutions.go:90-132 newSubstitutions, the body of the loop *)
Definition sub_step (seq : list string) (sub : string) : result (list string) :=
  if has_suffix sub "+" then sub_prepend seq (trim_suffix sub "+")
  else if has_prefix sub "+" then sub_append seq (trim_prefix sub "+")
  else if has_prefix sub "-" then sub_remove seq (trim_prefix sub "-")
  else sub_append seq sub.
Fixpoint sub_loop (seq : list string) (subs : list string) : result (list string) :=
  match subs with
  | [] => Ok seq
  | s :: r => do seq' <- sub_step seq s; sub_loop seq' r
  end.
(** document_substitutions.go:90-132 newSubstitutions; [attrs]: b.GetAttributes() *)
Definition newSubstitutions (fmtv : val -> string) (b : val) (attrs : attributes)
  : result (list string) :=
  match getAsString attrs AttrSubstitutions with
  | None => Ok (defaultSubstitutions fmtv b)
  | Some attrSub =>
      let subs := split_char ","%char attrSub in
      sub_loop (if allIncremental subs then defaultSubstitutions fmtv b else []) subs
  end.

(** document_substitutions.go:195-202 contains *)
Definition sub_contains (seq : list string) (expected : string) : bool :=
  existsb (String.eqb expected) seq.

(** document_substitutions.go:180-193 split, the loop; [None] is the nil second phase *)
Fixpoint split_loop (seq : list string) (phase2 : option (list string)) : option (list string) :=
  match seq with
  | [] => phase2
  | sub :: rest =>
      split_loop rest
        (if String.eqb sub AttributeRefs && negb (Nat.eqb (List.length rest) 0) then Some rest else phase2)
  end.
(** document_substitutions.go:180-193 split *)
Definition sub_split (seq : list string) : list string * option (list string) :=
  (seq, split_loop seq None).
