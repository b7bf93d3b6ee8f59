(** Model of section id generation and cross reference resolution:
    pkg/types/non_alphanumerics_replacement.go, Section.ResolveID / Section.Reference and
    InternalCrossReference.ResolveID of pkg/types/types.go. *)
From Verif Require Import GoBase Types Attrs Utf8.

Section Ids.
  (** unicode.Is(unicode.Letter, r), unicode.Is(unicode.Number, r): Unicode tables of the Go
      standard library, left abstract. *)
  Variable is_letter is_number : N -> bool.
  (** fmt.Sprintf("%v", _) of non-string values, left abstract *)
  Variable fmtv : val -> string.

  Definition is_alnum (r : N) : bool := is_letter r || is_number r.

  (** non_alphanumerics_replacement.go:64-80 replaceNonAlphanumerics, the loop over runes *)
  Fixpoint rna_loop (l : list N) (last_sep : bool) (replacement : string) : string :=
    match l with
    | [] => EmptyString
    | r :: rest =>
        if is_alnum r then (encode_rune r ++ rna_loop rest false replacement)%string
        else if negb last_sep && ((r =? 32) || (r =? 45) || (r =? 46))%N
        then (replacement ++ rna_loop rest true replacement)%string
        else rna_loop rest last_sep replacement
    end.
  (** non_alphanumerics_replacement.go:64-80 replaceNonAlphanumerics *)
  Definition replaceNonAlphanumerics (content replacement : string) : string :=
    rna_loop (runes content) false replacement.

  (** types_utils.go:146-165 stringify.  SpecialCharacter gives its name, AttributeReference its
      source form, other elements "best effort" via fmt. *)
  Fixpoint stringify (v : val) : string :=
    match v with
    | VSlice l => (fix go (l : list val) : string :=
                     match l with [] => EmptyString | x :: r => (stringify x ++ go r)%string end) l
    | VStr s => s
    | StringElement s => s
    | SpecialCharacter s => s
    | AttributeReference n => ("{" ++ n ++ "}")%string
    | v => fmtv v
    end.

  (** types.go:3608-3618 Location.ToDisplayString; [None] for a value that is no location *)
  Definition toDisplayString (loc : val) : string :=
    match loc with
    | Location scheme path =>
        ((if String.eqb scheme "mailto:" then "" else scheme) ++ stringify path)%string
    | _ => ""
    end.

  (** strings.ReplaceAll(r, separator+separator, separator).  For an empty separator Go inserts
      the empty string between all runes, i.e. changes nothing. *)
  Definition dedup_sep (r separator : string) : string :=
    match separator with
    | EmptyString => r
    | _ => replace_all r (separator ++ separator)%string separator
    end.

  (** non_alphanumerics_replacement.go:28-62 replaceNonAlphanumericsOnElements.
      [one first e] is the text written for one element. *)
  Fixpoint rnae_one (separator : string) (first : bool) (e : val) {struct e} : string :=
    match e with
    | QuotedText _ els _ =>
        let body := (fix go (first : bool) (l : list val) : string :=
           match l with
           | [] => EmptyString
           | x :: r => (rnae_one separator first x ++ go false r)%string
           end) true els in
        (dedup_sep (trim_suffix body separator) separator ++ separator)%string
    | StringElement content =>
        let content := if first then trim_left_char " " content else content in
        replaceNonAlphanumerics content separator
    | InlineLink _ loc =>
        match loc with
        | VNil => EmptyString
        | _ => (replaceNonAlphanumerics (toDisplayString loc) separator ++ separator)%string
        end
    | Icon class attrs =>
        (replaceNonAlphanumerics (getAsStringD fmtv attrs AttrImageAlt class) separator
         ++ separator)%string
    | _ => EmptyString
    end.
  Fixpoint rnae_body (separator : string) (first : bool) (l : list val) : string :=
    match l with
    | [] => EmptyString
    | x :: r => (rnae_one separator first x ++ rnae_body separator false r)%string
    end.
  Definition replaceNonAlphanumericsOnElements (els : list val) (separator : string) : string :=
    dedup_sep (trim_suffix (rnae_body separator true els) separator) separator.

  (** non_alphanumerics_replacement.go:10-26 ReplaceNonAlphanumerics on a []interface{} *)
  Definition idFromElements (els : list val) (prefix separator : string) : string :=
    let replacement :=
      trim_suffix (replaceNonAlphanumericsOnElements els separator) separator in
    if has_prefix replacement prefix then replacement else (prefix ++ replacement)%string.

  (** non_alphanumerics_replacement.go:10-26 ReplaceNonAlphanumerics *)
  Definition ReplaceNonAlphanumerics (content : val) (prefix separator : string)
    : result string :=
    match content with
    | VStr s => Ok (prefix ++ s)%string
    | VSlice els => Ok (idFromElements els prefix separator)
    | _ => Err "unexpected type of content"
    end.

  (** types.go:2545-2563 Section.resolveID: the base id (before de-duplication).  The write of the base
      id into s.Attributes is subsumed by the later write in ResolveID. *)
  Definition baseID (docattrs sattrs : attributes) (title : option (list val)) : string :=
    let id := getAsStringD fmtv sattrs AttrID "" in
    if negb (String.eqb id "") then id
    else
      let prefix := getAsStringD fmtv docattrs AttrIDPrefix DefaultIDPrefix in
      let separator := getAsStringD fmtv docattrs AttrIDSeparator DefaultIDSeparator in
      idFromElements (match title with Some t => t | None => [] end) prefix separator.

  (** candidate number [i] (i >= 1) of the loop in ResolveID *)
  Definition candidate (base : string) (i : N) : string :=
    if (i =? 1)%N then base else (base ++ "_" ++ itoaN i)%string.

  (** types.go:2523-2542 Section.ResolveID: [for i := 1; ; i++].  The Go loop has no bound; [fuel] is
      one more than the number of references, which [resolve_terminates] shows to be enough. *)
  Fixpoint resolve_loop (fuel : nat) (base : string) (i : N) (refs : gomap val) : option string :=
    match fuel with
    | O => None
    | S f => if mhas refs (candidate base i) then resolve_loop f base (i + 1) refs
             else Some (candidate base i)
    end.
  Definition resolveUnique (base : string) (refs : gomap val) : option string :=
    resolve_loop (S (List.length refs)) base 1 refs.

  (** types.go:2523-2542 Section.ResolveID applied to a section *)
  Definition sectionResolveID (docattrs : attributes) (refs : gomap val) (s : val) : option val :=
    match s with
    | Section lvl sattrs title els =>
        match resolveUnique (baseID docattrs sattrs title) refs with
        | Some id => Some (Section lvl (mset sattrs AttrID (VStr id)) title els)
        | None => None
        end
    | _ => Some s
    end.

  (** types.go:2567-2572 Section.Reference *)
  Definition sectionReference (s : val) (refs : gomap val) : gomap val :=
    match s with
    | Section _ sattrs (Some title) _ =>
        let id := getAsStringD fmtv sattrs AttrID "" in
        if String.eqb id "" then refs else mset refs id (VSlice title)
    | _ => refs
    end.

  (** types.go:2457-2460 Section.GetID *)
  Definition sectionID (s : val) : string :=
    match s with
    | Section _ sattrs _ _ => match getAsString sattrs AttrID with Some id => id | None => "" end
    | _ => ""
    end.

  (** types.go:1891-1915 InternalCrossReference.ResolveID *)
  Definition xrefResolveID (docattrs : attributes) (id : val) : result val :=
    let prefix := getAsStringD fmtv docattrs AttrIDPrefix DefaultIDPrefix in
    let separator := getAsStringD fmtv docattrs AttrIDSeparator DefaultIDSeparator in
    match id with
    | VSlice _ => do r <- ReplaceNonAlphanumerics id prefix separator; Ok (VStr r)
    | VStr s =>
        if contains s " "
        then do r <- ReplaceNonAlphanumerics (VSlice [StringElement s]) prefix separator;
             Ok (VStr r)
        else Ok id
    | _ => Ok id
    end.

End Ids.
