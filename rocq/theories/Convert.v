(** Model of the whole conversion, from the preprocessed text to the output: ParseDocument
    (pkg/parser/document_processing.go:16-48), and Convert after Preprocess (libasciidoc.go:62-107).

    The stages of ParseDocument run one after the other here; in Go they run concurrently, linked by
    channels that keep the order (see Pipeline.v), each with its own context.
    [n] bounds the steps of the parsers, the nesting of blocks and the depth of the stack of the
    renderer: what the program does is what [convert] gives for all large [n]. *)
From Coq Require Import List String NArith ZArith Bool.
From Verif Require Import GoBase Utf8 Types Attrs Context Elements Merge Subs Refs Footnotes Filter Lists Aggregate Toc Config
  Validator RenderAttrs Render ApplySubs.
From Verif Require Peg PegGrammar PegDoc PegHost.
Import ListNotations.
Local Open Scope string_scope.
Local Open Scope list_scope.

Section Convert.
(** the grammar's Unicode classes and the unmodelled actions, see PegHost.v *)
Variable X : Type.
Variable cls : string -> Peg.rune -> bool.
Variable low : Peg.rune -> Peg.rune.
Variable white : Peg.rune -> bool.
Variable other : string -> Peg.labels (PegHost.hv X) -> Peg.soft PegHost.gstore (option (list string)) -> option (Peg.value (PegHost.hv X) * bool).
(** what the renderer depends on, see Render.v (the fields e_refs, e_numbers and e_hasHeader are computed) *)
Variable E : renv.
(** types.go:3837-3863 SetColumnDefinitions; C33 is about it *)
Variable setColumns : val -> list val -> result val.
Notation H := (PegHost.go_host X cls low white other).
Notation gv := (Peg.value (PegHost.hv X)).

(** context.go:21-41 NewParseContext: the global store of a parser given the options of the context, with
    other substitutions; [user]: the names of the user macros *)
Definition ctx_store (user : list string) (exp : option bool) (subs : list string) : PegHost.gstore :=
  PegHost.GStore None (Some true) (Some true) None None (Some subs) None exp user None.
(** the global store of a parser that is given the substitutions only *)
Definition bare_store (subs : list string) : PegHost.gstore :=
  PegHost.GStore None None None None None (Some subs) None None [] None.

(** parser_ext.go:16-29 parseContent, from the result of the parser.  A panic of an action is turned into
    an error (p.recover) *)
Definition parsed (r : option (Peg.res H)) : result (list val) :=
  match r with
  | None => Panic "model: out of fuel"
  | Some (Peg.ROk v _ _ s) =>
      if Peg.p_errs s then Err "parse error"
      else match PegHost.vals X v with
           | Some l => Ok l
           | None => match (v : gv) with Peg.VList _ => Panic "model: value not modelled" | _ => Err "unexpected type of result after parsing content" end
           end
  | Some (Peg.RFail _ _) => Err "no match found"
  | Some Peg.RPanic => Err "panic"
  end.

(** document_processing_apply_substitutions.go:606-652 parseWithSubstitutions.  The parsers read runes:
    the bytes are decoded first *)
Definition parseWithSubstitutions (n : nat) (user : list string) (ctx : option (option bool)) (entry : string) (content : val)
  (subs : list string) : result (list val) :=
  do sp <- serialize content;
  let (s, ph) := (sp : string * list (string * val)) in
  if String.eqb s "" then Ok []
  else
    do es <- parsed (Peg.parse H PegGrammar.the_grammar n entry (runes s)
                       (match ctx with Some exp => ctx_store user exp subs | None => bare_store subs end));
    restore (S (sizes es)) ph es.

(** document_processing_apply_substitutions.go:432-451: the author at the end of a Markdown quote *)
Definition quoteAttribution (n : nat) (line : string) : option string :=
  match Peg.parse H PegGrammar.the_grammar n "MarkdownQuoteAttribution" (runes line) (PegHost.GStore None None None None None None None None [] None) with
  | Some (Peg.ROk v _ _ s) => if Peg.p_errs s then None else match (v : gv) with Peg.VStr t => Some (encode_runes t) | _ => None end
  | _ => None
  end.

(** document_processing_refine_fragments.go:138-161 reparseElements *)
Fixpoint drop_nils (l : list val) : list val := match l with VNil :: r => drop_nils r | _ => l end.
Definition reparseElements (n : nat) (user : list string) (es : list val) : result (list val) :=
  do sp <- serialize (VSlice es);
  let (s, ph) := (sp : string * list (string * val)) in
  do l <- parsed (Peg.parse H PegGrammar.the_grammar n "DelimitedBlockElements" (runes s) (ctx_store user None normalSubstitutions));
  let l := rev (drop_nils (rev l)) in
  restore (S (sizes l)) ph l.

(** document_processing_parse_fragments.go:41-66: what is sent for an element *)
Definition elements_of (v : gv) : Footnotes.fragment :=
  match v with
  | Peg.VList _ => match PegHost.vals X v with Some l => inl l | None => inr "model: value not modelled" end
  | _ => match PegHost.to_val X v with Some x => inl [x] | None => inr "model: value not modelled" end
  end.
(** document_processing_parse_fragments.go:13-73 ParseDocumentFragments *)
Definition parseStage (n : nat) (user : list string) (text : list Peg.rune) : option (list Footnotes.fragment) :=
  match PegDoc.parse_fragments H n text (ctx_store user None normalSubstitutions) with
  | None => None
  | Some (fs, ending, _) =>
      Some (map (fun f : PegDoc.fragment H => elements_of (PegDoc.f_element f : gv)) fs ++
            match ending with PegDoc.Failed => [inr "parse error"] | _ => [] end)
  end.

Definition toFrag (f : Footnotes.fragment) : Aggregate.fragment :=
  match f with inl es => Frag es | inr e => ErrFrag e end.
Definition plainText (l : list val) : result string := renderPlainText E (VSlice l).

(** document_processing.go:16-48 ParseDocument: the document and its footnotes *)
Definition parseDocument (n : nat) (user : list string) (attrs : attributes) (text : list Peg.rune)
  : result (Aggregate.document * list val) :=
  match parseStage n user text with
  | None => Panic "model: out of fuel"
  | Some fs0 =>
      do fs1 <- refineStage (reparseElements n user) n fs0;
      do fs2 <- applyStage plainText (e_fmtv E) (parseWithSubstitutions n user) (quoteAttribution n) setColumns
                   (mkActx (newContextAttributes attrs) [] None) fs1;
      let (notes, fs3) := collectStage newFootnotes fs2 in
      let fs4 := map arrangeLists fs3 in
      let fs5 := filterStage fs4 in
      match aggregate (cls "L") (cls "N") (e_fmtv E) (newContextAttributes attrs) (map toFrag fs5) with
      | None => Panic "model: out of fuel"
      | Some d =>
          (* document_processing_aggregate.go:14-24 Aggregate *)
          do els <- insertPreamble (d_elements d);
          Ok (mkDoc els (d_refs d) (d_toc d), fn_notes notes)
      end
  end.

(** libasciidoc.go:62-107 Convert, after the preprocessor: what is written, the title of the metadata, and the
    attributes of the configuration afterwards *)
Definition convert (n : nat) (c : config) (text : list Peg.rune) : result (string * string * attributes) :=
  do dn <- parseDocument n (map fst (c_macros c)) (attrs_of c) text;
  let (d, notes) := (dn : Aggregate.document * list val) in
  do c' <- validateInto (e_toLower E) (e_fmtv E) (d_elements d) c;
  let E' := mkRenv (e_xhtml E) (e_toLower E) (e_fmtv E) (e_columns E) (e_src E) (e_alt E) (e_iconpath E) (e_macro E) (e_raw E)
                   (e_highlight E) (d_refs d) [] false in
  render E' n (mkRconf (c_wrap c') (c_updated c') (c_css c'))
    (mkRdoc (d_elements d) (option_map toc_sections (d_toc d)) notes) (c_attrs c').
End Convert.
