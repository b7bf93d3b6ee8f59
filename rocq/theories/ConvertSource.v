(** Model of the conversion from the source: Preprocess (pkg/parser/document_preprocessing.go:19-22) with the
    rule DocumentRawLine of the generated parser, then [convert]: Convert (libasciidoc.go:42-107). *)
From Coq Require Import List String NArith ZArith Bool.
From Verif Require Import GoBase Utf8 Types Attrs Context Subs Cond Include Preprocess Config Validator Render.
From Verif Require Peg PegGrammar PegHost.
From Verif Require Import Convert.
Import ListNotations.
Local Open Scope string_scope.
Local Open Scope list_scope.

Section ConvertSource.
(** see Convert.v *)
Variable X : Type.
Variable cls : string -> Peg.rune -> bool.
Variable low : Peg.rune -> Peg.rune.
Variable white : Peg.rune -> bool.
Variable other : string -> Peg.labels (PegHost.hv X) -> Peg.soft PegHost.gstore (option (list string)) -> option (Peg.value (PegHost.hv X) * bool).
Variable E : renv.
Variable setColumns : val -> list val -> result val.
(** what an element built by an action that is not modelled is, for the preprocessor (file inclusions) *)
Variable raw_of : X -> option rawelt.
Notation H := (PegHost.go_host X cls low white other).
Notation gv := (Peg.value (PegHost.hv X)).

(** context.go:21-41 NewParseContext: the global store of a parser given the options of the context of the
    preprocessor *)
Definition raw_store (user : list string) (secs within : bool) : PegHost.gstore :=
  PegHost.GStore None (Some true) (Some true) (Some within) None (Some normalSubstitutions) (Some secs) None user None.
Definition raw_element (v : gv) : option rawelt :=
  match v with
  | Peg.VHost (PegHost.HDelim k z _) => Some (RDelim k z)
  | Peg.VHost (PegHost.HCond c) => Some (RCond c)
  | Peg.VHost PegHost.HEndIf => Some REnd
  | Peg.VHost (PegHost.HSection z) => Some (RSection z)
  | Peg.VHost (PegHost.HVal (AttributeDeclaration k x)) => Some (RDecl k x)
  | Peg.VHost (PegHost.HVal (AttributeReset k)) => Some (RReset k)
  | Peg.VHost (PegHost.HOther x) => raw_of x
  | _ => None
  end.
(** document_preprocessing.go:35-36: the parser on one line ([None]: it reports an error, or [n] is not large
    enough).  The bytes of the line are decoded first: that invalid UTF-8 is reported as an error is not
    modelled *)
Definition rawLine (n : nat) (user : list string) (secs within : bool) (line : string) : option rawelt :=
  match Peg.parse H PegGrammar.the_grammar n "DocumentRawLine" (runes line) (raw_store user secs within) with
  | Some (Peg.ROk v _ _ s) => if Peg.p_errs s then None else raw_element v
  | _ => None
  end.

(** see Preprocess.v *)
Variable fileLine : string -> option (list lineitem).
Variable parseLineRanges : string -> option (list linerange).
Variable parseTagRanges : string -> option (list tagrange).
Variable target : ctxattrs -> val -> result string.
Variable joinPath : string -> string -> string.
Variable dirOf : string -> string.
Variable absPath : string -> string -> string.
Variable isAsciidoc : string -> bool.
Variable dirOK : string -> bool.
Variable readFile : string -> option string.

(** document_preprocessing.go:19-22 Preprocess, in the working directory [cwd] *)
Definition Preprocess (n : nat) (cwd : string) (c : config) (source : string) : run (string * list offset) :=
  preprocess (rawLine n (map fst (c_macros c))) fileLine parseLineRanges parseTagRanges target joinPath dirOf absPath isAsciidoc dirOK readFile
    n cwd (mkP (c_filename c) (newContextAttributes (attrs_of c)) [] false false) source.
(** libasciidoc.go:42-107 Convert *)
Definition convertSource (n : nat) (cwd : string) (c : config) (source : string) : result (string * string * attributes) :=
  match Preprocess n cwd c source with
  | RDone (p, _) _ => convert X cls low white other E setColumns n c (runes p)
  | RErr m _ => Err m
  | RPanic m _ => Panic m
  | RTimeout => Panic "model: out of fuel"
  end.
End ConvertSource.
