(** What the properties about parsing say, on top of Peg.v (how the generated parser runs) and
    PegGrammar.v (the grammar it runs). *)
From Coq Require Import List String NArith ZArith Bool.
From Verif Require Import Peg PegGrammar.
Import ListNotations.

(** from an entry point, on a text, with a global store: the parser stops with the outcome [r],
    however deep its calls are allowed to go beyond some depth *)
Definition parses_to (H : host) (entry : string) (text : list rune) (g : HS H) (r : res H) : Prop :=
  exists n, forall m, n <= m -> parse H the_grammar m entry text g = Some r.

(** the whole text was read *)
Definition read_entirely {H} (r : res H) : Prop :=
  match r with ROk _ p _ _ => rest p = [] | _ => False end.
(** the parser reports "no match found" *)
Definition no_match {H} (r : res H) : Prop := match r with RFail _ _ => True | _ => False end.
(** code of the grammar panicked (Parse returns the panic as an error) *)
Definition panicked {H} (r : res H) : Prop := match r with RPanic => True | _ => False end.

(** pkg/parser/generate.go:3 the entry points *)
Definition entry_points : list string :=
  ["DocumentRawLine"; "DocumentFragment"; "NormalGroup"; "AttributeStructuredValue"; "DelimitedBlockElements";
   "AttributeDeclarationValue"; "FileLocation"; "IncludedFileLine"; "MarkdownQuoteAttribution"; "BlockAttributes";
   "InlineAttributes"; "TableColumnsAttribute"; "LineRanges"; "TagRanges"; "DocumentAuthorFullName"]%string.

(** the code of the grammar never panics *)
Definition no_panics (H : host) : Prop :=
  (forall c en s, h_act H c en s <> None) /\ (forall c en s, h_pred H c en s <> None) /\ (forall c en s, h_state H c en s <> None).
