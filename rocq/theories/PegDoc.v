(** Model of the loop that reads the fragments of a document,
    pkg/parser/document_processing_parse_fragments.go:13-73, and of parser.next,
    pkg/parser/parser_ext.go:63-118.  Offsets count runes instead of bytes; the channels, the
    [done] signal and the logs are not modelled. *)
From Coq Require Import List String NArith ZArith Bool.
From Verif Require Import Peg PegGrammar.
Import ListNotations.

Section Doc.
  Variable H : host.
  (** document_processing_parse_fragments.go:48-58 a fragment: where it starts and ends, its element *)
  Record fragment := Frag { f_start : nat; f_end : nat; f_element : value (HV H) }.
  (** how the loop ends: nothing left; an error fragment; [element == nil] *)
  Inductive ending := Finished | Failed | Stopped.

  (** parser_ext.go:63-119 next: at the end there is no element; otherwise the entry point is run;
      any error recorded so far is returned *)
  Inductive next_res := NextEnd | NextErr | NextOk (v : value (HV H)) (p : pos) (s : soft (HS H) (HT H)).
  Definition next (n : nat) (p : pos) (s : soft (HS H) (HT H)) : option next_res :=
    if at_eof p then Some NextEnd
    else match eval H the_grammar n (ERef "DocumentFragment") p [] s with
         | None => None
         | Some (ROk v p' _ s') => Some (if p_errs s' then NextErr else NextOk v p' s')
         | Some (RFail _ _) => Some NextErr
         | Some RPanic => Some NextErr
         end.

  (** document_processing_parse_fragments.go:27-71: the fragments sent, how the loop ended and the
      position at that point *)
  Fixpoint fragments (n : nat) (p : pos) (s : soft (HS H) (HT H)) : option (list fragment * ending * pos) :=
    match n with
    | O => None
    | S n' =>
        match next n p s with
        | None => None
        | Some NextEnd => Some ([], Finished, p)
        | Some NextErr => Some ([], Failed, p)
        | Some (NextOk v p' s') =>
            match v with
            | VNil => Some ([], Stopped, p')
            | _ =>
                match fragments n' p' s' with
                | None => None
                | Some (fs, e, q) => Some (Frag (List.length (before p)) (List.length (before p')) v :: fs, e, q)
                end
            end
        end
    end.
  (** document_processing_parse_fragments.go:15-26 *)
  Definition parse_fragments (n : nat) (text : list rune) (g : HS H) : option (list fragment * ending * pos) :=
    fragments n (Pos [] text) (Soft [] [] false g (state0 H)).

  (** the fragments follow each other from offset [a] to offset [b], none of them empty *)
  Inductive consecutive : nat -> list fragment -> nat -> Prop :=
  | cons_nil : forall a, consecutive a [] a
  | cons_frag : forall a b v fs c, a < b -> consecutive b fs c -> consecutive a (Frag a b v :: fs) c.
End Doc.
Arguments Frag {H}. Arguments f_start {H}. Arguments f_end {H}. Arguments f_element {H}.
Arguments consecutive {H}.
