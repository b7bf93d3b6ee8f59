(** The sequential reading of the pipeline: each stage run to its end on the whole list of fragments, one stage after
    another, then the aggregation.  No goroutine, no channel. *)
From Verif Require Import GoBase.

Section Seq.
  Variables F S A E : Type.
  (** one stage on all fragments *)
  Fixpoint run_stage (f : S -> F -> S * F) (s : S) (l : list F) : S * list F :=
    match l with
    | [] => (s, [])
    | x :: r => let (s1, y) := f s x in let (s2, ys) := run_stage f s1 r in (s2, y :: ys)
    end.
  (** all stages: the states they end with, and the fragments that come out *)
  Fixpoint run_stages (fs : list ((S -> F -> S * F) * S)) (l : list F) : list S * list F :=
    match fs with
    | [] => ([], l)
    | (f, s) :: r => let (s', l') := run_stage f s l in let (ss, out) := run_stages r l' in (s' :: ss, out)
    end.
  (** the aggregation stops at its first error *)
  Fixpoint run_agg (agg : A -> F -> A + E) (a : A) (l : list F) : A + E :=
    match l with
    | [] => inl a
    | x :: r => match agg a x with inl a' => run_agg agg a' r | inr e => inr e end
    end.
End Seq.
Arguments run_stage {F S}. Arguments run_stages {F S}. Arguments run_agg {F A E}.
