(** Model of the goroutines of pkg/parser/document_processing.go: ParseDocument and of the stages it connects with
    buffered channels, as a small-step semantics in which any goroutine which is able to move may move.

    What a stage does with one fragment is a function of its private state and the fragment (each stage has a
    ParseContext of its own, document_processing.go:20-29; a fragment is owned by one stage at a time): it is one atomic
    step here.  A fragment is computed before the [select] that sends it, as in Go. *)
From Verif Require Import GoBase.

Section Pipeline.
  Variables F S : Type.

  (** document_processing.go:13 bufferSize *)
  Definition bufferSize : nat := 10.

  (** A chain of goroutines, the last one outermost.
      [Src todo err buf closed]: document_processing_parse_fragments.go:12-73 ParseDocumentFragments -- the fragments
      still to be sent and, when parsing ends with an error, the error fragment sent last; its output channel.
      [Stg up f s held buf closed]: a stage with input [up], function [f], private state [s], the fragment it is about to
      send, and its output channel; it closes the channel when it returns (defer close), so [closed] also tells that the
      goroutine has ended. *)
  Inductive chain :=
  | Src (todo : list F) (err : option F) (buf : list F) (closed : bool)
  | Stg (up : chain) (f : S -> F -> S * F) (s : S) (held : option F) (buf : list F) (closed : bool).

  (** the output channel *)
  Definition buf (c : chain) : list F := match c with Src _ _ b _ => b | Stg _ _ _ _ b _ => b end.
  Definition closed (c : chain) : bool := match c with Src _ _ _ x => x | Stg _ _ _ _ _ x => x end.
  (** receiving from the output channel *)
  Definition set_buf (c : chain) (b : list F) : chain :=
    match c with Src t e _ x => Src t e b x | Stg u f s h _ x => Stg u f s h b x end.
  Definition room (b : list F) : Prop := (List.length b < bufferSize)%nat.

  (** a move of one of the goroutines; [done]: the channel [done] is closed *)
  Inductive move (done : bool) : chain -> chain -> Prop :=
  (* document_processing_parse_fragments.go:59-65: select { <-done; resultStream <- f } *)
  | src_send f t e b : room b -> move done (Src (f :: t) e b false) (Src t e (b ++ [f]) false)
  | src_done f t e b : done = true -> move done (Src (f :: t) e b false) (Src t e b true)
  (* document_processing_parse_fragments.go:17-24, 41-45: resultStream <- NewErrorFragment, without select *)
  | src_error f b : room b -> move done (Src [] (Some f) b false) (Src [] None (b ++ [f]) false)
  (* document_processing_parse_fragments.go:46-48, 67: no more element; the channel is closed *)
  | src_end b : move done (Src [] None b false) (Src [] None b true)
  (* for fragment := range fragmentStream, e.g. document_processing_refine_fragments.go:18 *)
  | stg_recv up f s b x r : buf up = x :: r ->
      move done (Stg up f s None b false) (Stg (set_buf up r) f (fst (f s x)) (Some (snd (f s x))) b false)
  | stg_end up f s b : buf up = [] -> closed up = true ->
      move done (Stg up f s None b false) (Stg up f s None b true)
  (* select { resultStream <- ...; <-done }, e.g. document_processing_refine_fragments.go:19-24 *)
  | stg_send up f s x b : room b -> move done (Stg up f s (Some x) b false) (Stg up f s None (b ++ [x]) false)
  | stg_done up f s x b : done = true -> move done (Stg up f s (Some x) b false) (Stg up f s None b true)
  | stg_up up up' f s h b c : move done up up' -> move done (Stg up f s h b c) (Stg up' f s h b c).

  (** document_processing.go:16-46 ParseDocument: the caller aggregates the fragments of the last channel; when it returns
      ([defer close(done)]) the channel [done] is closed.  [agg] gives [inr] when the aggregation stops with an error. *)
  Variables A E : Type.
  Variable agg : A -> F -> A + E.
  Inductive caller := Running (a : A) | Returned (r : A + E).
  Record system := mkSys { sys_chain : chain; sys_caller : caller }.
  Definition is_done (c : caller) : bool := match c with Running _ => false | Returned _ => true end.
  Inductive step : system -> system -> Prop :=
  | st_move c c' k : move (is_done k) c c' -> step (mkSys c k) (mkSys c' k)
  | st_recv c x r a : buf c = x :: r ->
      step (mkSys c (Running a))
           (mkSys (set_buf c r) (match agg a x with inl a' => Running a' | inr e => Returned (inr e) end))
  | st_return c a : buf c = [] -> closed c = true -> step (mkSys c (Running a)) (mkSys c (Returned (inl a))).

  Inductive steps : system -> system -> Prop :=
  | steps_refl s : steps s s
  | steps_cons s1 s2 s3 : step s1 s2 -> steps s2 s3 -> steps s1 s3.

  (** the chain of ParseDocument at the start: [fs] the functions of the stages, the first one first *)
  Definition start_chain (todo : list F) (err : option F) (fs : list ((S -> F -> S * F) * S)) : chain :=
    fold_left (fun c (p : (S -> F -> S * F) * S) => Stg c (fst p) (snd p) None [] false) fs (Src todo err [] false).
  (** the private states of the stages, the first one first *)
  Fixpoint states (c : chain) : list S :=
    match c with Src _ _ _ _ => [] | Stg u _ s _ _ _ => states u ++ [s] end.
  (** all goroutines have ended *)
  Fixpoint ended (c : chain) : Prop :=
    match c with Src _ _ _ x => x = true | Stg u _ _ _ _ x => x = true /\ ended u end.
End Pipeline.
Arguments Src {F S}. Arguments Stg {F S}. Arguments buf {F S}. Arguments closed {F S}. Arguments set_buf {F S}.
Arguments move {F S}. Arguments start_chain {F S}. Arguments states {F S}. Arguments ended {F S}.
Arguments mkSys {F S A E}. Arguments Running {A E}. Arguments Returned {A E}. Arguments step {F S A E}. Arguments steps {F S A E}.
Arguments sys_chain {F S A E}. Arguments sys_caller {F S A E}. Arguments room {F}.
