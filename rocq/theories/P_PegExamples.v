(** C61, C62, C63, C64: particular texts, for every code the grammar may run; what the general
    theorems of P_PegParse.v cannot promise. *)
From Coq Require Import List String NArith ZArith Bool Arith Lia.
From Verif Require Import Peg PegGrammar PegSpec PegDoc PegSym P_PegSym P_PegTerm P_PegParse.
Import ListNotations.
Local Open Scope list_scope.

Lemma symbolic_covers : forall k (H : host) G entry text g r outs, unicode_ok H ->
  symbolic G k (ERef entry) (Pos [] text) [] = Some outs ->
  (exists n, forall m, n <= m -> parse H G m entry text g = Some r) -> covers H [] (Pos [] text) (Soft [] [] false g (state0 H)) outs r.
Proof.
  intros k H G entry text g r outs U E (n & P).
  destruct (symbolic_ok H G k _ _ (Soft [] [] false g (state0 H)) _ U E) as (r' & E' & C).
  assert (r' = r) as <-; [|exact C].
  assert (eval H G (Nat.max n k) (ERef entry) (Pos [] text) [] (Soft [] [] false g (state0 H)) = Some r') as X.
  { eapply eval_mono; [|exact E']. apply Nat.le_max_r. }
  specialize (P (Nat.max n k) (Nat.le_max_l _ _)). unfold parse in P. congruence.
Qed.
(** no outcome succeeds *)
Definition never_ok (outs : option (list out)) : bool :=
  match outs with Some l => forallb (fun o => match o with OOk _ _ _ _ => false | _ => true end) l | None => false end.
(** every outcome succeeds and reads everything, or the code panicked *)
Definition always_reads (outs : option (list out)) : bool :=
  match outs with
  | Some l => forallb (fun o => match o with OOk _ p _ _ => at_eof p | OFail _ => false | OPanic => true end) l
  | None => false
  end.
Section Outcomes.
  Variable k : nat.
  Variable G : grammar.
  Definition outcomes (entry : string) (text : list rune) : option (list out) :=
    symbolic G k (ERef entry) (Pos [] text) [].
  Definition stops (H : host) entry text (g : HS H) (r : res H) : Prop := exists n, forall m, n <= m -> parse H G m entry text g = Some r.

  Lemma never_ok_ok : forall (H : host) entry text g r, unicode_ok H -> never_ok (outcomes entry text) = true ->
    stops H entry text g r -> no_match r \/ panicked r.
  Proof.
    intros H entry text g r U N P. unfold never_ok in N. destruct (outcomes entry text) as [outs|] eqn:E; [|discriminate].
    destruct (symbolic_covers k H G entry text g r outs U E P) as (o & I & R). rewrite forallb_forall in N. specialize (N _ I).
    destruct o; [discriminate| |]; destruct r; cbn in R |- *; tauto.
  Qed.
  Lemma always_reads_ok : forall (H : host) entry text g r, unicode_ok H -> always_reads (outcomes entry text) = true ->
    stops H entry text g r -> read_entirely r \/ panicked r.
  Proof.
    intros H entry text g r U N P. unfold always_reads in N. destruct (outcomes entry text) as [outs|] eqn:E; [|discriminate].
    destruct (symbolic_covers k H G entry text g r outs U E P) as (o & I & R). rewrite forallb_forall in N. specialize (N _ I).
    destruct o; [| discriminate |]; destruct r; cbn in R |- *; try tauto.
    destruct R as (-> & _). left. unfold at_eof in N. unfold whole. cbn [rest]. destruct (rest p); [reflexivity|discriminate].
  Qed.
End Outcomes.

(** C62: not every document is accepted.  A document made of one no-break space is not blank for
    the rule BlankLine and not a paragraph either (its text is white for strings.TrimSpace). *)
Definition nbsp : rune := 160%N.
Theorem C62_document_always_accepted_refuted : forall (H : host) g r, unicode_ok H ->
  parses_to H "DocumentFragment" [nbsp] g r -> no_match r \/ panicked r.
Proof. intros H g r U. apply (never_ok_ok 60 the_grammar); [exact U|vm_compute; reflexivity]. Qed.

(** C64: the comparison operators of ifeval.  "<" is tried before "<=", so that the latter is never seen *)
Definition ifeval_line (op : string) : list rune := R ("ifeval::[1 " ++ op ++ " 2]")%string.
Theorem C64_ifeval_operators_accepted : forall (H : host) op g r, unicode_ok H ->
  In op ["=="; "!="; "<"; ">"]%string ->
  parses_to H "DocumentRawLine" (ifeval_line op) g r -> read_entirely r \/ panicked r.
Proof.
  intros H op g r U I. cbn in I.
  repeat (destruct I as [<-|I]; [apply (always_reads_ok 60 the_grammar); [exact U|vm_compute; reflexivity]|]). destruct I.
Qed.
Theorem C64_ifeval_operators_accepted_refuted : forall (H : host) op g r, unicode_ok H ->
  In op ["<="; ">="]%string ->
  parses_to H "DocumentRawLine" (ifeval_line op) g r -> no_match r \/ panicked r.
Proof.
  intros H op g r U I. cbn in I.
  repeat (destruct I as [<-|I]; [apply (never_ok_ok 60 the_grammar); [exact U|vm_compute; reflexivity]|]). destruct I.
Qed.

(** C63: the loop may also stop without an error before the end: here after the block attribute of
    a document whose next line is a no-break space; the rest of the document is dropped. *)
Definition dropping : list rune := R "[foo]
" ++ [nbsp] ++ R "
b".
Lemma fragment_of_dropping : forall (H : host) s n r, unicode_ok H ->
  eval H the_grammar n (ERef "DocumentFragment") (Pos [] dropping) [] s = Some r ->
  match r with ROk v p _ _ => v = VNil /\ rest p = [nbsp; 10%N; 98%N] | _ => True end.
Proof.
  assert (forall k G outs, symbolic G k (ERef "DocumentFragment") (Pos [] dropping) [] = Some outs ->
    forall (H : host) s n r, unicode_ok H -> eval H G n (ERef "DocumentFragment") (Pos [] dropping) [] s = Some r ->
    covers H [] (Pos [] dropping) s outs r) as X.
  { intros k G outs E H s n r U Er. destruct (symbolic_ok H G k _ _ s _ U E) as (r' & E' & C).
    apply (eval_mono H G n (Nat.max n k) (Nat.le_max_l _ _)) in Er.
    apply (eval_mono H G k (Nat.max n k) (Nat.le_max_r _ _)) in E'. congruence. }
  intros H s n r U Er.
  destruct (X 60 the_grammar _ ltac:(vm_compute; reflexivity) H s n r U Er) as (o & I & R). clear X Er.
  cbn [In] in I. repeat (destruct I as [<-|I]); try (destruct I); destruct r; cbn in R |- *; try tauto.
  all: destruct R as (-> & -> & _); auto.
Qed.
Theorem C63_every_document_read_entirely_refuted : forall (H : host) n g fs e q, unicode_ok H ->
  parse_fragments H n dropping g = Some (fs, e, q) ->
  fs = [] /\ e <> Finished.
Proof.
  intros H n g fs e q U E. unfold parse_fragments in E. destruct n as [|n]; [discriminate|].
  remember (S n) as m eqn:Em. rewrite Em in E. cbn [fragments] in E. rewrite <- Em in E. unfold next in E.
  change (at_eof (Pos [] dropping)) with false in E. cbn iota in E.
  destruct (eval H the_grammar m (ERef "DocumentFragment") (Pos [] dropping) [] (Soft [] [] false g (state0 H))) as [[v p en s|p s|]|] eqn:Er;
    [|injection E as <- <- <-; split; [auto|discriminate]|injection E as <- <- <-; split; [auto|discriminate]|discriminate].
  apply (fragment_of_dropping H _ _ _ U) in Er. destruct Er as [-> R].
  destruct (p_errs s); injection E as <- <- <-; split; auto; discriminate.
Qed.

(** code that keeps the name of the block it runs and whose predicates all hold *)
Definition demo : host :=
  Host string unit unit tt
    (fun c r => match known_class c r with Some b => b | None => false end)
    (fun r => match known_lower r with Some b => b | None => r end)
    (fun r => match known_white r with Some b => b | None => false end)
    (fun c _ s => Some (VHost c, false, c_store s))
    (fun _ _ s => Some (true, false, c_store s))
    (fun _ _ s => Some (false, c_store s, c_state s)).
Lemma demo_unicode : unicode_ok demo.
Proof. repeat split; cbn; intros; rewrite H; reflexivity. Qed.
Lemma demo_no_panics : no_panics demo.
Proof. repeat split; discriminate. Qed.
(** with it the loop above stops silently: no fragment, no error, three runes left *)
Theorem C63_dropping_stops : exists q, parse_fragments demo 60 dropping tt = Some ([], Stopped, q) /\ rest q = [nbsp; 10%N; 98%N].
Proof. eexists. split; [vm_compute; reflexivity|reflexivity]. Qed.

(** the hypotheses of the theorems of P_PegParse.v are met *)
Theorem C62_parses_inline : exists v p en s, parse demo the_grammar 60 "NormalGroup" (R "some *bold* text & more") tt = Some (ROk v p en s) /\ rest p = [].
Proof. do 4 eexists. split; [vm_compute; reflexivity|reflexivity]. Qed.
Theorem C62_parses_included : exists v p en s, parse demo the_grammar 60 "IncludedFileLine" (R "a // tag::x[] b") tt = Some (ROk v p en s) /\ rest p = [].
Proof. do 4 eexists. split; [vm_compute; reflexivity|reflexivity]. Qed.
Theorem C62_parses_raw_line : exists v p en s, parse demo the_grammar 60 "DocumentRawLine" (R ":name: value") tt = Some (ROk v p en s) /\ rest p = [].
Proof. do 4 eexists. split; [vm_compute; reflexivity|reflexivity]. Qed.
Definition two_blocks : list rune := R "hello
world

----
code
----
".
Theorem C63_parses_document : exists fs q, parse_fragments demo 90 two_blocks tt = Some (fs, Finished, q) /\
  map (fun f => (f_start f, f_end f)) fs = [(0, 12); (12, 13); (13, 28)].
Proof. do 2 eexists. split; [vm_compute; reflexivity|reflexivity]. Qed.

Print Assumptions C62_document_always_accepted_refuted.
Print Assumptions C63_every_document_read_entirely_refuted.
Print Assumptions C64_ifeval_operators_accepted.
Print Assumptions C64_ifeval_operators_accepted_refuted.
