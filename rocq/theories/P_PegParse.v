(** C61-C63: parsing ends, on every text, from every entry point, whatever the Go code of the
    grammar does; inline content and included lines are always accepted and read entirely; the
    fragments of a document follow each other. *)
From Coq Require Import List String NArith ZArith Bool Arith Lia.
From Verif Require Import Peg PegGrammar PegAna PegTable P_PegAna P_PegTerm PegSpec PegDoc.
Import ListNotations.
Open Scope list_scope.

Lemma eval_fun : forall H n m e p en s r r',
  eval H the_grammar n e p en s = Some r -> eval H the_grammar m e p en s = Some r' -> r = r'.
Proof.
  intros H n m e p en s r r' A B.
  pose proof (eval_mono H the_grammar n (Nat.max n m) ltac:(lia) _ _ _ _ _ A) as A'.
  pose proof (eval_mono H the_grammar m (Nat.max n m) ltac:(lia) _ _ _ _ _ B) as B'. congruence.
Qed.
Lemma eval_halts : forall H e p en s, loops_ok the_table e = true ->
  exists n r, forall m, n <= m -> eval H the_grammar m e p en s = Some r.
Proof.
  intros H e p en s LO.
  destruct (always_halts H the_grammar the_table the_ranks the_table_ok the_loops_ok the_ranks_ok _ p
    (Nat.lt_succ_diag_r _) (calls the_table the_ranks e (head_of p) None) e None en s LO Logic.I (Nat.le_refl _)) as (n & r & E).
  exists n, r. intros m L. eapply eval_mono; eauto.
Qed.

(** C61 *)
Theorem C61_parsing_terminates : forall (H : host) entry text g,
  exists r, parses_to H entry text g r.
Proof.
  intros H entry text g. destruct (eval_halts H (ERef entry) (Pos [] text) [] (Soft [] [] false g (state0 H)) eq_refl) as (n & r & E).
  exists r, n. exact E.
Qed.
Theorem C61_parsing_deterministic : forall (H : host) entry text g r r',
  parses_to H entry text g r -> parses_to H entry text g r' -> r = r'.
Proof.
  intros H entry text g r r' (n & A) (m & B). specialize (A (Nat.max n m) ltac:(lia)).
  specialize (B (Nat.max n m) ltac:(lia)). congruence.
Qed.

Lemma parses_table : forall H entry text g r, parses_to H entry text g r ->
  gamma H (tab_get aany the_table entry (head_of (Pos [] text)), None) (Pos [] text) r.
Proof.
  intros H entry text g r (n & E). specialize (E n (Nat.le_refl _)). unfold parse in E.
  apply (eval_sound H the_grammar the_table the_table_ok n _ _ _ _ None _ E Logic.I).
Qed.
Lemma head_eof_rest : forall p, head_of p = HEof -> rest p = [].
Proof.
  intros [b [|x t]]; unfold head_of; cbn [rest]; auto. destruct (N.eqb x 10), (N.eqb x 13), (N.eqb x 124); discriminate.
Qed.

(** all the successful outcomes have read the whole text, by the table *)
Definition tab_reads_all (entry : string) : bool :=
  forallb (fun h => let a := tab_get aany the_table entry h in
    hsub (a_next a) (hset_of (fun h => match h with HEof => true | _ => false end)) &&
    (match h with HEof => true | _ => match a_null a with None => true | _ => false end end)) heads.
Lemma tab_reads_all_ok : forall H entry text g r, tab_reads_all entry = true ->
  parses_to H entry text g r -> match r with ROk _ p _ _ => rest p = [] | _ => True end.
Proof.
  intros H entry text g r C P. apply parses_table in P. destruct r as [v p en s| |]; auto. destruct P as (R & B & D).
  cbn [fst snd] in *. unfold tab_reads_all in C. rewrite forallb_forall in C. specialize (C (head_of (Pos [] text))).
  assert (In (head_of (Pos [] text)) heads) as Ih by (destruct (head_of (Pos [] text)); cbn; tauto).
  specialize (C Ih). apply andb_true_iff in C. destruct C as [C1 C2].
  destruct (pos_dec p (Pos [] text)) as [->|Ne].
  - destruct (B eq_refl) as (k & K & _). rewrite K in C2. destruct (head_of (Pos [] text)) eqn:Eh; try discriminate.
    now apply head_eof_rest.
  - specialize (D Ne). pose proof (hsub_has _ _ _ C1 D) as X. rewrite has_of in X.
    destruct (head_of p) eqn:Eh; try discriminate. now apply head_eof_rest.
Qed.

(** C62 *)
Theorem C62_inline_content_always_accepted : forall (H : host) entry text g r,
  entry = "NormalGroup"%string \/ entry = "AttributeStructuredValue"%string -> text <> [] ->
  parses_to H entry text g r -> read_entirely r \/ panicked r.
Proof.
  intros H entry text g r E Ne P.
  assert (match r with ROk _ p _ _ => rest p = [] | _ => True end) as X.
  { eapply tab_reads_all_ok; [|exact P]. destruct E as [->| ->]; vm_compute; reflexivity. }
  apply parses_table in P. destruct r as [v p en s|p s|]; [left; exact X| |right; exact Logic.I].
  destruct P as (_ & F). cbn [fst] in F. destruct text as [|x t]; [congruence|].
  destruct E as [->| ->]; destruct (head_of (Pos [] (x :: t))) eqn:Eh; try (vm_compute in F; discriminate);
    apply head_eof_rest in Eh; discriminate.
Qed.
Theorem C62_included_line_always_accepted : forall (H : host) text g r,
  parses_to H "IncludedFileLine" text g r -> read_entirely r \/ panicked r.
Proof.
  intros H text g r P.
  assert (match r with ROk _ p _ _ => rest p = [] | _ => True end) as X.
  { eapply tab_reads_all_ok; [|exact P]. vm_compute; reflexivity. }
  apply parses_table in P. destruct r as [v p en s|p s|]; [left; exact X| |right; exact Logic.I].
  destruct P as (_ & F). cbn [fst] in F. destruct (head_of (Pos [] text)); vm_compute in F; discriminate.
Qed.
Theorem C62_never_half_read : forall (H : host) entry text g v p en s,
  In entry ["DocumentRawLine"; "NormalGroup"; "AttributeStructuredValue"; "DelimitedBlockElements"; "IncludedFileLine";
            "TableColumnsAttribute"; "LineRanges"; "TagRanges"]%string ->
  parses_to H entry text g (ROk v p en s) -> rest p = [].
Proof.
  intros H entry text g v p en s I P.
  refine (tab_reads_all_ok H entry text g _ _ P).
  cbn in I. repeat (destruct I as [<-|I]; [vm_compute; reflexivity|]). destruct I.
Qed.

(** C63 *)
Lemma fragment_advances : forall H n p en s v p' en' s',
  eval H the_grammar n (ERef "DocumentFragment") p en s = Some (ROk v p' en' s') ->
  reach p p' /\ p' <> p.
Proof.
  intros H n p en s v p' en' s' E.
  destruct (eval_sound H the_grammar the_table the_table_ok n _ _ _ _ None _ E Logic.I) as (R & B & _). split; auto.
  intros Ep. destruct (B Ep) as (k & K & _). cbn [fst an] in K. destruct (head_of p); vm_compute in K; discriminate.
Qed.
Lemma reach_before : forall p q, reach p q ->
  List.length (before q) + List.length (rest q) = List.length (before p) + List.length (rest p).
Proof. intros p q (t & A & B). rewrite A, B, !app_length, rev_length. lia. Qed.

Lemma next_mono : forall H n m p s r, n <= m -> next H n p s = Some r -> next H m p s = Some r.
Proof.
  intros H n m p s r L. unfold next. destruct (at_eof p); auto.
  destruct (eval H the_grammar n (ERef "DocumentFragment") p [] s) as [x|] eqn:E; [|discriminate].
  now rewrite (eval_mono H the_grammar n m L _ _ _ _ _ E).
Qed.
Lemma fragments_mono : forall H n m p s r, n <= m -> fragments H n p s = Some r -> fragments H m p s = Some r.
Proof.
  intros H. induction n as [|n IH]; intros m p s r L E; [discriminate|]. destruct m as [|m]; [lia|].
  cbn [fragments] in *. destruct (next H (S n) p s) as [x|] eqn:En; [|discriminate].
  rewrite (next_mono H (S n) (S m) _ _ _ L En). destruct x as [| |v p' s']; auto.
  assert (forall y, fragments H n p' s' = Some y -> fragments H m p' s' = Some y) as X by (intros y; apply IH; lia).
  destruct v; auto; destruct (fragments H n p' s') as [y|] eqn:Ey; try discriminate; rewrite (X _ eq_refl); exact E.
Qed.
Theorem C63_document_parsing_terminates : forall (H : host) text g, exists n r,
  forall m, n <= m -> parse_fragments H m text g = Some r.
Proof.
  intros H text g. unfold parse_fragments.
  assert (forall k p s, List.length (rest p) < k -> exists n r, fragments H n p s = Some r) as X.
  { induction k as [|k IH]; intros p s L; [lia|].
    destruct (at_eof p) eqn:Ee.
    { exists 1. eexists. cbn [fragments]. unfold next. rewrite Ee. reflexivity. }
    destruct (eval_halts H (ERef "DocumentFragment") p [] s eq_refl) as (n & r & E).
    assert (forall m, n <= m -> next H m p s = Some (match r with ROk v p' _ s' => if p_errs s' then NextErr H else NextOk H v p' s' | _ => NextErr H end)) as En.
    { intros m Lm. unfold next. rewrite Ee, (E m Lm). now destruct r. }
    destruct r as [v p' en' s'|p' s'|].
    - destruct (fragment_advances _ _ _ _ _ _ _ _ _ (E n (Nat.le_refl _))) as [R Ne]. pose proof (reach_lt _ _ R Ne).
      destruct (p_errs s') eqn:Es.
      { exists (S n). eexists. cbn [fragments]. rewrite (En (S n) ltac:(lia)). reflexivity. }
      destruct (IH p' s' ltac:(lia)) as (n2 & [[fs e] q] & E2).
      exists (S (Nat.max n n2)). cbn [fragments]. rewrite (En (S (Nat.max n n2)) ltac:(lia)).
      rewrite (fragments_mono H n2 (Nat.max n n2) _ _ _ ltac:(lia) E2). destruct v; eexists; reflexivity.
    - exists (S n). eexists. cbn [fragments]. rewrite (En (S n) ltac:(lia)). reflexivity.
    - exists (S n). eexists. cbn [fragments]. rewrite (En (S n) ltac:(lia)). reflexivity. }
  destruct (X _ (Pos [] text) (Soft [] [] false g (state0 H)) (Nat.lt_succ_diag_r _)) as (n & r & E).
  exists n, r. intros m L. eapply fragments_mono; eauto.
Qed.

Lemma fragments_shape : forall H n p s fs e q, fragments H n p s = Some (fs, e, q) ->
  exists b, consecutive (List.length (before p)) fs b /\ reach p q /\
    b <= List.length (before q) /\ (e <> Stopped -> b = List.length (before q)) /\
    (e = Finished -> rest q = []) /\ (e = Failed -> rest q <> []) /\ List.length fs + List.length (rest q) <= List.length (rest p).
Proof.
  intros H. induction n as [|n IH]; intros p s fs e q E; [discriminate|]. cbn [fragments] in E.
  destruct (next H (S n) p s) as [x|] eqn:En; [|discriminate]. unfold next in En.
  destruct (at_eof p) eqn:Ee.
  { injection En as <-. injection E as <- <- <-. exists (List.length (before p)).
    repeat split; try constructor; auto; try discriminate. apply reach_refl.
    destruct p as [b [|y t]]; [reflexivity|discriminate]. }
  assert (rest p <> []) as Np. { intros C. unfold at_eof in Ee. rewrite C in Ee. discriminate. }
  assert (forall fs' e' q', Some ([], Failed, p) = Some (fs', e', q') ->
      exists b, consecutive (H:=H) (List.length (before p)) fs' b /\ reach p q' /\ b <= List.length (before q') /\
      (e' <> Stopped -> b = List.length (before q')) /\ (e' = Finished -> rest q' = []) /\ (e' = Failed -> rest q' <> [])
      /\ List.length fs' + List.length (rest q') <= List.length (rest p)) as XF.
  { intros fs' e' q' [= <- <- <-]. exists (List.length (before p)). repeat split; try constructor; auto; try discriminate.
    apply reach_refl. }
  destruct (eval H the_grammar (S n) (ERef "DocumentFragment") p [] s) as [[v p' en' s'|p' s'|]|] eqn:Ev; try discriminate.
  - destruct (fragment_advances _ _ _ _ _ _ _ _ _ Ev) as [R Ne]. pose proof (reach_lt _ _ R Ne) as Lt.
    pose proof (reach_before _ _ R) as Lb.
    destruct (p_errs s').
    { injection En as <-. apply XF. exact E. }
    injection En as <-.
    assert (v = VNil /\ fs = [] /\ e = Stopped /\ q = p' \/ exists fs', fragments H n p' s' = Some (fs', e, q) /\ fs = Frag (List.length (before p)) (List.length (before p')) v :: fs') as [(-> & -> & -> & ->)|(fs' & E2 & ->)].
    { destruct v; [left; injection E as <- <- <-; auto|right..];
        destruct (fragments H n p' s') as [[[fs' e'] q']|]; try discriminate; injection E as <- <- <-; eauto. }
    + exists (List.length (before p)). repeat split; try constructor; try discriminate; auto; try lia; cbn [List.length]; try lia. congruence.
    + destruct (IH _ _ _ _ _ E2) as (b & C1 & C2 & C3 & C4 & C5 & C6 & C7). exists b. repeat split; auto.
      * constructor; [lia|exact C1].
      * eapply reach_trans; eauto.
      * cbn [List.length]. lia.
  - injection En as <-. apply XF. exact E.
  - injection En as <-. apply XF. exact E.
Qed.
Theorem C63_fragments_consecutive : forall (H : host) n text g fs e q, parse_fragments H n text g = Some (fs, e, q) ->
  exists b, consecutive 0 fs b /\ b <= List.length text /\ List.length fs <= List.length text /\
    (e = Finished -> b = List.length text) /\ (e = Failed -> b < List.length text).
Proof.
  intros H n text g fs e q E. apply fragments_shape in E. destruct E as (b & C1 & C2 & C3 & C4 & C5 & C6 & C7).
  pose proof (reach_before _ _ C2) as L. cbn [before rest List.length] in *. exists b.
  split; auto. split; [lia|]. split; [lia|]. split.
  - intros ->. rewrite (C5 eq_refl) in L. cbn in L. rewrite C4; [lia|discriminate].
  - intros ->. rewrite C4 by discriminate. specialize (C6 eq_refl). destruct (rest q); [congruence|]. cbn in L. lia.
Qed.

Print Assumptions C61_parsing_terminates.
Print Assumptions C61_parsing_deterministic.
Print Assumptions C62_inline_content_always_accepted.
Print Assumptions C62_included_line_always_accepted.
Print Assumptions C62_never_half_read.
Print Assumptions C63_document_parsing_terminates.
Print Assumptions C63_fragments_consecutive.
