(** Reading lines and delimiters with the rules of P_PegRun.v. *)
From Coq Require Import List String NArith ZArith Bool Ascii Arith Lia.
From Verif Require Import GoBase Utf8 Types Elements Peg PegGrammar PegHost PegSym PegBlockSpec P_PegRun.
Import ListNotations.
Local Open Scope list_scope.

Definition blankb (r : rune) : bool := N.eqb r 32 || N.eqb r 9.
Lemma blankb_spec : forall r, blankb r = true <-> blank r.
Proof. intros r. unfold blankb, blank. rewrite orb_true_iff, !N.eqb_eq. tauto. Qed.
Definition eolb (r : rune) : bool := N.eqb r 10 || N.eqb r 13.
Lemma one_line_spec : forall l, one_line l <-> forall r, In r l -> eolb r = false.
Proof.
  intros l. unfold one_line, eolb. rewrite Forall_forall.
  split; intros A r I; specialize (A r I); rewrite ?orb_false_iff, ?N.eqb_neq in *; auto.
Qed.
(** after the content of a line: the end, LF or CR *)
Definition at_eol (t : list rune) : Prop := match t with [] => True | r :: _ => eolb r = true end.
Lemma eol_at : forall e t, eol e t -> at_eol (e ++ t).
Proof. intros e t [->|[->|[[-> _]|[-> ->]]]]; cbn; auto. Qed.

Lemma span_blanks : forall l, exists ws l', l = ws ++ l' /\ blanks ws /\ head_not blankb l'.
Proof.
  induction l as [|x l (ws & l' & -> & B & H)].
  - exists [], []. repeat split; constructor.
  - destruct (blankb x) eqn:E.
    + exists (x :: ws), l'. repeat split; auto. constructor; auto. now apply blankb_spec.
    + exists [], (x :: ws ++ l'). repeat split; [constructor|exact E].
Qed.
Lemma span_char : forall (c : rune) (l : list rune), exists k (l' : list rune), l = repeat c k ++ l' /\ head_not (N.eqb c) l'.
Proof.
  intros c. induction l as [|x l (k & l' & -> & H)].
  - exists 0, []. split; cbn; auto.
  - destruct (N.eqb_spec c x) as [<-|Ne].
    + exists (S k), l'. auto.
    + exists 0, (x :: repeat c k ++ l'). split; auto. cbn. now apply N.eqb_neq.
Qed.

Section Lines.
  Variable H : host.
  Variable G : grammar.
  Notation Ok_ := (Ok_ H G).
  Notation No_ := (No_ H G).
  Notation Star_ := (Star_ H G).

  (** EOL *)
  Lemma ok_EOL : forall e t b en c, eol e t -> exists v b', Ok_ x_EOL (Pos b (e ++ t)) en c v (Pos b' t) en c.
  Proof.
    intros e t b en c [->|[->|[[-> T]|[-> ->]]]].
    - do 2 eexists. apply ok_alt_here with (en' := []). eapply ok_act with (c1 := c); [|apply act_text].
      eapply ok_alt_here. apply (ok_lit H G [10%N]).
    - do 2 eexists. apply ok_alt_here with (en' := []). eapply ok_act with (c1 := c); [|apply act_text].
      eapply ok_alt_next; [apply no_lit1; discriminate|]. rewrite kback_id. eapply ok_alt_here. apply (ok_lit H G [13%N; 10%N]).
    - do 2 eexists. apply ok_alt_here with (en' := []). eapply ok_act with (c1 := c); [|apply act_text].
      eapply ok_alt_next; [apply no_lit1; discriminate|]. rewrite kback_id.
      eapply ok_alt_next.
      { apply no_lit. cbn [app lit_from]. unfold peek, advance. cbn [rest before N.eqb Pos.eqb].
        destruct t as [|x t]; [reflexivity|]. destruct (N.eqb_spec x 10) as [->|Ne]; [destruct T|reflexivity]. }
      rewrite kback_id. eapply ok_alt_here. apply (ok_lit H G [13%N]).
    - do 2 eexists. cbn [app]. eapply ok_alt_next.
      { apply no_act. eapply no_alt_next; [apply no_lit_end; discriminate|]. rewrite kback_id.
        eapply no_alt_next; [apply no_lit_end; discriminate|]. rewrite kback_id.
        eapply no_alt_next; [apply no_lit_end; discriminate|]. rewrite kback_id. apply no_alt_nil. }
      rewrite kback_id. eapply ok_alt_here with (en' := []).
      replace c with (kback c c) at 2 by apply kback_id. apply ok_not. apply no_any.
  Qed.
  Lemma no_EOL : forall x t b en c, eolb x = false -> No_ x_EOL (Pos b (x :: t)) en c c.
  Proof.
    intros x t b en c E. unfold eolb in E. apply orb_false_iff in E. destruct E as [E1 E2]. apply N.eqb_neq in E1, E2.
    eapply no_alt_next.
    { apply no_act. eapply no_alt_next; [apply no_lit1; congruence|]. rewrite kback_id.
      eapply no_alt_next; [apply no_lit1; congruence|]. rewrite kback_id.
      eapply no_alt_next; [apply no_lit1; congruence|]. rewrite kback_id. apply no_alt_nil. }
    rewrite kback_id. eapply no_alt_next; [eapply no_not, ok_any|]. rewrite !kback_id. apply no_alt_nil.
  Qed.
  Lemma ok_NotEOF : forall x t b en c, Ok_ x_NotEOF (Pos b (x :: t)) en c VNil (Pos b (x :: t)) en c.
  Proof. intros x t b en c. replace c with (kback c c) at 2 by apply kback_id. eapply ok_and, ok_any. Qed.
  Lemma no_NotEOF : forall b en c, No_ x_NotEOF (Pos b []) en c c.
  Proof. intros b en c. replace c with (kback c c) at 2 by apply kback_id. eapply no_and, no_any. Qed.
  Lemma ok_EOF : forall b en c, Ok_ x_EOF (Pos b []) en c VNil (Pos b []) en c.
  Proof. intros b en c. replace c with (kback c c) at 2 by apply kback_id. apply ok_not, no_any. Qed.
  Lemma no_EOF : forall x t b en c, No_ x_EOF (Pos b (x :: t)) en c c.
  Proof. intros x t b en c. replace c with (kback c c) at 2 by apply kback_id. eapply no_not, ok_any. Qed.

  Lemma in_blank : forall r, in_cls H [9%N; 32%N] [] [] r = blankb r.
  Proof. intros r. unfold in_cls, blankb. cbn. rewrite !orb_false_r. now rewrite orb_comm. Qed.
  Lemma in_eol : forall r, in_cls H [13%N; 10%N] [] [] r = eolb r.
  Proof. intros r. unfold in_cls, eolb. cbn. rewrite !orb_false_r. now rewrite orb_comm. Qed.

  (** Space* *)
  Lemma star_Space : forall ws t b c, blanks ws -> head_not blankb t ->
    Star_ x_Space (Pos b (ws ++ t)) c (map (fun r => VStr [r]) ws) (Pos (rev ws ++ b) t) c.
  Proof.
    intros ws t. induction ws as [|x ws IH]; intros b c W T.
    - cbn. apply star_stop. apply no_act. destruct t as [|y t]; [apply no_cls_end|]. apply no_cls. now rewrite in_blank.
    - inversion W as [|? ? Bx W']; subst. cbn [app map rev].
      eapply star_more with (en1 := []); [|rewrite <- app_assoc; cbn [app]; apply IH; auto].
      eapply ok_act; [apply ok_cls; rewrite in_blank; now apply blankb_spec|].
      rewrite slice_cons. apply act_text.
  Qed.
  Lemma ok_Spaces0 : forall ws t b en c, blanks ws -> head_not blankb t ->
    Ok_ (EStar x_Space) (Pos b (ws ++ t)) en c (VList (map (fun r => VStr [r]) ws)) (Pos (rev ws ++ b) t) en c.
  Proof. intros. apply ok_star. now apply star_Space. Qed.
  (** AnyChars *)
  Lemma ok_AnyChars : forall l t b en c, one_line l -> at_eol t ->
    Ok_ x_AnyChars (Pos b (l ++ t)) en c (VStr l) (Pos (rev l ++ b) t) en c.
  Proof.
    intros l t b en c L T. eapply ok_act.
    - apply ok_star, star_cls.
      + intros r I. rewrite in_eol. apply (proj1 (one_line_spec l) L r I).
      + destruct t as [|x t]; [exact Logic.I|]. cbn in *. rewrite in_eol, T. reflexivity.
    - rewrite slice_app. apply act_text.
  Qed.
  Lemma at_eol_not_blank : forall t, at_eol t -> head_not blankb t.
  Proof.
    intros [|x t]; cbn; auto. unfold eolb, blankb. rewrite orb_true_iff, !N.eqb_eq. intros [->| ->]; reflexivity.
  Qed.

  (** a delimiter: m times x or more, blanks, the end of the line *)
  Definition delimE (code : string) (x : rune) (m : nat) : expr :=
    EAct (AHost code) (ESeq [
      (ELab "delimiter" (EAct AText (ESeq [ELit (repeat x m) false; EStar (ELit [x] false)])));
      (EStar x_Space); x_EOL]).
  Definition plain_char (x : rune) : Prop := eolb x = false /\ blankb x = false /\ (x < 128)%N.
  Lemma plain_not_error : forall x, plain_char x -> x <> Peg.RuneError.
  Proof. intros x (_ & _ & L) ->. vm_compute in L. discriminate. Qed.
  Lemma rev_repeat : forall A (x : A) n, rev (repeat x n) = repeat x n.
  Proof. induction n as [|n IH]; cbn; auto. rewrite IH. clear. induction n; cbn; congruence. Qed.
  Lemma head_not_app : forall f u t, head_not f t -> (u = [] \/ head_not f u) -> head_not f (u ++ t).
  Proof. intros f [|y u] t T [E|U]; cbn; auto. discriminate. Qed.
  Lemma ok_delim_text : forall x m k t b en c, plain_char x -> m <= k -> head_not (N.eqb x) t ->
    Ok_ (EAct AText (ESeq [ELit (repeat x m) false; EStar (ELit [x] false)])) (Pos b (repeat x k ++ t)) en c
        (VStr (repeat x k)) (Pos (repeat x k ++ b) t) en c.
  Proof.
    intros x m k t b en c P L T. replace k with (m + (k - m)) by lia. set (j := k - m). clearbody j.
    eapply ok_act.
    - apply ok_seq. rewrite repeat_app, <- app_assoc. eapply seq_cons; [apply ok_lit|]. rewrite rev_repeat.
      eapply seq_cons; [apply ok_star, star_lit1; [now apply plain_not_error|exact T]|]. rewrite (app_assoc (repeat x j)), <- !repeat_app.
      rewrite (Nat.add_comm j m). apply seq_nil.
    - rewrite slice_app. apply act_text.
  Qed.

  (** lines shorter than the delimiter, or going on with something else *)
  Lemma lit_prefix : forall x m l t b, x <> Peg.RuneError -> lit_from H (repeat x m) false (Pos b (l ++ t)) <> None -> at_eol t -> eolb x = false ->
    exists l', l = repeat x m ++ l'.
  Proof.
    intros x m. induction m as [|m IH]; intros l t b Nx E T P.
    - exists l. reflexivity.
    - cbn [repeat lit_from] in E. destruct l as [|y l].
      + exfalso. unfold peek in E. destruct t as [|y t]; cbn [app rest] in E.
        * destruct (N.eqb_spec Peg.RuneError x); congruence.
        * destruct (N.eqb_spec y x) as [->|]; [|congruence]. cbn in T. congruence.
      + unfold peek, advance in E. cbn [app rest before] in E. destruct (N.eqb_spec y x) as [->|]; [|congruence].
        destruct (IH l t _ Nx E T P) as (l' & ->). exists l'. reflexivity.
  Qed.
  Lemma no_delimE : forall code x m l e t b en c, plain_char x -> one_line l -> eol e t ->
    (forall k, m <= k -> ~ delimiter x k l) -> No_ (delimE code x m) (Pos b (l ++ e ++ t)) en c c.
  Proof.
    intros code x m l e t b en c P L E D. apply no_act. pose proof (eol_at _ _ E) as T.
    destruct (lit_from H (repeat x m) false (Pos b (l ++ e ++ t))) as [q|] eqn:El.
    - destruct (lit_prefix x m l (e ++ t) b) as (l' & ->); auto; [now apply plain_not_error|congruence|apply P|].
      destruct (span_char x l') as (j & l2 & -> & H2). clear El.
      assert (repeat x m ++ repeat x j ++ l2 = repeat x (m + j) ++ l2) as E0 by (now rewrite repeat_app, <- app_assoc).
      rewrite E0 in L, D |- *. clear E0. destruct (span_blanks l2) as (ws & l3 & -> & W & H3).
      assert (l3 <> []) as N3.
      { intros ->. apply (D (m + j)); [lia|]. exists ws. rewrite app_nil_r. auto. }
      destruct l3 as [|y l3]; [congruence|].
      replace (kback c c) with c by (now rewrite kback_id).
      rewrite <- !app_assoc. replace c with (kback c c) at 2 by apply kback_id.
      eapply (no_seq H G [_; _] x_EOL [] _ _ _ _ (Pos (rev ws ++ repeat x (m + j) ++ b) ((y :: l3) ++ e ++ t)) (("delimiter"%string, VStr (repeat x (m + j))) :: en) c c).
      + eapply seq_cons; [eapply ok_lab, ok_delim_text; [exact P|lia|]|].
        { replace (ws ++ (y :: l3) ++ e ++ t) with ((ws ++ y :: l3) ++ e ++ t) by (now rewrite <- app_assoc).
          destruct ws; exact H2. }
        eapply seq_cons; [apply ok_Spaces0; auto; exact H3|]. apply seq_nil.
      + apply no_EOL. apply (proj1 (one_line_spec _) L). rewrite !in_app_iff. right. right. now left.
    - replace c with (kback c c) at 2 by apply kback_id. apply no_seq1. apply no_lab, no_act.
      replace c with (kback c c) at 2 by apply kback_id. apply no_seq1. now apply no_lit.
  Qed.
End Lines.
