(** Expressions that cannot start with a character that is neither ASCII, nor a letter, nor a number. *)
From Coq Require Import List String NArith Bool Arith Lia.
From Verif Require Import GoBase Peg PegGrammar PegHost PegSym P_PegTerm P_PegRun P_PegLines P_PegBlocks.
Import ListNotations.
Local Open Scope list_scope.

(** [dodges n e]: on such a character [e] fails; [passes n e]: it fails or reads nothing *)
Fixpoint dodges (n : nat) (e : expr) : bool :=
  match n with
  | 0 => false
  | S n' =>
      let passes e :=
        match e with
        | EPred (PHost code) => quiet_name code
        | ENot e1 | EOpt e1 | EStar e1 | ELab _ (EOpt e1) => dodges n' e1
        | _ => false
        end in
      match e with
      | ELit (x :: _) false => N.ltb x 128 || N.eqb x 65533
      | ECls cs rs us false => forallb (fun x => N.ltb x 128) cs && forallb (fun ab => N.ltb (snd ab) 128) rs && forallb (fun u => String.eqb u "L" || String.eqb u "N") us
      | ESeq l => (fix go l := match l with [] => false | e1 :: l' => dodges n' e1 || (passes e1 && go l') end) l
      | EAlt l => forallb (dodges n') l
      | EPlus e1 | EAct _ e1 | ELab _ e1 | EAnd e1 => dodges n' e1
      | ERef r => match rule_of the_grammar r with Some e1 => dodges n' e1 | None => false end
      | _ => false
      end
  end.
Definition foreign (cls : string -> rune -> bool) (r : rune) : Prop := (128 <= r)%N /\ cls "L"%string r = false /\ cls "N"%string r = false /\ r <> 65533%N.

Section Dodge.
  Variable X : Type.
  Variable cls : string -> rune -> bool.
  Variable low : rune -> rune.
  Variable white : rune -> bool.
  Variable other : string -> labels (hv X) -> soft gstore (option (list string)) -> option (value (hv X) * bool).
  Notation H := (go_host X cls low white other).
  Notation G := the_grammar.
  Notation Ok_ := (Ok_ H G).
  Notation No_ := (No_ H G).
  Notation runs := (runs H G).
  Variable r : rune.
  Hypothesis F : foreign cls r.
  Variables b t : list rune.
  Notation p := (Pos b (r :: t)).

  Lemma seq_dodge : forall (c : core H) (stop pass : expr -> bool),
    (forall e en, stop e = true -> No_ e p en c c) ->
    (forall e en s, pass e = true -> core_of s = c -> (exists s', runs e p en s (RFail p s') /\ core_of s' = c) \/ exists v en' s', runs e p en s (ROk v p en' s') /\ core_of s' = c) ->
    forall l, (fix go l := match l with [] => false | e1 :: l' => stop e1 || (pass e1 && go l') end) l = true ->
    forall en, No_ (ESeq l) p en c c.
  Proof.
    intros c stop pass Hs Hp l Q en s E.
    assert (forall en s acc p0 s0, core_of s = c -> exists n s', (forall m, n <= m -> seq_from H (eval H G m) l p0 s0 p en s acc = Some (RFail p0 (back s0 s'))) /\ core_of s' = c) as A.
    { clear en s E. induction l as [|e l IH]; [discriminate|]. intros en s acc p0 s0 E. apply orb_true_iff in Q. destruct Q as [Q|Q].
      - destruct (Hs e en Q s E) as (s1 & (n & R) & E1). exists n, s1. split; auto. intros m L. cbn [seq_from]. now rewrite (eval_mono H G n m L _ _ _ _ _ R).
      - apply andb_prop in Q. destruct Q as [P Q]. destruct (Hp e en s P E) as [(s1 & (n & R) & E1)|(v & en1 & s1 & (n & R) & E1)].
        + exists n, s1. split; auto. intros m L. cbn [seq_from]. now rewrite (eval_mono H G n m L _ _ _ _ _ R).
        + destruct (IH Q en1 s1 (v :: acc) p0 s0 E1) as (n2 & s2 & R2 & E2). exists (Nat.max n n2), s2. split; auto. intros m L. cbn [seq_from].
          rewrite (eval_mono H G n m ltac:(lia) _ _ _ _ _ R). apply R2. lia. }
    destruct (A en s [] p s E) as (n & s' & R & E'). exists (back s s'). split; [exists (S n); cbn [eval]; now apply R|]. rewrite core_back, E, E'. apply kback_id.
  Qed.
  Lemma dodges_ok : forall n e, dodges n e = true -> forall en (c : core H), No_ e p en c c.
  Proof.
    destruct F as (F1 & F2 & F3 & F4).
    induction n as [|n IH]; intros e D en c; [discriminate|]. cbn [dodges] in D. destruct e as [w ic|cs rs us inv| |l|l|e|e|e|e|e|q|code|a e|lab e|rl]; try discriminate D.
    - destruct w as [|x w]; [discriminate|]. destruct ic; [discriminate|]. apply no_lit1. intros ->. apply orb_true_iff in D. destruct D as [D|D]; [apply N.ltb_lt in D; lia|apply N.eqb_eq in D; congruence].
    - destruct inv; [discriminate|]. rewrite !andb_true_iff, !forallb_forall in D. destruct D as [[D1 D2] D3]. apply no_cls.
      unfold in_cls. rewrite !orb_false_iff. repeat split.
      + destruct (existsb (N.eqb r) cs) eqn:E; auto. apply existsb_exists in E. destruct E as (x & I & E). apply N.eqb_eq in E. subst x. apply D1, N.ltb_lt in I. exfalso. apply (N.lt_irrefl r). eapply N.lt_le_trans; [exact I|exact F1].
      + match goal with |- ?x = false => destruct x eqn:E; auto end. apply existsb_exists in E. destruct E as (x & I & E). apply andb_prop in E. destruct E as [_ E]. apply N.leb_le in E. apply D2, N.ltb_lt in I. exfalso. apply (N.lt_irrefl r). eapply N.le_lt_trans; [exact E|]. eapply N.lt_le_trans; [exact I|exact F1].
      + match goal with |- ?x = false => destruct x eqn:E; auto end. apply existsb_exists in E. destruct E as (x & I & E). apply D3, orb_true_iff in I. rewrite !String.eqb_eq in I.
        cbn [in_class go_host] in E. destruct I as [->| ->]; congruence.
    - revert en. eapply (seq_dodge c); [intros e en Q; exact (IH e Q en c)| |exact D].
      intros e en s Q E. destruct e as [| | | | |e|e|e|e|e|q| | |lab e|]; try discriminate Q.
      + right. destruct (ok_star H G e p en c [] p c) with (s := s) as (s' & R & E'); auto; [apply star_stop; auto|]. eauto.
      + right. destruct (ok_opt_none H G e p en c c (IH e Q [] c) s E) as (s' & R & E'). eauto.
      + right. destruct (ok_not_c H G e p en c (IH e Q [] c) s E) as (s' & R & E'). eauto.
      + destruct q as [| | | | | | |code]; try discriminate Q. destruct (quiet_ok X cls low white other code Q en s) as (bb & R).
        assert (core_of (H := H) (Soft (c_text s) (c_pos s) (p_errs s || false) (c_store s) (c_state s)) = c) as E' by (rewrite <- E; unfold core_of; cbn; now rewrite orb_false_r).
        destruct bb; [right; exists VNil, en|left]; eexists; (split; [exists 1; cbn [eval]; unfold run_pred; rewrite R; reflexivity|exact E']).
      + destruct e as [| | | | | | |e| | | | | | |]; try discriminate Q. right.
        destruct (ok_lab H G lab (EOpt e) p en c VNil p [] c (ok_opt_none H G e p [] c c (IH e Q [] c)) s E) as (s' & R & E'). eauto.
    - rewrite forallb_forall in D. assert (forall l', incl l' l -> No_ (EAlt l') p en c c) as A; [|apply A, incl_refl].
      induction l' as [|e l' IHl]; intros I; [apply no_alt_nil|]. apply no_alt_c; [apply IH, D, I; now left|]. apply IHl. intros x Ix. apply I. now right.
    - apply no_plus. now apply IH.
    - apply no_and_c. now apply IH.
    - apply no_act. now apply IH.
    - apply no_lab. now apply IH.
    - destruct (rule_of G rl) as [e|] eqn:E; [|discriminate]. eapply no_ref; [exact E|]. now apply IH.
  Qed.
End Dodge.
