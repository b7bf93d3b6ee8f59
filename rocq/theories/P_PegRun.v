(** Rules to follow a run of the generated parser (Peg.v) on texts of any length.  Two judgements,
    for every state with a given core (whether an error was recorded, the store and c.state; c.text
    and c.pos are left out): [Ok_] an expression succeeds, [No_] it fails and the position is
    restored.  Models no further code of /repo. *)
From Coq Require Import List String NArith ZArith Bool Arith Lia.
From Verif Require Import Peg PegSym P_PegTerm P_PegSym.
Import ListNotations.
Local Open Scope list_scope.

Lemma slice_app : forall b b' w t, slice (Pos b (w ++ t)) (Pos b' t) = w.
Proof.
  intros b b' w t. unfold slice. cbn [rest]. rewrite app_length.
  replace (List.length w + List.length t - List.length t) with (List.length w) by lia.
  rewrite firstn_app, Nat.sub_diag, firstn_all. cbn. apply app_nil_r.
Qed.
Lemma slice_all : forall b b' w, slice (Pos b w) (Pos b' []) = w.
Proof. intros b b' w. rewrite <- (app_nil_r w) at 1. apply slice_app. Qed.

Lemma slice_cons : forall b b' r t, slice (Pos b (r :: t)) (Pos b' t) = [r].
Proof. intros. apply (slice_app b b' [r] t). Qed.

Section Rules.
  Variable H : host.
  Variable G : grammar.
  Notation val := (value (HV H)).
  Notation env := (labels (HV H)).
  Notation st := (soft (HS H) (HT H)).

  Definition runs (e : expr) (p : pos) (en : env) (s : st) (r : res H) : Prop := exists n, eval H G n e p en s = Some r.
  Lemma runs_fun : forall e p en s r r', runs e p en s r -> runs e p en s r' -> r = r'.
  Proof.
    intros e p en s r r' (n & A) (m & B).
    pose proof (eval_mono H G n (Nat.max n m) ltac:(lia) _ _ _ _ _ A) as A'.
    pose proof (eval_mono H G m (Nat.max n m) ltac:(lia) _ _ _ _ _ B) as B'. congruence.
  Qed.

  Definition core : Type := (bool * HS H * HT H)%type.
  Definition core_of (s : st) : core := (p_errs s, c_store s, c_state s).
  Definition kback (c c' : core) : core := (fst (fst c'), snd (fst c'), snd c).
  Lemma core_back : forall s s', core_of (back s s') = kback (core_of s) (core_of s').
  Proof. reflexivity. Qed.
  Lemma kback_id : forall c, kback c c = c.
  Proof. intros [[a b] d]. reflexivity. Qed.
  Lemma core_soft : forall s t q, core_of (Soft t q (p_errs s) (c_store s) (c_state s)) = core_of s.
  Proof. reflexivity. Qed.

  Definition Ok_ e p en (c : core) (v : val) p' en' (c' : core) : Prop :=
    forall s, core_of s = c -> exists s', runs e p en s (ROk v p' en' s') /\ core_of s' = c'.
  Definition No_ e p en (c c' : core) : Prop :=
    forall s, core_of s = c -> exists s', runs e p en s (RFail p s') /\ core_of s' = c'.

  Lemma ok_lit : forall w t b en c, Ok_ (ELit w false) (Pos b (w ++ t)) en c (VBytes w) (Pos (rev w ++ b) t) en c.
  Proof.
    intros w t b en c s E. exists s. split; auto. exists 1. cbn [eval].
    assert (forall w t b, lit_from H w false (Pos b (w ++ t)) = Some (Pos (rev w ++ b) t)) as X.
    { clear. induction w as [|x w IH]; intros t b; [reflexivity|]. cbn [lit_from app]. unfold peek, advance. cbn [rest before].
      rewrite N.eqb_refl, IH. cbn [rev]. now rewrite <- app_assoc. }
    rewrite X, slice_app. reflexivity.
  Qed.
  Lemma no_lit : forall w p en c, lit_from H w false p = None -> No_ (ELit w false) p en c c.
  Proof. intros w p en c L s E. exists s. split; auto. exists 1. cbn [eval]. now rewrite L. Qed.
  Lemma no_lit1 : forall x w t y b en c, x <> y -> No_ (ELit (x :: w) false) (Pos b (y :: t)) en c c.
  Proof.
    intros x w t y b en c Ne. apply no_lit. cbn [lit_from]. unfold peek. cbn [rest].
    destruct (N.eqb_spec y x); [congruence|reflexivity].
  Qed.
  Lemma no_lit_end : forall x w b en c, x <> Peg.RuneError -> No_ (ELit (x :: w) false) (Pos b []) en c c.
  Proof.
    intros x w b en c Ne. apply no_lit. cbn [lit_from]. unfold peek. cbn [rest].
    destruct (N.eqb_spec Peg.RuneError x); [congruence|reflexivity].
  Qed.
  Lemma ok_cls : forall cs rs us inv r t b en c, in_cls H cs rs us r = negb inv ->
    Ok_ (ECls cs rs us inv) (Pos b (r :: t)) en c (VBytes [r]) (Pos (r :: b) t) en c.
  Proof.
    intros cs rs us inv r t b en c E s Es. exists s. split; auto. exists 1. cbn [eval]. unfold at_eof, peek, advance. cbn [rest before].
    rewrite E. destruct inv; cbn [negb Bool.eqb]; rewrite (slice_app _ _ [r] t); reflexivity.
  Qed.
  Lemma no_cls : forall cs rs us inv r t b en c, in_cls H cs rs us r = inv ->
    No_ (ECls cs rs us inv) (Pos b (r :: t)) en c c.
  Proof.
    intros cs rs us inv r t b en c E s Es. exists s. split; auto. exists 1. cbn [eval]. unfold at_eof, peek, advance. cbn [rest before].
    rewrite E. destruct inv; reflexivity.
  Qed.
  Lemma no_cls_end : forall cs rs us inv b en c, No_ (ECls cs rs us inv) (Pos b []) en c c.
  Proof. intros cs rs us inv b en c s Es. exists s. split; auto. exists 1. reflexivity. Qed.
  Lemma ok_any : forall r t b en c, Ok_ EAny (Pos b (r :: t)) en c (VBytes [r]) (Pos (r :: b) t) en c.
  Proof.
    intros r t b en c s Es. exists s. split; auto. exists 1. cbn [eval]. unfold at_eof, advance. cbn [rest before].
    now rewrite (slice_app _ _ [r] t).
  Qed.
  Lemma no_any : forall b en c, No_ EAny (Pos b []) en c c.
  Proof. intros b en c s Es. exists s. split; auto. exists 1. reflexivity. Qed.

  (** sequences *)
  Inductive Seq_ : list expr -> pos -> env -> core -> list val -> pos -> env -> core -> Prop :=
  | seq_nil : forall p en c, Seq_ [] p en c [] p en c
  | seq_cons : forall e l p en c v p1 en1 c1 vs p2 en2 c2,
      Ok_ e p en c v p1 en1 c1 -> Seq_ l p1 en1 c1 vs p2 en2 c2 -> Seq_ (e :: l) p en c (v :: vs) p2 en2 c2.
  Lemma seq_run : forall l p en c vs p' en' c', Seq_ l p en c vs p' en' c' -> forall s p0 s0 acc, core_of s = c ->
    exists n s', (forall m, n <= m -> seq_from H (eval H G m) l p0 s0 p en s acc = Some (ROk (VList (rev acc ++ vs)) p' en' s')) /\ core_of s' = c'.
  Proof.
    intros l p en c vs p' en' c' Q. induction Q as [p en c|e l p en c v p1 en1 c1 vs p2 en2 c2 O Q IH]; intros s p0 s0 acc E.
    - exists 0, s. split; auto. intros m _. cbn [seq_from]. now rewrite app_nil_r.
    - destruct (O s E) as (s1 & (n1 & R1) & E1). destruct (IH s1 p0 s0 (v :: acc) E1) as (n2 & s2 & R2 & E2).
      exists (Nat.max n1 n2), s2. split; auto. intros m L. cbn [seq_from].
      rewrite (eval_mono H G n1 m ltac:(lia) _ _ _ _ _ R1). rewrite R2 by lia. cbn [rev]. now rewrite <- app_assoc.
  Qed.
  Lemma ok_seq : forall l p en c vs p' en' c', Seq_ l p en c vs p' en' c' -> Ok_ (ESeq l) p en c (VList vs) p' en' c'.
  Proof.
    intros l p en c vs p' en' c' Q s E. destruct (seq_run _ _ _ _ _ _ _ _ Q s p s [] E) as (n & s' & R & E').
    exists s'. split; auto. exists (S n). cbn [eval]. now rewrite R.
  Qed.
  (** the beginning succeeds, then one fails *)
  Lemma no_seq : forall l1 e l2 p en c vs p1 en1 c1 c2, Seq_ l1 p en c vs p1 en1 c1 -> No_ e p1 en1 c1 c2 ->
    No_ (ESeq (l1 ++ e :: l2)) p en c (kback c c2).
  Proof.
    intros l1 e l2 p en c vs p1 en1 c1 c2 Q N s E.
    assert (forall acc p0 s0, core_of s0 = c -> exists n s', (forall m, n <= m ->
      seq_from H (eval H G m) (l1 ++ e :: l2) p0 s0 p en s acc = Some (RFail p0 s')) /\ core_of s' = kback c c2) as X.
    { assert (forall p en c0 vs p1 en1 c1, Seq_ l1 p en c0 vs p1 en1 c1 -> No_ e p1 en1 c1 c2 -> forall s acc p0 s0,
        core_of s = c0 -> exists n s', (forall m, n <= m -> seq_from H (eval H G m) (l1 ++ e :: l2) p0 s0 p en s acc = Some (RFail p0 (back s0 s'))) /\ core_of s' = c2) as Y.
      { clear. intros p en c0 vs p1 en1 c1 Q. induction Q as [p en c|x l p en c v p1 en1 c1 vs p2 en2 c3 O Q IH]; intros N s acc p0 s0 E.
        - destruct (N s E) as (s1 & (n & R) & E1). exists n, s1. split; auto. intros m L. cbn [app seq_from].
          now rewrite (eval_mono H G n m L _ _ _ _ _ R).
        - destruct (O s E) as (s1 & (n1 & R1) & E1). destruct (IH N s1 (v :: acc) p0 s0 E1) as (n2 & s2 & R2 & E2).
          exists (Nat.max n1 n2), s2. split; auto. intros m L. cbn [app seq_from].
          rewrite (eval_mono H G n1 m ltac:(lia) _ _ _ _ _ R1). apply R2. lia. }
      intros acc p0 s0 E0. destruct (Y _ _ _ _ _ _ _ Q N s acc p0 s0 E) as (n & s' & R & E'). exists n, (back s0 s').
      split; auto. rewrite core_back, E0, E'. reflexivity. }
    destruct (X [] p s E) as (n & s' & R & E'). exists s'. split; auto. exists (S n). cbn [eval]. now apply R.
  Qed.
  Lemma no_seq1 : forall e l p en c c2, No_ e p en c c2 -> No_ (ESeq (e :: l)) p en c (kback c c2).
  Proof. intros e l p en c c2 N. apply (no_seq [] e l p en c [] p en c c2); [constructor|exact N]. Qed.

  (** choices *)
  Lemma ok_alt_here : forall e l p en c v p' en' c', Ok_ e p [] c v p' en' c' -> Ok_ (EAlt (e :: l)) p en c v p' en c'.
  Proof.
    intros e l p en c v p' en' c' O s E. destruct (O s E) as (s' & (n & R) & E'). exists s'. split; auto.
    exists (S n). cbn [eval alt_from]. now rewrite R.
  Qed.
  Lemma ok_alt_next : forall e l p en c c1 v p' en' c', No_ e p [] c c1 -> Ok_ (EAlt l) p en (kback c c1) v p' en' c' ->
    Ok_ (EAlt (e :: l)) p en c v p' en' c'.
  Proof.
    intros e l p en c c1 v p' en' c' N O s E. destruct (N s E) as (s1 & (n1 & R1) & E1).
    destruct (O (back s s1)) as (s' & (n & R) & E'); [rewrite core_back, E, E1; reflexivity|].
    exists s'. split; auto. destruct n as [|n]; [discriminate|]. exists (S (Nat.max n1 n)). cbn [eval alt_from].
    rewrite (eval_mono H G n1 _ (Nat.le_max_l _ _) _ _ _ _ _ R1).
    pose proof (eval_mono H G (S n) (S (Nat.max n1 n)) ltac:(lia) _ _ _ _ _ R) as R2. exact R2.
  Qed.
  Lemma no_alt_nil : forall p en c, No_ (EAlt []) p en c c.
  Proof. intros p en c s E. exists s. split; auto. exists 1. reflexivity. Qed.
  Lemma no_alt_next : forall e l p en c c1 c', No_ e p [] c c1 -> No_ (EAlt l) p en (kback c c1) c' ->
    No_ (EAlt (e :: l)) p en c c'.
  Proof.
    intros e l p en c c1 c' N O s E. destruct (N s E) as (s1 & (n1 & R1) & E1).
    destruct (O (back s s1)) as (s' & (n & R) & E'); [rewrite core_back, E, E1; reflexivity|].
    exists s'. split; auto. destruct n as [|n]; [discriminate|]. exists (S (Nat.max n1 n)). cbn [eval alt_from].
    rewrite (eval_mono H G n1 _ (Nat.le_max_l _ _) _ _ _ _ _ R1).
    pose proof (eval_mono H G (S n) (S (Nat.max n1 n)) ltac:(lia) _ _ _ _ _ R) as R2. exact R2.
  Qed.

  (** loops *)
  Inductive Star_ : expr -> pos -> core -> list val -> pos -> core -> Prop :=
  | star_stop : forall e p c c', No_ e p [] c c' -> Star_ e p c [] p c'
  | star_more : forall e p c v p1 en1 c1 vs p2 c2, Ok_ e p [] c v p1 en1 c1 -> Star_ e p1 c1 vs p2 c2 -> Star_ e p c (v :: vs) p2 c2.
  Lemma star_run : forall e p c vs p' c', Star_ e p c vs p' c' -> forall s en b acc, core_of s = c -> (b = true -> acc ++ vs <> []) ->
    exists n s', (forall m k, n <= m -> n <= k -> star_from H (eval H G m) k e b p en s acc = Some (ROk (VList (rev acc ++ vs)) p' en s')) /\ core_of s' = c'.
  Proof.
    intros e p c vs p' c' Q. induction Q as [e p c c' N|e p c v p1 en1 c1 vs p2 c2 O Q IH]; intros s en b acc E B.
    - destruct (N s E) as (s1 & (n & R) & E1). exists (S n), s1. split; auto. intros m k L K. destruct k as [|k]; [lia|].
      cbn [star_from]. rewrite (eval_mono H G n m ltac:(lia) _ _ _ _ _ R), app_nil_r.
      destruct acc as [|x acc], b; auto. cbn in B. destruct (B eq_refl eq_refl).
    - destruct (O s E) as (s1 & (n1 & R1) & E1). destruct (IH s1 en b (v :: acc) E1) as (n2 & s2 & R2 & E2); [discriminate|].
      exists (S (Nat.max n1 n2)), s2. split; auto. intros m k L K. destruct k as [|k]; [lia|]. cbn [star_from].
      rewrite (eval_mono H G n1 m ltac:(lia) _ _ _ _ _ R1), R2 by lia. cbn [rev]. now rewrite <- app_assoc.
  Qed.
  Lemma ok_star : forall e p en c vs p' c', Star_ e p c vs p' c' -> Ok_ (EStar e) p en c (VList vs) p' en c'.
  Proof.
    intros e p en c vs p' c' Q s E. destruct (star_run _ _ _ _ _ _ Q s en false [] E) as (n & s' & R & E'); [discriminate|].
    exists s'. split; auto. exists (S n). cbn [eval]. now apply R.
  Qed.
  Lemma ok_plus : forall e p en c vs p' c', Star_ e p c vs p' c' -> vs <> [] -> Ok_ (EPlus e) p en c (VList vs) p' en c'.
  Proof.
    intros e p en c vs p' c' Q Ne s E. destruct (star_run _ _ _ _ _ _ Q s en true [] E) as (n & s' & R & E'); [auto|].
    exists s'. split; auto. exists (S n). cbn [eval]. now apply R.
  Qed.
  Lemma no_plus : forall e p en c c', No_ e p [] c c' -> No_ (EPlus e) p en c c'.
  Proof.
    intros e p en c c' N s E. destruct (N s E) as (s1 & (n & R) & E1). exists s1. split; auto. exists (S (S n)).
    pose proof (eval_mono H G n (S n) ltac:(lia) _ _ _ _ _ R) as R'. remember (S n) as m eqn:Em. cbn [eval]. rewrite Em at 2.
    cbn [star_from]. now rewrite R'.
  Qed.

  Lemma ok_opt_some : forall e p en c v p' en' c', Ok_ e p [] c v p' en' c' -> Ok_ (EOpt e) p en c v p' en c'.
  Proof.
    intros e p en c v p' en' c' O s E. destruct (O s E) as (s' & (n & R) & E'). exists s'. split; auto.
    exists (S n). cbn [eval]. now rewrite R.
  Qed.
  Lemma ok_opt_none : forall e p en c c', No_ e p [] c c' -> Ok_ (EOpt e) p en c VNil p en c'.
  Proof.
    intros e p en c c' O s E. destruct (O s E) as (s' & (n & R) & E'). exists s'. split; auto.
    exists (S n). cbn [eval]. now rewrite R.
  Qed.
  Lemma ok_and : forall e p en c v p' en' c', Ok_ e p [] c v p' en' c' -> Ok_ (EAnd e) p en c VNil p en (kback c c').
  Proof.
    intros e p en c v p' en' c' O s E. destruct (O s E) as (s' & (n & R) & E'). exists (back s s').
    split; [|rewrite core_back, E, E'; reflexivity]. exists (S n). cbn [eval]. now rewrite R.
  Qed.
  Lemma no_and : forall e p en c c', No_ e p [] c c' -> No_ (EAnd e) p en c (kback c c').
  Proof.
    intros e p en c c' O s E. destruct (O s E) as (s' & (n & R) & E'). exists (back s s').
    split; [|rewrite core_back, E, E'; reflexivity]. exists (S n). cbn [eval]. now rewrite R.
  Qed.
  Lemma ok_not : forall e p en c c', No_ e p [] c c' -> Ok_ (ENot e) p en c VNil p en (kback c c').
  Proof.
    intros e p en c c' O s E. destruct (O s E) as (s' & (n & R) & E'). exists (back s s').
    split; [|rewrite core_back, E, E'; reflexivity]. exists (S n). cbn [eval]. now rewrite R.
  Qed.
  Lemma no_not : forall e p en c v p' en' c', Ok_ e p [] c v p' en' c' -> No_ (ENot e) p en c (kback c c').
  Proof.
    intros e p en c v p' en' c' O s E. destruct (O s E) as (s' & (n & R) & E'). exists (back s s').
    split; [|rewrite core_back, E, E'; reflexivity]. exists (S n). cbn [eval]. now rewrite R.
  Qed.

  Definition pred_at (q : pred) (en : env) (c : core) (b : bool) (c' : core) : Prop :=
    forall s, core_of s = c -> exists s', run_pred H q en s = Some (b, s') /\ core_of s' = c'.
  Lemma ok_pred : forall q p en c c', pred_at q en c true c' -> Ok_ (EPred q) p en c VNil p en c'.
  Proof. intros q p en c c' Q s E. destruct (Q s E) as (s' & R & E'). exists s'. split; auto. exists 1. cbn [eval]. now rewrite R. Qed.
  Lemma no_pred : forall q p en c c', pred_at q en c false c' -> No_ (EPred q) p en c c'.
  Proof. intros q p en c c' Q s E. destruct (Q s E) as (s' & R & E'). exists s'. split; auto. exists 1. cbn [eval]. now rewrite R. Qed.
  Lemma ok_state : forall code p en er g t g' t',
    (forall s, core_of s = (er, g, t) -> h_state H code en s = Some (false, g', t')) ->
    Ok_ (EState code) p en (er, g, t) VNil p en (er, g', t').
  Proof.
    intros code p en er g t g' t' Q s E. eexists. split; [exists 1; cbn [eval]; rewrite (Q s E); reflexivity|].
    unfold core_of in *. cbn. injection E as -> _ _. now rewrite orb_false_r.
  Qed.

  Definition act_at (a : action) (en : env) (text : list rune) (c : core) (v : val) (c' : core) : Prop :=
    forall s, core_of s = c -> c_text s = text -> exists s', run_act H a en s = Some (v, s') /\ core_of s' = c'.
  Lemma ok_act : forall a e p en c v0 p' en' c1 v c', Ok_ e p en c v0 p' en' c1 -> act_at a en' (slice p p') c1 v c' ->
    Ok_ (EAct a e) p en c v p' en' c'.
  Proof.
    intros a e p en c v0 p' en' c1 v c' O A s E. destruct (O s E) as (s1 & (n & R) & E1).
    destruct (A (Soft (slice p p') (before p) (p_errs s1) (c_store s1) (c_state s1))) as (s2 & R2 & E2); [exact E1|reflexivity|].
    exists s2. split; auto. exists (S n). cbn [eval]. now rewrite R, R2.
  Qed.
  Lemma no_act : forall a e p en c c', No_ e p en c c' -> No_ (EAct a e) p en c c'.
  Proof.
    intros a e p en c c' O s E. destruct (O s E) as (s1 & (n & R) & E1). exists s1. split; auto. exists (S n). cbn [eval]. now rewrite R.
  Qed.
  Lemma act_text : forall en text c, act_at AText en text c (VStr text) c.
  Proof. intros en text c s E T. exists s. cbn [run_act]. rewrite T. auto. Qed.
  Lemma act_label : forall l en text c, act_at (ALabel l) en text c (label en l) c.
  Proof. intros l en text c s E T. exists s. auto. Qed.
  Lemma act_host : forall code en text er g t v g',
    (forall s, core_of s = (er, g, t) -> c_text s = text -> h_act H code en s = Some (v, false, g')) ->
    act_at (AHost code) en text (er, g, t) v (er, g', t).
  Proof.
    intros code en text er g t v g' Q s E T. eexists. cbn [run_act]. rewrite (Q s E T). split; [reflexivity|].
    unfold core_of in *. cbn. injection E as -> _ ->. now rewrite orb_false_r.
  Qed.
  Lemma act_then : forall code l en text er g t v g',
    (forall s, core_of s = (er, g, t) -> c_text s = text -> h_act H code en s = Some (v, false, g')) ->
    act_at (AThen code l) en text (er, g, t) (updated H (label en l) v) (er, g', t).
  Proof.
    intros code l en text er g t v g' Q s E T. eexists. cbn [run_act]. rewrite (Q s E T). split; [reflexivity|].
    unfold core_of in *. cbn. injection E as -> _ ->. now rewrite orb_false_r.
  Qed.
  Lemma pred_host : forall code en er g t b g',
    (forall s, core_of s = (er, g, t) -> h_pred H code en s = Some (b, false, g')) ->
    pred_at (PHost code) en (er, g, t) b (er, g', t).
  Proof.
    intros code en er g t b g' Q s E. eexists. cbn [run_pred]. rewrite (Q s E). split; [reflexivity|].
    unfold core_of in *. cbn. injection E as -> _ ->. now rewrite orb_false_r.
  Qed.

  Lemma ok_lab : forall l e p en c v p' en' c', Ok_ e p [] c v p' en' c' -> Ok_ (ELab l e) p en c v p' ((l, v) :: en) c'.
  Proof.
    intros l e p en c v p' en' c' O s E. destruct (O s E) as (s' & (n & R) & E'). exists s'. split; auto.
    exists (S n). cbn [eval]. now rewrite R.
  Qed.
  Lemma no_lab : forall l e p en c c', No_ e p [] c c' -> No_ (ELab l e) p en c c'.
  Proof.
    intros l e p en c c' O s E. destruct (O s E) as (s' & (n & R) & E'). exists s'. split; auto.
    exists (S n). cbn [eval]. now rewrite R.
  Qed.
  Lemma ok_ref : forall r e p en c v p' en' c', rule_of G r = Some e -> Ok_ e p [] c v p' en' c' -> Ok_ (ERef r) p en c v p' en c'.
  Proof.
    intros r e p en c v p' en' c' Er O s E. destruct (O s E) as (s' & (n & R) & E'). exists s'. split; auto.
    exists (S n). cbn [eval]. now rewrite Er, R.
  Qed.
  Lemma no_ref : forall r e p en c c', rule_of G r = Some e -> No_ e p [] c c' -> No_ (ERef r) p en c c'.
  Proof.
    intros r e p en c c' Er O s E. destruct (O s E) as (s' & (n & R) & E'). exists s'. split; auto.
    exists (S n). cbn [eval]. now rewrite Er, R.
  Qed.

  (** the same rules when nothing was written *)
  Lemma no_seq_c : forall l1 e l2 p en c vs p1 en1, Seq_ l1 p en c vs p1 en1 c -> No_ e p1 en1 c c -> No_ (ESeq (l1 ++ e :: l2)) p en c c.
  Proof. intros l1 e l2 p en c vs p1 en1 Q N. rewrite <- (kback_id c) at 2. eapply no_seq; eauto. Qed.
  Lemma no_seq1_c : forall e l p en c, No_ e p en c c -> No_ (ESeq (e :: l)) p en c c.
  Proof. intros e l p en c N. rewrite <- (kback_id c) at 2. now apply no_seq1. Qed.
  Lemma ok_not_c : forall e p en c, No_ e p [] c c -> Ok_ (ENot e) p en c VNil p en c.
  Proof. intros e p en c N. rewrite <- (kback_id c) at 2. now apply ok_not. Qed.
  Lemma no_not_c : forall e p en c v p' en', Ok_ e p [] c v p' en' c -> No_ (ENot e) p en c c.
  Proof. intros e p en c v p' en' N. rewrite <- (kback_id c) at 2. eapply no_not; eauto. Qed.
  Lemma ok_and_c : forall e p en c v p' en', Ok_ e p [] c v p' en' c -> Ok_ (EAnd e) p en c VNil p en c.
  Proof. intros e p en c v p' en' N. rewrite <- (kback_id c) at 2. eapply ok_and; eauto. Qed.
  Lemma no_and_c : forall e p en c, No_ e p [] c c -> No_ (EAnd e) p en c c.
  Proof. intros e p en c N. rewrite <- (kback_id c) at 2. now apply no_and. Qed.
  Lemma ok_alt_c : forall e l p en c v p' en' c', No_ e p [] c c -> Ok_ (EAlt l) p en c v p' en' c' -> Ok_ (EAlt (e :: l)) p en c v p' en' c'.
  Proof. intros e l p en c v p' en' c' N O. eapply ok_alt_next; [exact N|]. now rewrite kback_id. Qed.
  Lemma no_alt_c : forall e l p en c, No_ e p [] c c -> No_ (EAlt l) p en c c -> No_ (EAlt (e :: l)) p en c c.
  Proof. intros e l p en c N O. eapply no_alt_next; [exact N|]. now rewrite kback_id. Qed.

  (** the loop over a class of characters: it reads exactly the longest run of them *)
  Definition head_not (f : rune -> bool) (t : list rune) : Prop := match t with [] => True | r :: _ => f r = false end.
  Lemma star_cls : forall cs rs us inv w t b c,
    (forall r, In r w -> in_cls H cs rs us r = negb inv) -> head_not (fun r => Bool.eqb (in_cls H cs rs us r) (negb inv)) t ->
    Star_ (ECls cs rs us inv) (Pos b (w ++ t)) c (map (fun r => VBytes [r]) w) (Pos (rev w ++ b) t) c.
  Proof.
    intros cs rs us inv w t. induction w as [|x w IH]; intros b c W T.
    - cbn. apply star_stop. destruct t as [|y t]; [apply no_cls_end|]. cbn in T. apply no_cls.
      destruct (in_cls H cs rs us y), inv; cbn in T; congruence.
    - cbn [app map rev]. eapply star_more; [apply ok_cls, W; now left|]. rewrite <- app_assoc. cbn [app]. apply IH; auto.
      intros r I. apply W. now right.
  Qed.
  Lemma star_lit1 : forall x n t b c, x <> Peg.RuneError -> head_not (N.eqb x) t ->
    Star_ (ELit [x] false) (Pos b (repeat x n ++ t)) c (repeat (VBytes [x]) n) (Pos (repeat x n ++ b) t) c.
  Proof.
    intros x n t b c Nx. revert b. induction n as [|n IH]; intros b T.
    - cbn. apply star_stop. destruct t as [|y t]; [now apply no_lit_end|]. apply no_lit1. cbn in T.
      intros ->. rewrite N.eqb_refl in T. discriminate.
    - cbn [repeat app]. eapply star_more; [apply (ok_lit [x])|]. cbn [rev app].
      replace (x :: repeat x n ++ b) with (repeat x n ++ x :: b); [apply IH; auto|].
      clear. induction n as [|n IHn]; cbn; [reflexivity|]. now rewrite IHn.
  Qed.

  (** a failure found by a symbolic run on the beginning of the text *)
  Section Symbolic.
    Variable quiet : string -> bool.
    Hypothesis Hquiet : forall c, quiet c = true -> forall en s, exists b, h_pred H c en s = Some (b, false, c_store s).
    Hypothesis U : unicode_ok H.
    Definition fails_on (k : nat) (e : expr) (opened : bool) (b pre : list rune) : bool :=
      match sym known_class known_lower known_white quiet opened G k e (Pos b pre) [] with
      | Some outs => forallb isClean outs
      | None => false
      end.
    Lemma no_sym : forall k e (opened : bool) b pre tail c, fails_on k e opened b pre = true -> (opened = false -> tail = []) ->
      No_ e (Pos b (pre ++ tail)) [] c c.
    Proof.
      intros k e opened b pre tail c F T s E. unfold fails_on in F.
      destruct (sym known_class known_lower known_white quiet opened G k e (Pos b pre) []) as [outs|] eqn:Eo; [|discriminate].
      destruct U as (U1 & U2 & U3).
      destruct (sym_ok H G known_class known_lower known_white quiet opened tail T Hquiet U1 U2 U3 k e (Pos b pre) [] [] s outs Eo (senv_nil H))
        as (r & Er & o & I & R). rewrite forallb_forall in F. specialize (F _ I).
      destruct o as [| [] |]; try discriminate. destruct r as [v p' en s'|p' s'|]; cbn in R; try tauto. destruct R as (-> & D).
      destruct (D eq_refl) as (D1 & D2 & D3). exists s'. split; [exists k; exact Er|]. unfold core_of in *. rewrite D1, D2, D3. exact E.
    Qed.
  End Symbolic.
End Rules.
Arguments core_of {H}. Arguments kback {H}.
