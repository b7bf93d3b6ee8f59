(** A machine that recognises the well-formed strings of HtmlSpec, byte by byte, and the effect of the string operations of
    the renderer on the strings it accepts. *)
From Verif Require Import GoBase GoLemmas HtmlSpec.
Local Open Scope string_scope.

Inductive mode := MT | ML | MO (n : string) | MS (n : string) | MA (n : string) | ME (n : string) | MQ (n : string) | MX (n : string)
                | MZ (n : string) | MC (n : string).
Definition state := (mode * list string)%type.
Definition is_void (n : string) : bool := existsb (String.eqb n) void_elements.
Definition snoc (n : string) (c : ascii) : string := n ++ String c "".
Definition finish (n : string) (st : list string) : state := if is_void n then (MT, st) else (MT, n :: st).
Definition step (s : state) (c : ascii) : option state :=
  let '(m, st) := s in
  match m with
  | MT => Some (if Ascii.eqb c lt then (ML, st) else (MT, st))
  | ML => if Ascii.eqb c "/" then Some (MC "", st) else if name_char c then Some (MO (snoc "" c), st) else None
  | MO n => if name_char c then Some (MO (snoc n c), st) else if Ascii.eqb c " " then Some (MS n, st) else
            if Ascii.eqb c gt then Some (finish n st) else if Ascii.eqb c "/" then Some (MZ n, st) else None
  | MS n => if name_char c then Some (MA n, st) else if Ascii.eqb c " " then Some (MS n, st) else
            if Ascii.eqb c gt then Some (finish n st) else if Ascii.eqb c "/" then Some (MZ n, st) else None
  | MA n => if name_char c then Some (MA n, st) else if Ascii.eqb c " " then Some (MS n, st) else
            if Ascii.eqb c "=" then Some (ME n, st) else
            if Ascii.eqb c gt then Some (finish n st) else if Ascii.eqb c "/" then Some (MZ n, st) else None
  | ME n => if Ascii.eqb c quot then Some (MQ n, st) else None
  | MQ n => if Ascii.eqb c quot then Some (MX n, st) else if safe_char c then Some (MQ n, st) else None
  | MX n => if Ascii.eqb c " " then Some (MS n, st) else
            if Ascii.eqb c gt then Some (finish n st) else if Ascii.eqb c "/" then Some (MZ n, st) else None
  | MZ n => if Ascii.eqb c gt && is_void n then Some (MT, st) else None
  | MC n => if name_char c then Some (MC (snoc n c), st) else
            if Ascii.eqb c gt then match st with t :: r => if String.eqb t n then Some (MT, r) else None | [] => None end else None
  end.
Fixpoint run (s : state) (x : string) : option state :=
  match x with
  | EmptyString => Some s
  | String c r => match step s c with Some s' => run s' r | None => None end
  end.
Definition bal (x : string) : Prop := run (MT, []) x = Some (MT, []).

Lemma run_app s x y : run s (x ++ y) = match run s x with Some s' => run s' y | None => None end.
Proof.
  revert s. induction x as [|c x IH]; intros s; cbn [append run]; [reflexivity|]. destruct (step s c); [apply IH|reflexivity].
Qed.
Lemma run_app_ok s s' s'' x y : run s x = Some s' -> run s' y = Some s'' -> run s (x ++ y) = Some s''.
Proof. intros H1 H2. rewrite run_app, H1. exact H2. Qed.
Lemma app_assoc_s (a b c : string) : (a ++ b) ++ c = a ++ (b ++ c).
Proof. induction a; cbn [append]; congruence. Qed.
Lemma app_nil_s (a : string) : a ++ "" = a.
Proof. induction a; cbn [append]; congruence. Qed.
Lemma snoc_app n c r : snoc n c ++ r = n ++ String c r.
Proof. unfold snoc. now rewrite app_assoc_s. Qed.
Lemma all_app f a b : all_chars f (a ++ b) = all_chars f a && all_chars f b.
Proof. induction a as [|c a IH]; cbn [append all_chars]; [reflexivity|]. rewrite IH. apply andb_assoc. Qed.

(** ** every string accepted is well-formed *)
Lemma is_void_In n : is_void n = true <-> In n void_elements.
Proof.
  unfold is_void. rewrite existsb_exists. split.
  - intros (x & X & E). apply String.eqb_eq in E. now subst.
  - intros H. exists n. split; [exact H|apply String.eqb_refl].
Qed.
Lemma is_name_snoc n c : all_chars name_char n = true -> name_char c = true -> is_name (snoc n c).
Proof.
  intros H1 H2. split; [destruct n; discriminate|]. unfold snoc. rewrite all_app, H1. cbn. now rewrite H2.
Qed.

Fixpoint closes (st : list string) (s : string) : Prop :=
  match st with
  | [] => wf s
  | n :: r => exists b q, s = b ++ "</" ++ n ++ ">" ++ q /\ wf b /\ closes r q
  end.
Definition ends (s : state) (x : string) : Prop := run s x = Some (MT, []).

(** the rest of a tag of the element [n] is [a] *)
Definition tag_rest (n : string) (st : list string) (a x : string) : Prop :=
  exists r, (x = a ++ ">" ++ r /\ ends (finish n st) r) \/ (x = a ++ "/>" ++ r /\ is_void n = true /\ ends (MT, st) r).

Ltac cases H :=
  repeat match type of H with
         | context [if ?b then _ else _] => destruct b eqn:?
         end.
Lemma ch_eq c d : Ascii.eqb c d = true -> c = d.
Proof. apply Ascii.eqb_eq. Qed.

Lemma rest_of_tag st n : forall x,
  (ends (MX n, st) x -> exists a, tag_attrs a /\ tag_rest n st a x) /\
  (ends (MS n, st) x -> exists a, tag_attrs (" " ++ a) /\ tag_rest n st a x) /\
  (forall k, is_name k -> ends (MA n, st) x -> exists a, tag_attrs (" " ++ k ++ a) /\ tag_rest n st a x) /\
  (forall k, is_name k -> ends (ME n, st) x -> exists a, tag_attrs (" " ++ k ++ "=" ++ a) /\ tag_rest n st a x) /\
  (forall k v, is_name k -> safe v -> ends (MQ n, st) x -> exists a, tag_attrs (" " ++ k ++ "=""" ++ v ++ a) /\ tag_rest n st a x).
Proof.
  assert (F : forall c x, Ascii.eqb c gt = true -> forall s0, step (s0, st) c = Some (finish n st) -> ends (s0, st) (String c x) -> tag_rest n st "" (String c x)).
  { intros c x E s0 S0 H. apply ch_eq in E. subst c. unfold ends in H. cbn [run] in H. rewrite S0 in H. exists x. left. now split. }
  assert (Z : forall c x, Ascii.eqb c "/" = true -> forall s0, step (s0, st) c = Some (MZ n, st) -> ends (s0, st) (String c x) -> tag_rest n st "" (String c x)).
  { intros c x E s0 S0 H. apply ch_eq in E. subst c. unfold ends in H. cbn [run] in H. rewrite S0 in H.
    destruct x as [|d x]; [discriminate H|]. cbn [run step] in H.
    destruct (Ascii.eqb d gt && is_void n) eqn:G; [|discriminate H]. apply andb_true_iff in G as [G1 G2]. apply ch_eq in G1. subst d.
    exists x. right. auto. }
  assert (TR : forall a b x, tag_rest n st a x -> tag_rest n st (b ++ a) (b ++ x)).
  { intros a b x (r & [[-> H]|[-> H]]); exists r; [left|right]; (split; [now rewrite app_assoc_s|exact H]). }
  induction x as [|c x (IX & IS & IA & IE & IQ)].
  { split; [|split; [|split; [|split]]]; intros; discriminate. }
  split; [|split; [|split; [|split]]].
  - intros H. pose proof H as H0. unfold ends in H0. cbn [run step] in H0. cases H0; try discriminate H0.
    + apply ch_eq in Heqb. subst c. apply IS in H0 as (a & A & R). exists (" " ++ a). split; [exact A|]. now apply (TR a " ").
    + exists "". split; [constructor|]. apply (F c x Heqb0 (MX n)); [cbn [step]; now rewrite Heqb, Heqb0|exact H].
    + exists "". split; [constructor|]. apply (Z c x Heqb1 (MX n)); [cbn [step]; now rewrite Heqb, Heqb0, Heqb1|exact H].
  - intros H. pose proof H as H0. unfold ends in H0. cbn [run step] in H0. cases H0; try discriminate H0.
    + apply (IA (snoc "" c)) in H0; [|now apply is_name_snoc]. destruct H0 as (a & A & R). exists (String c a). split; [exact A|].
      now apply (TR a (String c "")).
    + apply ch_eq in Heqb0. subst c. apply IS in H0 as (a & A & R). exists (" " ++ a). split; [now constructor|]. now apply (TR a " ").
    + exists "". split; [repeat constructor|]. apply (F c x Heqb1 (MS n)); [cbn [step]; now rewrite Heqb, Heqb0, Heqb1|exact H].
    + exists "". split; [repeat constructor|]. apply (Z c x Heqb2 (MS n)); [cbn [step]; now rewrite Heqb, Heqb0, Heqb1, Heqb2|exact H].
  - intros k K H. pose proof H as H0. unfold ends in H0. cbn [run step] in H0. cases H0; try discriminate H0.
    + apply (IA (snoc k c)) in H0; [|apply is_name_snoc; [apply K|exact Heqb]]. destruct H0 as (a & A & R). exists (String c a).
      rewrite snoc_app in A. split; [exact A|]. now apply (TR a (String c "")).
    + apply ch_eq in Heqb0. subst c. apply IS in H0 as (a & A & R). exists (" " ++ a). split; [now apply ta_bare|]. now apply (TR a " ").
    + apply ch_eq in Heqb1. subst c. apply (IE k K) in H0 as (a & A & R). exists ("=" ++ a). split; [exact A|]. now apply (TR a "=").
    + exists "". split; [apply ta_bare; [exact K|constructor]|].
      apply (F c x Heqb2 (MA n)); [cbn [step]; now rewrite Heqb, Heqb0, Heqb1, Heqb2|exact H].
    + exists "". split; [apply ta_bare; [exact K|constructor]|].
      apply (Z c x Heqb3 (MA n)); [cbn [step]; now rewrite Heqb, Heqb0, Heqb1, Heqb2, Heqb3|exact H].
  - intros k K H. unfold ends in H. cbn [run step] in H. cases H; try discriminate H.
    apply ch_eq in Heqb. subst c. apply (IQ k "" K) in H as (a & A & R); [|reflexivity]. exists (String quot a). split; [exact A|].
    now apply (TR a (String quot "")).
  - intros k v K V H. unfold ends in H. cbn [run step] in H. cases H; try discriminate H.
    + apply ch_eq in Heqb. subst c. apply IX in H as (a & A & R). exists (String quot a). split; [now apply ta_value|]. now apply (TR a (String quot "")).
    + apply (IQ k (snoc v c) K) in H; [|unfold safe, snoc; rewrite all_app, V; cbn; now rewrite Heqb0].
      destruct H as (a & A & R). exists (String c a). rewrite snoc_app in A. split; [exact A|]. now apply (TR a (String c "")).
Qed.

Lemma open_tag st : forall x n, is_name n -> ends (MO n, st) x -> exists k a, is_name (n ++ k) /\ tag_attrs a /\ tag_rest (n ++ k) st (k ++ a) x.
Proof.
  assert (TR : forall n a b x, tag_rest n st a x -> tag_rest n st (b ++ a) (b ++ x)).
  { intros n a b x (r & [[-> H]|[-> H]]); exists r; [left|right]; (split; [now rewrite app_assoc_s|exact H]). }
  induction x as [|c x IH]; intros n N H; [discriminate H|]. pose proof H as H0. unfold ends in H. cbn [run step] in H. cases H; try discriminate H.
  - apply IH in H as (k & a & K & A & R); [|apply is_name_snoc; [apply N|exact Heqb]]. rewrite snoc_app in K, R.
    exists (String c k), a. split; [exact K|]. split; [exact A|]. now apply (TR _ (k ++ a) (String c "")).
  - apply ch_eq in Heqb0. subst c. apply (rest_of_tag st n x) in H as (a & A & R). exists "", (" " ++ a). rewrite app_nil_s. split; [exact N|].
    split; [exact A|]. now apply (TR _ a " ").
  - apply ch_eq in Heqb1. subst c. exists "", "". rewrite app_nil_s. split; [exact N|]. split; [constructor|]. exists x. left. now split.
  - apply ch_eq in Heqb2. subst c. exists "", "". rewrite app_nil_s. split; [exact N|]. split; [constructor|].
    destruct x as [|d x]; [discriminate H|]. cbn [run step] in H. destruct (Ascii.eqb d gt && is_void n) eqn:G; [|discriminate H].
    apply andb_true_iff in G as [G1 G2]. apply ch_eq in G1. subst d. exists x. right. auto.
Qed.
Lemma close_tag st : forall x n, ends (MC n, st) x -> exists k t r q, st = t :: r /\ t = n ++ k /\ x = k ++ ">" ++ q /\ ends (MT, r) q.
Proof.
  induction x as [|c x IH]; intros n H; [discriminate H|]. unfold ends in H. cbn [run step] in H. cases H; try discriminate H.
  - apply IH in H as (k & t & r & q & H1 & H2 & H3 & H4). exists (String c k), t, r, q. rewrite snoc_app in H2. split; [exact H1|]. split; [exact H2|].
    split; [|exact H4]. now rewrite H3.
  - apply ch_eq in Heqb0. subst c. destruct st as [|t r]; [discriminate H|]. destruct (String.eqb_spec t n) as [->|]; [|discriminate H].
    exists "", n, r, x. rewrite app_nil_s. auto.
Qed.

Lemma sapp_len (a b : string) : String.length (a ++ b) = String.length a + String.length b.
Proof. induction a; cbn [append String.length]; lia. Qed.

Lemma accepted_closes : forall k x st, String.length x < k -> ends (MT, st) x -> closes st x.
Proof.
  induction k as [|k IH]; intros x st L H; [lia|].
  destruct x as [|c x]. { injection H as ->. constructor. }
  destruct (Ascii.eqb c lt) eqn:E.
  2:{ unfold ends in H. cbn [run step] in H. rewrite E in H.
    assert (C : closes st x) by (apply IH; [cbn in L; lia|exact H]).
    assert (N : c <> lt) by (intros ->; discriminate E).
    destruct st as [|n r]; cbn [closes] in *; [now constructor|]. destruct C as (b & q & -> & B & C).
    exists (String c b), q. split; [reflexivity|]. split; [now constructor|exact C]. }
  apply ch_eq in E. subst c. unfold ends in H. cbn [run step] in H. change (Ascii.eqb lt lt) with true in H. cbv iota in H.
  destruct x as [|c x]; [discriminate H|]. cbn [run step] in H.
  destruct (Ascii.eqb c "/") eqn:E.
  - apply ch_eq in E. subst c. apply close_tag in H as (k0 & t & r & q & -> & -> & -> & H). cbn [closes].
    exists "", q. split; [reflexivity|]. split; [constructor|]. apply IH; [|exact H]. cbn [String.length] in L. rewrite sapp_len in L. cbn in L. lia.
  - destruct (name_char c) eqn:NC; [|discriminate H].
    apply open_tag in H as (j & a & N & A & R); [|now apply is_name_snoc].
    rewrite snoc_app in N, R. change ("" ++ String c j) with (String c j) in N, R.
    set (n := String c j) in *.
    destruct R as (r & [[X H]|[X [V H]]]).
    + assert (X' : String lt (String c x) = "<" ++ n ++ a ++ ">" ++ r) by (rewrite X; unfold n; cbn [append]; now rewrite app_assoc_s).
      rewrite X'. assert (Lr : String.length r < k). { rewrite X' in L. rewrite !sapp_len in L. cbn in L. lia. }
      unfold finish in H. destruct (is_void n) eqn:V.
      * apply IH in H; [|exact Lr]. apply is_void_In in V. destruct st as [|t st]; cbn [closes] in *; [now constructor|].
        destruct H as (b & q & -> & B & C). exists ("<" ++ n ++ a ++ ">" ++ b), q. split; [now rewrite !app_assoc_s|]. split; [now constructor|exact C].
      * apply IH in H; [|exact Lr]. cbn [closes] in H. destruct H as (b & q & -> & B & C).
        assert (NV : ~ In n void_elements) by (rewrite <- is_void_In, V; discriminate).
        destruct st as [|t st]; cbn [closes] in *; [now constructor|].
        destruct C as (b' & q' & -> & B' & C). exists ("<" ++ n ++ a ++ ">" ++ b ++ "</" ++ n ++ ">" ++ b'), q'.
        split; [now rewrite !app_assoc_s|]. split; [now constructor|exact C].
    + assert (X' : String lt (String c x) = "<" ++ n ++ a ++ "/>" ++ r) by (rewrite X; unfold n; cbn [append]; now rewrite app_assoc_s).
      rewrite X'. assert (Lr : String.length r < k). { rewrite X' in L. rewrite !sapp_len in L. cbn in L. lia. }
      apply IH in H; [|exact Lr]. apply is_void_In in V. destruct st as [|t st]; cbn [closes] in *; [now constructor|].
      destruct H as (b & q & -> & B & C). exists ("<" ++ n ++ a ++ "/>" ++ b), q. split; [now rewrite !app_assoc_s|]. split; [now constructor|exact C].
Qed.
Theorem bal_wf x : bal x -> wf x.
Proof. intros H. exact (accepted_closes (S (String.length x)) x [] (Nat.lt_succ_diag_r _) H). Qed.
