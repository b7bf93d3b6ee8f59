(** Proofs about authors. *)
From Verif Require Import GoBase GoLemmas Types Attrs Authors AuthorsSpec.

Lemma key_numbered b i : key b i = numbered b (S i).
Proof. destruct i; reflexivity. Qed.

Lemma key_inj : forall b c i j, In b bases -> In c bases -> key b i = key c j -> b = c /\ i = j.
Proof.
  assert (D : forall b i j, key b i = key b j -> i = j).
  { intros b i j H. destruct i, j; cbn [key] in H.
    - reflexivity.
    - apply (f_equal String.length) in H. rewrite !slength_app in H. cbn [String.length] in H. lia.
    - apply (f_equal String.length) in H. rewrite !slength_app in H. cbn [String.length] in H. lia.
    - apply sapp_inj_l in H. apply sapp_inj_l in H. apply itoaN_inj in H. lia. }
  intros b c i j B C H.
  cbn in B, C.
  destruct B as [<-|[<-|[<-|[<-|[<-|[<-|[]]]]]]], C as [<-|[<-|[<-|[<-|[<-|[<-|[]]]]]]];
  try (split; [reflexivity|]; now apply D in H);
  exfalso; destruct i, j; cbn in H; discriminate.
Qed.

Lemma key_authors b i : In b bases -> key b i <> "authors".
Proof.
  intros B H. cbn in B. destruct B as [<-|[<-|[<-|[<-|[<-|[<-|[]]]]]]]; destruct i; cbn in H; discriminate.
Qed.

Definition step (p : person) (i : nat) (m : attributes) : attributes :=
  match p with
  | Person f md l e =>
          let n := mkFullName f md l in
          let m := mset m (key "author" i) (VStr (fullName n)) in
          let m := mset m (key "authorinitials" i) (VStr (initials n)) in
          let m := mset m (key "firstname" i) (VStr f) in
          let m := set_nonempty m (key "middlename" i) md in
          let m := set_nonempty m (key "lastname" i) l in
          set_nonempty m (key "email" i) e
  end.
Lemma expand_cons p r i m : expand_loop (person_author p :: r) i m = expand_loop r (S i) (step p i m).
Proof. destruct p; reflexivity. Qed.

Lemma mget_set_nonempty m k s k' :
  mget (set_nonempty m k s) k' = if String.eqb k k' then match optional s with Some v => Some v | None => mget m k' end else mget m k'.
Proof.
  unfold set_nonempty, optional. destruct (String.eqb s ""); [now destruct (String.eqb k k')|].
  rewrite mget_mset. reflexivity.
Qed.

Lemma person_name_ok f md l e : fullName (mkFullName f md l) = person_name (Person f md l e).
Proof.
  unfold fullName, person_name, words. cbn [filter fn_first fn_middle fn_last].
  destruct (String.eqb_spec md ""), (String.eqb_spec l ""); subst; cbn [negb filter join].
  all: rewrite ?sapp_nil_r; auto.
  all: cbn [join]; rewrite ?sapp_assoc; reflexivity.
Qed.
Lemma initials_ok f md l : initials (mkFullName f md l) = (first_byte f ++ first_byte md ++ first_byte l)%string.
Proof.
  unfold initials, initial. cbn [fn_first fn_middle fn_last].
  destruct f, md, l; reflexivity.
Qed.

Lemma step_same p i m b : In b bases ->
  mget (step p i m) (key b i) = match person_attr p b with Some v => Some v | None => mget m (key b i) end.
Proof.
  intros B. destruct p as [f md l e]. unfold step.
  assert (Q : forall c, In c bases -> String.eqb (key c i) (key b i) = String.eqb c b).
  { intros c C. destruct (String.eqb_spec c b) as [->|N]; [apply String.eqb_refl|].
    apply String.eqb_neq. intros X. apply key_inj in X; auto. tauto. }
  rewrite !mget_set_nonempty, !mget_mset, !Q by (cbn; tauto). rewrite (person_name_ok f md l e), initials_ok.
  cbn in B. destruct B as [<-|[<-|[<-|[<-|[<-|[<-|[]]]]]]]; reflexivity.
Qed.
Lemma step_other p i m k : (forall b, In b bases -> k <> key b i) -> mget (step p i m) k = mget m k.
Proof.
  intros N. destruct p as [f md l e]. unfold step.
  assert (Q : forall c, In c bases -> String.eqb (key c i) k = false).
  { intros c C. apply String.eqb_neq. intros X. symmetry in X. now apply N in X. }
  rewrite !mget_set_nonempty, !mget_mset, !Q by (cbn; tauto). reflexivity.
Qed.

Lemma expand_spec : forall ps i m, exists m', expand_loop (map person_author ps) i m = Ok m' /\
  (forall j p b, nth_error ps j = Some p -> In b bases ->
     mget m' (key b (i + j)) = match person_attr p b with Some v => Some v | None => mget m (key b (i + j)) end) /\
  (forall k, (forall j b, (j < List.length ps)%nat -> In b bases -> k <> key b (i + j)) -> mget m' k = mget m k).
Proof.
  induction ps as [|p r IH]; intros i m.
  - exists m. split; [reflexivity|]. split; [|auto]. intros [|j] p b E; discriminate.
  - cbn [map]. rewrite expand_cons. destruct (IH (S i) (step p i m)) as (m' & E & S1 & S2).
    exists m'. split; [exact E|]. split.
    + intros [|j] q b N B.
      * injection N as <-. rewrite Nat.add_0_r. rewrite S2.
        -- now apply step_same.
        -- intros j c J C X. apply key_inj in X; auto. lia.
      * cbn in N. replace (i + S j)%nat with (S i + j)%nat by lia. rewrite (S1 j q b N B).
        destruct (person_attr q b); [reflexivity|]. apply step_other. intros c C X. apply key_inj in X; auto. lia.
    + intros k K. rewrite S2.
      * apply step_other. intros b B. specialize (K 0%nat b). rewrite Nat.add_0_r in K. apply K; auto. cbn. lia.
      * intros j b J B. replace (S i + j)%nat with (i + S j)%nat by lia. apply K; auto. cbn. lia.
Qed.

Lemma NoDup_step p i m : NoDup (mkeys m) -> NoDup (mkeys (step p i m)).
Proof.
  assert (Q : forall m k s, NoDup (mkeys m) -> NoDup (mkeys (set_nonempty m k s))).
  { intros m0 k s D. unfold set_nonempty. destruct (String.eqb s ""); auto using NoDup_mset. }
  intros D. destruct p. unfold step. cbv zeta. apply Q, Q, Q, NoDup_mset, NoDup_mset, NoDup_mset, D.
Qed.
Lemma NoDup_expand : forall ps i m m', NoDup (mkeys m) -> expand_loop (map person_author ps) i m = Ok m' -> NoDup (mkeys m').
Proof.
  induction ps as [|p r IH]; intros i m m' D E.
  - now injection E as <-.
  - cbn [map] in E. rewrite expand_cons in E. eapply IH; [|exact E]. now apply NoDup_step.
Qed.
