(** Lemmas about attribute maps. *)
From Verif Require Import GoBase GoLemmas Types Attrs.

(** keys that [Set] treats like any map *)
Definition plain_key (k : string) : Prop := k <> AttrRole /\ k <> AttrRoles /\ k <> AttrOption /\ k <> AttrOptions.

Lemma aset_plain a k v : plain_key k -> aset a k v = mset a k v.
Proof.
  intros (A & B & C & D). unfold aset.
  rewrite (proj2 (String.eqb_neq _ _) A), (proj2 (String.eqb_neq _ _) B), (proj2 (String.eqb_neq _ _) C), (proj2 (String.eqb_neq _ _) D).
  reflexivity.
Qed.

(** [Set] changes no other key than its own (or the plural of it) *)
Lemma mget_aset_other a k v k' : k <> k' -> k' <> AttrRoles -> k' <> AttrOptions -> mget (aset a k v) k' = mget a k'.
Proof.
  intros N R O. unfold aset.
  assert (M : forall x w, x <> k' -> mget (mset a x w) k' = mget a k') by (intros; now apply mget_mset_neq).
  repeat match goal with
  | |- context [if String.eqb ?x ?y then _ else _] => destruct (String.eqb_spec x y)
  | |- context [match ?x with _ => _ end] => destruct x
  end; try reflexivity; apply M; congruence.
Qed.

Lemma mget_aaddall_other others : forall a k, ~ In k (mkeys others) -> k <> AttrRoles -> k <> AttrOptions ->
  mget (aaddall a others) k = mget a k.
Proof.
  unfold aaddall. induction others as [|[x v] r IH]; intros a k N R O; [reflexivity|].
  cbn in N |- *. rewrite IH by tauto. apply mget_aset_other; tauto.
Qed.

Lemma mget_aaddall others : (forall k, In k (mkeys others) -> plain_key k) -> NoDup (mkeys others) ->
  forall a k, mget (aaddall a others) k = match mget others k with Some v => Some v | None => mget a k end.
Proof.
  unfold aaddall. induction others as [|[x v] r IH]; intros P D a k; [reflexivity|].
  cbn in P, D |- *. inversion D as [|? ? D1 D2]; subst. rewrite IH by auto.
  rewrite aset_plain by auto. rewrite mget_mset. rewrite (String.eqb_sym k x).
  destruct (String.eqb_spec x k) as [->|N]; [|reflexivity].
  destruct (mget r k) eqn:E; [|reflexivity]. apply mget_In in E. exfalso. apply D1. apply in_map_iff. exists (k, v0). auto.
Qed.

Lemma NoDup_aset a k v : NoDup (mkeys a) -> NoDup (mkeys (aset a k v)).
Proof.
  intros D. unfold aset.
  repeat match goal with
  | |- context [if String.eqb ?x ?y then _ else _] => destruct (String.eqb_spec x y)
  | |- context [match ?x with _ => _ end] => destruct x
  end; auto using NoDup_mset.
Qed.
Lemma NoDup_aaddall others : forall a, NoDup (mkeys a) -> NoDup (mkeys (aaddall a others)).
Proof. unfold aaddall. induction others as [|[k v] r IH]; intros a D; [exact D|]. cbn. apply IH. now apply NoDup_aset. Qed.
