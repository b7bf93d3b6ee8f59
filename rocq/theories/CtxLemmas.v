(** Proofs about context attributes. *)
From Verif Require Import GoBase Types Attrs Context.

Notation fold_mset l acc := (fold_left (fun acc kv => mset acc (fst kv) (snd kv)) l acc) (only parsing).

(** value of the last binding of [k] in a list of writes *)
Fixpoint last_assoc {V} (l : list (string * V)) (k : string) : option V :=
  match l with
  | [] => None
  | (k', v) :: r => match last_assoc r k with
                    | Some w => Some w
                    | None => if String.eqb k' k then Some v else None
                    end
  end.

Lemma mget_fold_mset {V} (l : list (string * V)) k : forall acc,
  mget (fold_mset l acc) k = match last_assoc l k with Some v => Some v | None => mget acc k end.
Proof.
  induction l as [|[k' v] l IH]; intros acc; cbn; [reflexivity|].
  rewrite IH. destruct (last_assoc l k); [reflexivity|]. rewrite mget_mset.
  destruct (String.eqb k' k); reflexivity.
Qed.

Lemma last_assoc_mset_neq {V} (l : list (string * V)) k n v :
  n <> k -> last_assoc (mset l n v) k = last_assoc l k.
Proof.
  intros H. induction l as [|[k' v'] l IH]; cbn.
  - destruct (String.eqb_spec n k); congruence.
  - destruct (String.eqb_spec n k') as [->|N]; cbn.
    + destruct (String.eqb_spec k' k); [congruence|reflexivity].
    + rewrite IH. reflexivity.
Qed.

Lemma last_assoc_mdel_neq {V} (l : list (string * V)) k n :
  n <> k -> last_assoc (mdel l n) k = last_assoc l k.
Proof.
  intros H. induction l as [|[k' v'] l IH]; cbn; [reflexivity|].
  destruct (String.eqb_spec n k') as [->|N]; cbn.
  - rewrite IH. destruct (last_assoc l k); [reflexivity|].
    destruct (String.eqb_spec k' k); [congruence|reflexivity].
  - rewrite IH. reflexivity.
Qed.

Lemma last_assoc_None {V} (l : list (string * V)) k : ~ In k (mkeys l) -> last_assoc l k = None.
Proof.
  induction l as [|[k' v] l IH]; cbn; intros H; [reflexivity|].
  rewrite IH by tauto. destruct (String.eqb_spec k' k); [exfalso; tauto|reflexivity].
Qed.

Lemma last_assoc_mget {V} (l : list (string * V)) k : NoDup (mkeys l) -> last_assoc l k = mget l k.
Proof.
  induction l as [|[k' v] l IH]; cbn; intros ND; [reflexivity|].
  inversion ND as [|? ? N1 N2]; subst. rewrite String.eqb_sym.
  destruct (String.eqb_spec k k') as [->|N].
  - now rewrite last_assoc_None.
  - rewrite IH by auto. now destruct (mget l k).
Qed.

Lemma mget_callAttributes c k :
  mget (callAttributes c) k =
  match last_assoc (immutableAttrs c) k with
  | Some v => Some v
  | None => last_assoc (docAttrs c) k
  end.
Proof.
  unfold callAttributes. rewrite !mget_fold_mset. cbn. now destruct (last_assoc (docAttrs c) k).
Qed.

Lemma last_assoc_fold_mset_neq {V} (l : list (string * V)) k : ~ In k (mkeys l) -> forall acc,
  last_assoc (fold_mset l acc) k = last_assoc acc k.
Proof.
  induction l as [|[n v] l IH]; cbn; intros H acc; [reflexivity|].
  rewrite IH by tauto. apply last_assoc_mset_neq. tauto.
Qed.
