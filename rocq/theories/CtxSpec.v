(** Specification of attribute scoping by the history of operations. *)
From Verif Require Import GoBase Types Attrs CtxHeap.

(** number of contexts created by a history (most recent operation first); cloning a context that does
    not exist creates nothing *)
Fixpoint created (hist : list ctxop) : nat :=
  match hist with
  | [] => 0
  | ONew :: r => S (created r)
  | OClone i :: r => if (i <? created r)%nat then S (created r) else created r
  | _ :: r => created r
  end.

(** the document attribute [k] as seen in context [i] after a history (most recent operation first):
    the latest set or unset of [k] in [i], or the value in the original at the time [i] was cloned *)
Fixpoint doc_value (hist : list ctxop) (i : nat) (k : string) : option val :=
  match hist with
  | [] => None
  | ONew :: r => if (i =? created r)%nat then None else doc_value r i k
  | OClone j :: r => if (i =? created r)%nat then doc_value r j k else doc_value r i k
  | OSet j k' v :: r => if (i =? j)%nat && String.eqb k k' then Some v else doc_value r i k
  | OUnset j k' :: r => if (i =? j)%nat && String.eqb k k' then None else doc_value r i k
  | OSetAll j a :: r =>
      if (i =? j)%nat then match mget a k with Some v => Some v | None => doc_value r i k end
      else doc_value r i k
  end.

(** the configuration comes first *)
Definition attr_value (config : attributes) (hist : list ctxop) (i : nat) (k : string) : option val :=
  match mget config k with Some v => Some v | None => doc_value hist i k end.

(** operations on contexts that exist, with maps that have each key once *)
Fixpoint valid_history (hist : list ctxop) : Prop :=
  match hist with
  | [] => True
  | ONew :: r => valid_history r
  | OClone i :: r | OSet i _ _ :: r | OUnset i _ :: r => (i < created r)%nat /\ valid_history r
  | OSetAll i a :: r => (i < created r)%nat /\ NoDup (mkeys a) /\ valid_history r
  end.
