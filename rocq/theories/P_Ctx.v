(** Properties C15, C16: attributes of parsing contexts; meaning of ifdef / ifndef (C08). *)
From Verif Require Import GoBase GoLemmas Types Attrs Context Cond CtxHeap CtxSpec CtxLemmas CtxHeapLemmas.

(** ** C15: what a context reads after any history of operations on any contexts: the value of the
    configuration, or else the latest declaration or reset (specification: [attr_value]).  Both ways to
    read attributes agree. *)
Theorem C15_configuration_first :
  forall config ops i k, NoDup (mkeys config) -> valid_history (List.rev ops) ->
  (i < created (List.rev ops))%nat ->
  exists c, nth_error (snd (crun config ops)) i = Some c /\
    hget (fst (crun config ops)) c k = attr_value config (List.rev ops) i k /\
    mget (hall (fst (crun config ops)) c) k = attr_value config (List.rev ops) i k.
Proof. intros. now apply crun_reads. Qed.
Print Assumptions C15_configuration_first.

Theorem C15_configuration_unchanged :
  forall config ops, NoDup (mkeys config) -> valid_history (List.rev ops) ->
  hmap (fst (crun config ops)) 0 = config.
Proof. apply crun_config. Qed.
Print Assumptions C15_configuration_unchanged.

(** ** C16: an operation on context [j] (or the creation of a context) does not change what another
    context [i] reads *)
Definition works_on (o : ctxop) (i : nat) : Prop :=
  match o with OSet j _ _ | OUnset j _ | OSetAll j _ => j = i | ONew | OClone _ => False end.
Theorem C16_contexts_isolated :
  forall config ops o i k, NoDup (mkeys config) -> valid_history (List.rev (ops ++ [o])) ->
  (i < created (List.rev ops))%nat -> ~ works_on o i ->
  exists c c', nth_error (snd (crun config ops)) i = Some c /\
    nth_error (snd (crun config (ops ++ [o]))) i = Some c' /\
    hget (fst (crun config (ops ++ [o]))) c' k = hget (fst (crun config ops)) c k.
Proof.
  intros config ops o i k ND V L NW.
  assert (V' : valid_history (List.rev ops)) by (rewrite rev_unit in V; now apply (valid_suffix [o])).
  assert (L' : (i < created (List.rev (ops ++ [o])))%nat).
  { rewrite rev_unit. cbn [created]. destruct o; try lia. destruct (_ <? _)%nat; lia. }
  destruct (crun_reads config ops i k ND V' L) as (c & H1 & H2 & _).
  destruct (crun_reads config (ops ++ [o]) i k ND V L') as (c' & H1' & H2' & _).
  exists c, c'. split; [exact H1|]. split; [exact H1'|]. rewrite H2, H2'.
  unfold attr_value. destruct (mget config k); [reflexivity|]. rewrite rev_unit. cbn [doc_value].
  destruct o as [|j|j k' v|j k'|j a]; cbn in NW.
  - destruct (Nat.eqb_spec i (created (List.rev ops))); [lia|reflexivity].
  - destruct (Nat.eqb_spec i (created (List.rev ops))); [lia|reflexivity].
  - destruct (Nat.eqb_spec i j); [congruence|reflexivity].
  - destruct (Nat.eqb_spec i j); [congruence|reflexivity].
  - destruct (Nat.eqb_spec i j); [congruence|reflexivity].
Qed.
Print Assumptions C16_contexts_isolated.
(** a clone starts with what its original reads *)
Theorem C16_clone_reads_the_same :
  forall config ops i k, NoDup (mkeys config) -> valid_history (List.rev (ops ++ [OClone i])) ->
  exists c c', nth_error (snd (crun config ops)) i = Some c /\
    nth_error (snd (crun config (ops ++ [OClone i]))) (created (List.rev ops)) = Some c' /\
    hget (fst (crun config (ops ++ [OClone i]))) c' k = hget (fst (crun config ops)) c k.
Proof.
  intros config ops i k ND V. pose proof V as V0. rewrite rev_unit in V0. destruct V0 as [L V'].
  assert (L' : (created (List.rev ops) < created (List.rev (ops ++ [OClone i])))%nat).
  { rewrite rev_unit. cbn [created]. destruct (Nat.ltb_spec i (created (List.rev ops))); lia. }
  destruct (crun_reads config ops i k ND V' L) as (c & H1 & H2 & _).
  destruct (crun_reads config (ops ++ [OClone i]) _ k ND V L') as (c' & H1' & H2' & _).
  exists c, c'. split; [exact H1|]. split; [exact H1'|]. rewrite H2, H2'.
  unfold attr_value. destruct (mget config k); [reflexivity|]. rewrite rev_unit. cbn [doc_value].
  now rewrite Nat.eqb_refl.
Qed.
Print Assumptions C16_clone_reads_the_same.

Definition sample : list ctxop :=
  [ONew; OSet 0 "a" (VStr "1"); OClone 0; OSet 1 "a" (VStr "2"); OUnset 0 "b"; OSet 0 "b" (VStr "x");
   OSetAll 1 [("c", VStr "y"); ("cfg", VStr "document")]; OUnset 1 "cfg"].
Theorem C15_example_hyp :
  NoDup (mkeys [("cfg", VStr "api")]) /\ valid_history (List.rev sample) /\ created (List.rev sample) = 2%nat /\
  map (fun i => map (attr_value [("cfg", VStr "api")] (List.rev sample) i) ["a"; "b"; "c"; "cfg"]) [0; 1]%nat =
  [[Some (VStr "1"); Some (VStr "x"); None; Some (VStr "api")];
   [Some (VStr "2"); None; Some (VStr "y"); Some (VStr "api")]].
Proof.
  split; [repeat constructor; cbn; tauto|].
  split; [cbn; repeat split; try lia; repeat constructor; cbn; intuition discriminate|].
  split; reflexivity.
Qed.

(** ** C08: what the conditions mean *)
Theorem C08_condition_values :
  forall (c : ctxattrs) n s,
  NoDup (mkeys (immutableAttrs c)) -> NoDup (mkeys (docAttrs c)) ->
  (evalCond (callAttributes c) (Ifdef n s) = true <-> cget c n <> None) /\
  (evalCond (callAttributes c) (Ifndef n s) = true <-> cget c n = None).
Proof.
  intros c n s N1 N2. cbn [evalCond]. unfold mhas.
  rewrite mget_callAttributes, !last_assoc_mget by assumption. unfold cget.
  destruct (mget (immutableAttrs c) n); [cbn; split; split; congruence|].
  destruct (mget (docAttrs c) n); cbn; split; split; congruence.
Qed.
Print Assumptions C08_condition_values.
