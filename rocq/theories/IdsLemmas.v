(** Proofs about section ids. *)
From Verif Require Import GoBase GoLemmas Types Attrs Utf8 Ids SecSpec.

Lemma candidate_suffixed b i : candidate b i = suffixed b i.
Proof. reflexivity. Qed.

Lemma suffixed_inj b i j : suffixed b i = suffixed b j -> i = j.
Proof.
  unfold suffixed. destruct (N.eqb_spec i 1), (N.eqb_spec j 1); intros H.
  - congruence.
  - exfalso. apply (f_equal String.length) in H. rewrite !slength_app in H. cbn in H. lia.
  - exfalso. apply (f_equal String.length) in H. rewrite !slength_app in H. cbn in H. lia.
  - apply sapp_inj_l in H. apply sapp_inj_l in H. now apply itoaN_inj.
Qed.

Lemma mhas_In (refs : gomap val) k : mhas refs k = true <-> In k (mkeys refs).
Proof.
  unfold mhas. destruct (mget refs k) eqn:E.
  - split; [intros _|auto]. apply mget_In in E. apply in_map_iff. exists (k, v). auto.
  - split; [discriminate|]. intros H. apply mget_None in E. tauto.
Qed.

Lemma mhas_false (refs : gomap val) k : mhas refs k = false <-> ~ In k (mkeys refs).
Proof.
  rewrite <- mhas_In. destruct (mhas refs k); split; try discriminate; auto.
  intros H; exfalso; auto.
Qed.

Lemma resolve_loop_spec fuel b refs : forall i id,
  (1 <= i)%N ->
  resolve_loop fuel b i refs = Some id ->
  exists k, (i <= k)%N /\ id = suffixed b k /\ ~ In id (mkeys refs) /\
            forall j, (i <= j < k)%N -> In (suffixed b j) (mkeys refs).
Proof.
  induction fuel as [|f IH]; intros i id Hi H; cbn in H; [discriminate|].
  destruct (mhas refs (candidate b i)) eqn:E.
  - apply IH in H; [|lia]. destruct H as (k & Hk & -> & HN & HJ).
    exists k. repeat split; auto; [lia|]. intros j Hj.
    destruct (N.eq_dec j i) as [->|Hne].
    + rewrite candidate_suffixed in E. now apply mhas_In.
    + apply HJ. lia.
  - injection H as <-. exists i. rewrite candidate_suffixed in *.
    repeat split; auto; [lia|now apply mhas_false|intros; lia].
Qed.

Lemma resolve_loop_None fuel b refs : forall i,
  (1 <= i)%N ->
  resolve_loop fuel b i refs = None ->
  forall n, (n < fuel)%nat -> In (suffixed b (i + N.of_nat n)) (mkeys refs).
Proof.
  induction fuel as [|f IH]; intros i Hi H n Hn; [lia|]. cbn in H.
  destruct (mhas refs (candidate b i)) eqn:E; [|discriminate].
  rewrite candidate_suffixed in E.
  destruct n as [|n].
  - rewrite N.add_0_r. now apply mhas_In.
  - replace (i + N.of_nat (S n))%N with ((i + 1) + N.of_nat n)%N by lia.
    apply IH; auto; lia.
Qed.

(** The search always succeeds: there are fewer references than candidates. *)
Lemma resolve_terminates b refs : resolveUnique b refs <> None.
Proof.
  unfold resolveUnique. intros H.
  set (n := S (List.length refs)) in *.
  assert (HI : incl (map (fun m => suffixed b (1 + N.of_nat m)) (seq 0 n)) (mkeys refs)).
  { intros x Hx. apply in_map_iff in Hx. destruct Hx as (m & <- & Hm).
    apply in_seq in Hm. eapply resolve_loop_None; eauto; lia. }
  assert (ND : NoDup (map (fun m => suffixed b (1 + N.of_nat m)) (seq 0 n))).
  { apply FinFun.Injective_map_NoDup; [|apply seq_NoDup].
    intros x y E. apply suffixed_inj in E. lia. }
  pose proof (NoDup_incl_length ND HI) as L.
  unfold mkeys in L. rewrite !map_length, seq_length in L. unfold n in L. lia.
Qed.

Lemma resolveUnique_first_free b refs :
  exists id, resolveUnique b refs = Some id /\ first_free b (mkeys refs) id.
Proof.
  destruct (resolveUnique b refs) as [id|] eqn:E; [|now apply resolve_terminates in E].
  exists id. split; auto. unfold resolveUnique in E.
  apply resolve_loop_spec in E; [|lia]. destruct E as (k & H1 & H2 & H3 & H4).
  exists k. auto.
Qed.

Lemma first_free_unique b taken id1 id2 :
  first_free b taken id1 -> first_free b taken id2 -> id1 = id2.
Proof.
  intros (k1 & A1 & -> & N1 & J1) (k2 & A2 & -> & N2 & J2).
  destruct (N.lt_trichotomy k1 k2) as [L|[->|L]]; auto.
  - exfalso. apply N1, J2. lia.
  - exfalso. apply N2, J1. lia.
Qed.
