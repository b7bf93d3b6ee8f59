(** Proofs about contexts on the heap. *)
From Verif Require Import GoBase GoLemmas Types Attrs CtxHeap CtxSpec CtxLemmas.

Lemma hmap_hupd h a b m : (a < List.length h)%nat -> hmap (hupd h a m) b = if (b =? a)%nat then m else hmap h b.
Proof.
  unfold hmap. revert a b. induction h as [|x h IH]; intros a b H; cbn in H; [lia|].
  destruct a as [|a], b as [|b]; cbn; auto. rewrite IH by lia. reflexivity.
Qed.
Lemma hupd_length h a m : List.length (hupd h a m) = List.length h.
Proof. revert a. induction h as [|x h IH]; intros [|a]; cbn; auto. Qed.
Lemma hmap_app1 h l a : (a < List.length h)%nat -> hmap (h ++ l) a = hmap h a.
Proof. intros. unfold hmap. now rewrite app_nth1. Qed.
Lemma hmap_app2 h l n : hmap (h ++ l) (List.length h + n) = hmap l n.
Proof. unfold hmap. rewrite app_nth2 by lia. f_equal. lia. Qed.
Lemma mget_hcopy m k : NoDup (mkeys m) -> mget (hcopy m) k = mget m k.
Proof.
  intros H. unfold hcopy. rewrite mget_fold_mset, last_assoc_mget by exact H. now destruct (mget m k).
Qed.
Lemma NoDup_fold_mset (l acc : attributes) : NoDup (mkeys acc) -> NoDup (mkeys (fold_mset l acc)).
Proof. revert acc. induction l as [|[k v] l IH]; intros acc H; cbn; auto. apply IH. now apply NoDup_mset. Qed.
Lemma mkeys_mdel (m : attributes) k : NoDup (mkeys m) -> NoDup (mkeys (mdel m k)).
Proof.
  induction m as [|[k' v] m IH]; cbn; intros H; [constructor|]. inversion H; subst.
  destruct (String.eqb k k'); auto. cbn. constructor; auto.
  intros X. apply H2. clear - X. induction m as [|[k2 v2] m IH]; cbn in *; [exact X|].
  destruct (String.eqb k k2); cbn in *; tauto.
Qed.

Definition inv (config : attributes) (hist : list ctxop) (s : cstate) : Prop :=
  let (h, cs) := s in
  List.length cs = created hist /\
  (0 < List.length h)%nat /\ hmap h 0 = config /\
  (forall a, NoDup (mkeys (hmap h a))) /\
  (forall i c, nth_error cs i = Some c ->
     (h_imm c < List.length h)%nat /\ (0 < h_doc c < List.length h)%nat /\
     (forall k, mget (hmap h (h_imm c)) k = mget config k) /\
     (forall k, mget (hmap h (h_doc c)) k = doc_value hist i k)) /\
  (forall i c j d, nth_error cs i = Some c -> nth_error cs j = Some d ->
     h_imm c <> h_doc d /\ (h_doc c = h_doc d -> i = j)).

Lemma nth_error_snoc {A} (l : list A) x i y : nth_error (l ++ [x]) i = Some y ->
  (i < List.length l /\ nth_error l i = Some y)%nat \/ (i = List.length l /\ y = x).
Proof.
  intros H. destruct (Nat.lt_ge_cases i (List.length l)) as [L|L].
  - rewrite nth_error_app1 in H by exact L. auto.
  - rewrite nth_error_app2 in H by exact L. right.
    destruct (i - List.length l)%nat as [|n] eqn:E; cbn in H.
    + injection H as ->. split; [lia|reflexivity].
    + destruct n; discriminate.
Qed.

Lemma inv_update config hist h cs i c f g :
  inv config hist (h, cs) -> nth_error cs i = Some c ->
  NoDup (mkeys (f (hmap h (h_doc c)))) ->
  created (g :: hist) = created hist ->
  (forall j k, doc_value (g :: hist) j k =
     if (j =? i)%nat then mget (f (hmap h (h_doc c))) k else doc_value hist j k) ->
  inv config (g :: hist) (hupd h (h_doc c) (f (hmap h (h_doc c))), cs).
Proof.
  intros (H1 & H2 & H3 & H4 & H5 & H6) HC ND HG HV.
  destruct (H5 _ _ HC) as (I1 & I2 & I3 & I4).
  assert (U : forall b, hmap (hupd h (h_doc c) (f (hmap h (h_doc c)))) b =
              if (b =? h_doc c)%nat then f (hmap h (h_doc c)) else hmap h b)
    by (intros b; apply hmap_hupd; lia).
  unfold inv. rewrite HG, hupd_length. repeat split; auto.
  - rewrite U. destruct (Nat.eqb_spec 0 (h_doc c)); [lia|exact H3].
  - intros a. rewrite U. destruct (a =? h_doc c)%nat; auto.
  - now apply (H5 i0 c0).
  - now apply (H5 i0 c0).
  - now apply (H5 i0 c0).
  - intros k. rewrite U. destruct (Nat.eqb_spec (h_imm c0) (h_doc c)) as [E|_]; [|now apply (H5 i0 c0)].
    exfalso. eapply (proj1 (H6 _ _ _ _ H HC)); exact E.
  - intros k. rewrite U, HV. destruct (Nat.eqb_spec (h_doc c0) (h_doc c)) as [E|N].
    + destruct (H6 _ _ _ _ H HC) as [_ X]. rewrite (X E), Nat.eqb_refl. reflexivity.
    + destruct (Nat.eqb_spec i0 i) as [->|_]; [congruence|]. now apply (H5 i0 c0).
  - now apply (H6 i0 c0 j d).
  - now apply (H6 i0 c0 j d).
Qed.

Lemma inv_step config hist s o : valid_history (o :: hist) -> inv config hist s -> inv config (o :: hist) (cstep s o).
Proof.
  destruct s as [h cs]. intros V I. pose proof I as (H1 & H2 & H3 & H4 & H5 & H6).
  destruct o as [|i|i k v|i k|i a].
  - (* new *)
    cbn [cstep hnew]. unfold inv. cbn [created]. rewrite !app_length. cbn [List.length].
    assert (FR : forall a, (a < List.length h)%nat -> hmap (h ++ [[]]) a = hmap h a) by (intros; now apply hmap_app1).
    assert (NEW : hmap (h ++ [[]]) (List.length h) = []).
    { pose proof (hmap_app2 h [[]] 0) as E. rewrite Nat.add_0_r in E. exact E. }
    repeat split; try lia.
    + now rewrite FR.
    + intros a. destruct (Nat.lt_ge_cases a (List.length h)) as [L|L]; [rewrite FR; auto|].
      unfold hmap. rewrite app_nth2 by lia. destruct (a - List.length h)%nat as [|[|n]]; constructor.
    + apply nth_error_snoc in H. destruct H as [[L H]|[-> ->]]; [destruct (H5 _ _ H); lia|cbn; lia].
    + apply nth_error_snoc in H. destruct H as [[L H]|[-> ->]]; [destruct (H5 _ _ H); lia|cbn; lia].
    + apply nth_error_snoc in H. destruct H as [[L H]|[-> ->]]; [destruct (H5 _ _ H); lia|cbn; lia].
    + intros k. apply nth_error_snoc in H. destruct H as [[L H]|[-> ->]].
      * destruct (H5 _ _ H) as (I1 & I2 & I3 & I4). now rewrite FR.
      * cbn [h_imm]. rewrite FR by lia. now rewrite H3.
    + intros k. cbn [doc_value]. apply nth_error_snoc in H. destruct H as [[L H]|[-> ->]].
      * destruct (H5 _ _ H) as (I1 & I2 & I3 & I4). rewrite FR by lia.
        destruct (Nat.eqb_spec i (created hist)); [lia|auto].
      * cbn [h_doc]. rewrite NEW, H1, Nat.eqb_refl. reflexivity.
    + apply nth_error_snoc in H. apply nth_error_snoc in H0.
      destruct H as [[L H]|[-> ->]], H0 as [[L0 H0]|[-> ->]]; cbn [h_imm h_doc].
      * now apply (H6 i c j d).
      * destruct (H5 _ _ H). lia.
      * destruct (H5 _ _ H0). lia.
      * lia.
    + intros E. apply nth_error_snoc in H. apply nth_error_snoc in H0.
      destruct H as [[L H]|[-> ->]], H0 as [[L0 H0]|[-> ->]]; cbn [h_imm h_doc] in *.
      * now apply (H6 i c j d).
      * destruct (H5 _ _ H). lia.
      * destruct (H5 _ _ H0). lia.
      * reflexivity.
  - (* clone *)
    destruct V as [Vi V]. cbn [cstep].
    destruct (nth_error cs i) as [c|] eqn:HC; [|apply nth_error_None in HC; lia].
    cbn [hclone]. unfold inv. cbn [created]. destruct (Nat.ltb_spec i (created hist)) as [_|]; [|lia].
    rewrite !app_length. cbn [List.length].
    set (l2 := [hcopy (hmap h (h_imm c)); hcopy (hmap h (h_doc c))]).
    assert (FR : forall a, (a < List.length h)%nat -> hmap (h ++ l2) a = hmap h a) by (intros; now apply hmap_app1).
    assert (N1 : hmap (h ++ l2) (List.length h) = hcopy (hmap h (h_imm c))).
    { pose proof (hmap_app2 h l2 0) as E. rewrite Nat.add_0_r in E. exact E. }
    assert (N2 : hmap (h ++ l2) (S (List.length h)) = hcopy (hmap h (h_doc c))).
    { pose proof (hmap_app2 h l2 1) as E. rewrite Nat.add_1_r in E. exact E. }
    destruct (H5 _ _ HC) as (C1 & C2 & C3 & C4).
    repeat split; try lia.
    + now rewrite FR.
    + intros a. destruct (Nat.lt_ge_cases a (List.length h)) as [L|L]; [rewrite FR; auto|].
      unfold hmap. rewrite app_nth2 by lia.
      destruct (a - List.length h)%nat as [|[|[|n]]]; cbn; try (apply NoDup_fold_mset); constructor.
    + apply nth_error_snoc in H. destruct H as [[L H]|[-> ->]]; [destruct (H5 _ _ H); lia|cbn; lia].
    + apply nth_error_snoc in H. destruct H as [[L H]|[-> ->]]; [destruct (H5 _ _ H); lia|cbn; lia].
    + apply nth_error_snoc in H. destruct H as [[L H]|[-> ->]]; [destruct (H5 _ _ H); lia|cbn; lia].
    + intros k. apply nth_error_snoc in H. destruct H as [[L H]|[-> ->]].
      * destruct (H5 _ _ H) as (I1 & I2 & I3 & I4). now rewrite FR.
      * cbn [h_imm]. rewrite N1, mget_hcopy by auto. apply C3.
    + intros k. cbn [doc_value]. apply nth_error_snoc in H. destruct H as [[L H]|[-> ->]].
      * destruct (H5 _ _ H) as (I1 & I2 & I3 & I4). rewrite FR by lia.
        destruct (Nat.eqb_spec i0 (created hist)); [lia|auto].
      * cbn [h_doc]. rewrite N2, mget_hcopy by auto. rewrite H1, Nat.eqb_refl. apply C4.
    + apply nth_error_snoc in H. apply nth_error_snoc in H0.
      destruct H as [[L H]|[-> ->]], H0 as [[L0 H0]|[-> ->]]; cbn [h_imm h_doc].
      * now apply (H6 i0 c0 j d).
      * destruct (H5 _ _ H). lia.
      * destruct (H5 _ _ H0). lia.
      * lia.
    + intros E. apply nth_error_snoc in H. apply nth_error_snoc in H0.
      destruct H as [[L H]|[-> ->]], H0 as [[L0 H0]|[-> ->]]; cbn [h_imm h_doc] in *.
      * now apply (H6 i0 c0 j d).
      * destruct (H5 _ _ H). lia.
      * destruct (H5 _ _ H0). lia.
      * reflexivity.
  - destruct V as [Vi V]. cbn [cstep].
    destruct (nth_error cs i) as [c|] eqn:HC; [|apply nth_error_None in HC; lia].
    unfold hset. apply (inv_update config hist h cs i c (fun m => mset m k v) (OSet i k v) I HC).
    + now apply NoDup_mset.
    + reflexivity.
    + intros j k'. cbn [doc_value]. rewrite mget_mset. destruct (H5 _ _ HC) as (_ & _ & _ & C4).
      destruct (Nat.eqb_spec j i) as [->|]; [|reflexivity]. cbn [andb]. rewrite String.eqb_sym, C4. reflexivity.
  - destruct V as [Vi V]. cbn [cstep].
    destruct (nth_error cs i) as [c|] eqn:HC; [|apply nth_error_None in HC; lia].
    unfold hunset. apply (inv_update config hist h cs i c (fun m => mdel m k) (OUnset i k) I HC).
    + now apply mkeys_mdel.
    + reflexivity.
    + intros j k'. cbn [doc_value]. rewrite mget_mdel. destruct (H5 _ _ HC) as (_ & _ & _ & C4).
      destruct (Nat.eqb_spec j i) as [->|]; [|reflexivity]. cbn [andb]. rewrite String.eqb_sym, C4. reflexivity.
  - destruct V as [Vi [VN V]]. cbn [cstep].
    destruct (nth_error cs i) as [c|] eqn:HC; [|apply nth_error_None in HC; lia].
    unfold hsetAll. apply (inv_update config hist h cs i c (fun m => fold_mset a m) (OSetAll i a) I HC).
    + now apply NoDup_fold_mset.
    + reflexivity.
    + intros j k'. cbn [doc_value]. rewrite mget_fold_mset, last_assoc_mget by exact VN.
      destruct (H5 _ _ HC) as (_ & _ & _ & C4).
      destruct (Nat.eqb_spec j i) as [->|]; [|reflexivity]. rewrite C4. reflexivity.
Qed.

Lemma valid_suffix a b : valid_history (a ++ b) -> valid_history b.
Proof.
  induction a as [|o a IH]; [auto|]. cbn [app valid_history]. destruct o; intros H; apply IH; tauto.
Qed.
Lemma inv_run config ops : NoDup (mkeys config) -> valid_history (List.rev ops) ->
  inv config (List.rev ops) (crun config ops).
Proof.
  intros ND. unfold crun. induction ops as [|o ops IH] using rev_ind; intros V.
  - cbn. repeat split; auto; try (destruct i; discriminate).
    intros [|[|a]]; cbn; auto; constructor.
  - rewrite rev_unit in *. rewrite fold_left_app. cbn [fold_left]. apply inv_step; [exact V|].
    apply IH. apply (valid_suffix [o]). exact V.
Qed.

Lemma crun_reads config ops i k : NoDup (mkeys config) -> valid_history (List.rev ops) ->
  (i < created (List.rev ops))%nat ->
  exists c, nth_error (snd (crun config ops)) i = Some c /\
    hget (fst (crun config ops)) c k = attr_value config (List.rev ops) i k /\
    mget (hall (fst (crun config ops)) c) k = attr_value config (List.rev ops) i k.
Proof.
  intros ND V L. pose proof (inv_run config ops ND V) as I.
  destruct (crun config ops) as [h cs]. destruct I as (H1 & H2 & H3 & H4 & H5 & H6). cbn [fst snd].
  destruct (nth_error cs i) as [c|] eqn:HC; [|apply nth_error_None in HC; lia].
  exists c. split; [reflexivity|]. destruct (H5 _ _ HC) as (_ & _ & C3 & C4).
  unfold hget, attr_value, hall. rewrite C3, C4. split; [reflexivity|].
  rewrite !mget_fold_mset, !last_assoc_mget by auto. rewrite C3, C4. cbn.
  destruct (mget config k); [reflexivity|]. now destruct (doc_value _ _ _).
Qed.
Lemma crun_config config ops : NoDup (mkeys config) -> valid_history (List.rev ops) ->
  hmap (fst (crun config ops)) 0 = config.
Proof.
  intros ND V. pose proof (inv_run config ops ND V) as I. destruct (crun config ops) as [h cs].
  now destruct I as (_ & _ & H3 & _).
Qed.
