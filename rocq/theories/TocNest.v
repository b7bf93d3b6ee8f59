(** Proofs about the nesting of the table of contents (C03). *)
From Verif Require Import GoBase Types Toc SecSpec TocLemmas.
Local Open Scope list_scope.

(** the insertion, on the list of the children of a node *)
Definition ins (ts : tocsec) (f : list tocsec) : list tocsec :=
  match f with
  | [] => [ts]
  | first :: _ => if (toc_level first =? toc_level ts)%Z then f ++ [ts] else toc_on_last ts f
  end.
Lemma toc_insert_ins ts i l sub : toc_insert ts (TocSec i l sub) = TocSec i l (ins ts sub).
Proof. rewrite toc_insert_eq. destruct sub as [|a b]; [reflexivity|]. cbn [ins]. destruct (_ =? _)%Z; reflexivity. Qed.
Definition leaf (e : string * Z) : tocsec := TocSec (fst e) (snd e) [].
Definition grow (es : list (string * Z)) : list tocsec := fold_left (fun f e => ins (leaf e) f) es [].
Lemma tocAdd_ins t id l : toc_sections (tocAdd t id l) = if (toc_max t <? l)%Z then toc_sections t else ins (leaf (id, l)) (toc_sections t).
Proof.
  unfold tocAdd. destruct (toc_max t <? l)%Z; [reflexivity|]. unfold ins. destruct (toc_sections t) as [|f r]; [reflexivity|].
  cbn [leaf fst snd toc_level]. rewrite (Z.eqb_sym l). destruct (_ =? _)%Z; reflexivity.
Qed.

Lemma ins_cases ts f :
  f = [] /\ ins ts f = [ts] \/
  (exists first r, f = first :: r /\ toc_level first = toc_level ts /\ ins ts f = f ++ [ts]) \/
  (exists first r f' x, f = first :: r /\ toc_level first <> toc_level ts /\ f = f' ++ [x] /\ ins ts f = f' ++ [toc_insert ts x]).
Proof.
  destruct f as [|a r]; [now left|right]. cbn [ins]. destruct (Z.eqb_spec (toc_level a) (toc_level ts)) as [E|E].
  - left. exists a, r. auto.
  - right. assert (NE : a :: r <> []) by discriminate. destruct (exists_last NE) as (f' & x & Ef).
    exists a, r, f', x. repeat split; auto. rewrite Ef. apply toc_on_last_app.
Qed.
Lemma ins_entries e f : forest_entries (ins (leaf e) f) = forest_entries f ++ [e].
Proof.
  destruct (ins_cases (leaf e) f) as [[-> ->]|[(a & r & -> & _ & ->)|(a & r & f' & x & Ef & _ & -> & ->)]].
  - destruct e; reflexivity.
  - rewrite forest_entries_app. destruct e; reflexivity.
  - rewrite !forest_entries_app, <- app_assoc. f_equal. unfold forest_entries. cbn [flat_map]. rewrite !app_nil_r, toc_insert_entries. destruct e; reflexivity.
Qed.
Lemma grow_snoc es e : grow (es ++ [e]) = ins (leaf e) (grow es).
Proof. unfold grow. now rewrite fold_left_app. Qed.
Lemma grow_entries es : forest_entries (grow es) = es.
Proof. induction es as [|e es IH] using rev_ind; [reflexivity|]. rewrite grow_snoc, ins_entries. now rewrite IH. Qed.
Lemma tocAdd_grow t id l : toc_sections t = grow (forest_entries (toc_sections t)) ->
  toc_sections (tocAdd t id l) = grow (forest_entries (toc_sections (tocAdd t id l))).
Proof.
  intros H. rewrite tocAdd_ins. destruct (toc_max t <? l)%Z; [exact H|]. rewrite ins_entries, grow_snoc. now rewrite <- H.
Qed.

(** all the siblings have the same level, their children a greater one *)
Inductive nested : list tocsec -> Prop :=
| nested_nil : nested []
| nested_some l f : Forall (fun t => toc_level t = l /\ nested (toc_sub t) /\ Forall (fun c => (l < toc_level c)%Z) (toc_sub t)) f -> nested f.
Lemma nested_deeper : forall t, nested (toc_sub t) -> Forall (fun c => (toc_level t < toc_level c)%Z) (toc_sub t) -> toc_deeper t.
Proof.
  apply (tocsec_ind' (fun t => nested (toc_sub t) -> Forall (fun c => (toc_level t < toc_level c)%Z) (toc_sub t) -> toc_deeper t)).
  intros i l sub IH N D. cbn [toc_sub toc_level] in *. constructor. inversion N as [|l' f F]; subst; [constructor|].
  clear N. induction sub as [|c sub IHs]; [constructor|]. inversion IH as [|? ? I1 I2]; inversion D as [|? ? D1 D2]; inversion F as [|? ? (E & N' & D') F2]; subst. constructor; [|now apply IHs].
  split; [assumption|]. now apply I1.
Qed.
Lemma nested_all_deeper f : nested f -> Forall toc_deeper f.
Proof.
  intros N. inversion N as [|l g F]; subst; [constructor|]. eapply Forall_impl; [|exact F]. intros t (E & N' & D). apply nested_deeper; [exact N'|]. now rewrite E.
Qed.

(** the levels of the last nodes, outermost first *)
Fixpoint spine (t : tocsec) : list Z :=
  match t with TocSec _ l sub => l :: (fix go (s : list tocsec) : list Z := match s with [] => [] | [x] => spine x | _ :: r => go r end) sub end.
Fixpoint fspine (s : list tocsec) : list Z := match s with [] => [] | [x] => spine x | _ :: r => fspine r end.
Lemma spine_eq i l sub : spine (TocSec i l sub) = l :: fspine sub.
Proof. cbn [spine]. f_equal. Qed.
Lemma fspine_snoc f x : fspine (f ++ [x]) = spine x.
Proof. induction f as [|a f IH]; [reflexivity|]. cbn. destruct f; [reflexivity|exact IH]. Qed.

Definition fits (x : Z) (s : list Z) : Prop := In x s \/ Forall (fun y => (y < x)%Z) s.
Lemma nested_inv l f t : nested f -> In t f -> (forall u, In u f -> toc_level u = l) ->
  nested (toc_sub t) /\ Forall (fun c => (l < toc_level c)%Z) (toc_sub t).
Proof.
  intros N I L. inversion N as [|l' g F]; subst; [destruct I|]. rewrite Forall_forall in F. destruct (F _ I) as (E & A & B).
  rewrite (L _ I) in E. subst l'. auto.
Qed.
Lemma nested_level f : nested f -> exists l, Forall (fun t => toc_level t = l) f.
Proof. intros N. inversion N as [|l g F]; subst; [exists 0%Z; constructor|]. exists l. eapply Forall_impl; [|exact F]. now intros t (E & _). Qed.

(** a node may be inserted in its place or not at all *)
Lemma ins_nested : forall t e, nested (toc_sub t) -> Forall (fun c => (toc_level t < toc_level c)%Z) (toc_sub t) ->
  (fits (snd e) (fspine (toc_sub t)) /\ (toc_level t < snd e)%Z ->
     nested (ins (leaf e) (toc_sub t)) /\ Forall (fun c => (toc_level t < toc_level c)%Z) (ins (leaf e) (toc_sub t))) /\
  (~ (fits (snd e) (fspine (toc_sub t)) /\ (toc_level t < snd e)%Z) -> ~ (Forall (fun c => (toc_level t < toc_level c)%Z /\ toc_deeper c) (ins (leaf e) (toc_sub t)))).
Proof.
  intros t e. revert t. apply (tocsec_ind' (fun t => nested (toc_sub t) -> Forall (fun c => (toc_level t < toc_level c)%Z) (toc_sub t) ->
  (fits (snd e) (fspine (toc_sub t)) /\ (toc_level t < snd e)%Z ->
     nested (ins (leaf e) (toc_sub t)) /\ Forall (fun c => (toc_level t < toc_level c)%Z) (ins (leaf e) (toc_sub t))) /\
  (~ (fits (snd e) (fspine (toc_sub t)) /\ (toc_level t < snd e)%Z) -> ~ (Forall (fun c => (toc_level t < toc_level c)%Z /\ toc_deeper c) (ins (leaf e) (toc_sub t)))))).
  intros i l sub IH N D. cbn [toc_sub toc_level] in *. set (x := snd e) in *.
  destruct (ins_cases (leaf e) sub) as [[-> ->]|[(a & r & Ef & El & ->)|(a & r & f' & y & Ef & El & Ey & ->)]].
  - split.
    + intros [_ H]. split; [|constructor; [exact H|constructor]]. apply (nested_some x). constructor; [|constructor].
      cbn [leaf toc_level toc_sub]. repeat split; constructor.
    + intros H F. inversion F as [|? ? [H1 _] _]; subst. apply H. split; [right; constructor|exact H1].
  - cbn [leaf toc_level] in El. fold x in El. split.
    + intros [_ H]. split; [|apply Forall_app; split; [exact D|constructor; [exact H|constructor]]].
      inversion N as [E0|l' g F]; [rewrite Ef in E0; discriminate|]. subst g. apply (nested_some l'). apply Forall_app; split; [exact F|].
      assert (l' = x) as -> by (rewrite Ef in F; inversion F as [|? ? (E & _) _]; congruence).
      constructor; [|constructor]. cbn [leaf toc_level toc_sub]. repeat split; constructor.
    + intros H F. apply Forall_app in F. destruct F as [_ F]. inversion F as [|? ? [H1 _] _]. apply H. cbn [leaf toc_level] in H1. fold x in H1. split; [|exact H1].
      left. destruct (nested_level _ N) as (l' & L). assert (l' = x) as -> by (rewrite Ef in L; inversion L; congruence).
      assert (NE : a :: r <> []) by discriminate. destruct (exists_last NE) as (f' & y & Ey). rewrite Ef, Ey, fspine_snoc. rewrite Ef, Ey in L.
      apply Forall_app in L. destruct L as [_ L]. inversion L as [|? ? E _]. destruct y as [j m s]. cbn [toc_level] in E. subst m. rewrite spine_eq. now left.
  - cbn [leaf toc_level] in El. fold x in El. destruct (nested_level _ N) as (l' & L).
    assert (La : toc_level a = l') by (rewrite Ef in L; now inversion L).
    assert (Ly : toc_level y = l') by (rewrite Ey in L; apply Forall_app in L; destruct L as [_ L]; now inversion L).
    assert (Iy : In y sub) by (rewrite Ey; apply in_or_app; right; now left).
    rewrite Forall_forall in L. destruct (nested_inv l' sub y N Iy L) as [Ny Dy].
    rewrite Forall_forall in IH. specialize (IH y Iy Ny). rewrite Ly in IH. destruct (IH Dy) as [IH1 IH2]. clear IH.
    assert (SP : fspine sub = l' :: fspine (toc_sub y)) by (rewrite Ey, fspine_snoc; destruct y as [j m s]; cbn in Ly; subst m; apply spine_eq).
    assert (EQ : fits x (fspine sub) /\ (l < x)%Z <-> fits x (fspine (toc_sub y)) /\ (l' < x)%Z).
    { rewrite SP. rewrite Forall_forall in D. pose proof (D _ Iy) as Dy'. rewrite Ly in Dy'.
      assert (Hs : forall z, In z (fspine (toc_sub y)) -> (l' < z)%Z).
      { clear -Ny Dy. destruct y as [j m s]. cbn [toc_sub] in *. revert l' Ny Dy.
        assert (G : forall s l', nested s -> Forall (fun c => (l' < toc_level c)%Z) s -> forall z, In z (fspine s) -> (l' < z)%Z).
        { intros s0. assert (X : forall t l', (l' < toc_level t)%Z -> nested (toc_sub t) -> Forall (fun c => (toc_level t < toc_level c)%Z) (toc_sub t) -> forall z, In z (spine t) -> (l' < z)%Z).
          { apply (tocsec_ind' (fun t => forall l', (l' < toc_level t)%Z -> nested (toc_sub t) -> Forall (fun c => (toc_level t < toc_level c)%Z) (toc_sub t) -> forall z, In z (spine t) -> (l' < z)%Z)).
            intros i l sub IH l' Hl Ns Ds z Hz. cbn [toc_level toc_sub] in *. rewrite spine_eq in Hz. destruct Hz as [<-|Hz]; [exact Hl|].
            destruct sub as [|c0 sub0]; [destruct Hz|]. assert (NE : c0 :: sub0 <> []) by discriminate. destruct (exists_last NE) as (f' & y & Ey). rewrite Ey in *. rewrite fspine_snoc in Hz.
            assert (Iy : In y (f' ++ [y])) by (apply in_or_app; right; now left). destruct (nested_level _ Ns) as (k & L). rewrite Forall_forall in L, Ds, IH.
            destruct (nested_inv k _ y Ns Iy L) as [A B]. specialize (Ds _ Iy). rewrite <- (L _ Iy) in B. assert (l < z)%Z by (eapply (IH y Iy); eauto). lia. }
          intros l' Ns Ds z Hz. destruct s0 as [|c0 sub0]; [destruct Hz|]. assert (NE : c0 :: sub0 <> []) by discriminate. destruct (exists_last NE) as (f' & y & Ey). rewrite Ey in *. rewrite fspine_snoc in Hz.
            assert (Iy : In y (f' ++ [y])) by (apply in_or_app; right; now left). destruct (nested_level _ Ns) as (k & L). rewrite Forall_forall in L, Ds.
            destruct (nested_inv k _ y Ns Iy L) as [A B]. rewrite <- (L _ Iy) in B. eapply (X y); eauto. }
        intros l' Ny Dy z Hz. now apply (G s l' Ny Dy). }
      unfold fits. split.
      - intros [[[H|H]|H] Hl]; [congruence| |].
        + split; [now left|]. now apply Hs.
        + inversion H; subst. split; [now right|assumption].
      - intros [[H|H] Hl]; (split; [|lia]); [left; now right|right; now constructor]. }
    split.
    + intros H. apply EQ in H. specialize (IH1 H). destruct y as [j m s]. cbn [toc_level toc_sub] in *. subst m. rewrite toc_insert_ins. split.
      * inversion N as [E0|l2 g F]; [rewrite Ef in E0; discriminate|]. subst g. apply (nested_some l'). rewrite Ey in F.
        assert (l2 = l') as -> by (apply Forall_app in F; destruct F as [_ F]; inversion F as [|? ? (E & _) _]; cbn [toc_level] in E; congruence).
        apply Forall_app in F. destruct F as [F1 F2]. apply Forall_app. split; [exact F1|]. constructor; [|constructor]. cbn [toc_level toc_sub]. tauto.
      * rewrite Ey in D. apply Forall_app in D. destruct D as [D1 D2]. apply Forall_app. split; [exact D1|]. inversion D2; subst. constructor; [assumption|constructor].
    + intros H F. apply Forall_app in F. destruct F as [_ F]. inversion F as [|? ? [H1 H2] _]; subst. destruct y as [j m s]. cbn [toc_level toc_sub] in *. subst m. rewrite toc_insert_ins in *.
      apply IH2; [tauto|]. inversion H2; subst. assumption.
Qed.

Lemma forest_ins_nested f e : nested f ->
  (fits (snd e) (fspine f) -> nested (ins (leaf e) f)) /\ (~ fits (snd e) (fspine f) -> ~ Forall toc_deeper (ins (leaf e) f)).
Proof.
  intros N. destruct (nested_level _ N) as (l & L). set (b := (Z.min l (snd e) - 1)%Z).
  destruct (ins_nested (TocSec "" b f) e) as [A B]; cbn [toc_sub toc_level]; [exact N| |].
  - eapply Forall_impl; [|exact L]. intros t ->. lia.
  - cbn [toc_sub toc_level] in A, B. split.
    + intros H. apply A. split; [exact H|lia].
    + intros H F. apply B; [tauto|]. rewrite Forall_forall in *. intros c Hc. split; [|now apply F].
      assert (toc_level c = l \/ toc_level c = snd e); [|lia].
      clear -Hc L. destruct (ins_cases (leaf e) f) as [[-> Ei]|[(a & r & -> & El & Ei)|(a & r & f' & y & Ef & El & -> & Ei)]]; rewrite Ei in Hc.
      * destruct Hc as [<-|[]]. now right.
      * apply in_app_or in Hc. destruct Hc as [Hc|[<-|[]]]; [left; now apply L|now right].
      * apply in_app_or in Hc. destruct Hc as [Hc|[<-|[]]]; left; [apply L, in_or_app; now left|].
        rewrite <- (L y); [destruct y as [j m s]; rewrite toc_insert_ins; reflexivity|apply in_or_app; right; now left].
Qed.

(** a wrong place is never repaired *)
Lemma ins_keeps_wrong : forall t ts, Forall (fun c => (toc_level t < toc_level c)%Z /\ toc_deeper c) (ins ts (toc_sub t)) ->
  Forall (fun c => (toc_level t < toc_level c)%Z /\ toc_deeper c) (toc_sub t).
Proof.
  intros t ts. revert t. apply (tocsec_ind' (fun t => Forall (fun c => (toc_level t < toc_level c)%Z /\ toc_deeper c) (ins ts (toc_sub t)) ->
    Forall (fun c => (toc_level t < toc_level c)%Z /\ toc_deeper c) (toc_sub t))).
  intros i l sub IH F. cbn [toc_sub toc_level] in *.
  destruct (ins_cases ts sub) as [[-> Ei]|[(a & r & Ef & El & Ei)|(a & r & f' & y & Ef & El & Ey & Ei)]]; rewrite Ei in F.
  - constructor.
  - now apply Forall_app in F.
  - clear Ef. subst sub. apply Forall_app in F. destruct F as [F1 F2]. apply Forall_app. split; [exact F1|]. inversion F2 as [|? ? [H1 H2] _]; subst.
    constructor; [|constructor]. apply Forall_app in IH. destruct IH as [_ IH]. inversion IH as [|? ? IHy _]; subst. clear IH.
    destruct y as [j m s]. rewrite toc_insert_ins in *. cbn [toc_level toc_sub] in *. split; [exact H1|]. constructor. apply IHy. now inversion H2.
Qed.
Lemma ins_wrong f ts : Forall toc_deeper (ins ts f) -> Forall toc_deeper f.
Proof.
  intros F. destruct (ins_cases ts f) as [[-> Ei]|[(a & r & Ef & El & Ei)|(a & r & f' & y & Ef & El & Ey & Ei)]]; rewrite Ei in F.
  - constructor.
  - now apply Forall_app in F.
  - clear Ef. subst f. apply Forall_app in F. destruct F as [F1 F2]. apply Forall_app. split; [exact F1|]. inversion F2 as [|? ? H _]; subst.
    constructor; [|constructor]. destruct y as [j m s]. rewrite toc_insert_ins in H. constructor. inversion H; subst. now apply (ins_keeps_wrong (TocSec j m s) ts).
Qed.

(** ** levels, in order *)
Definition levels (f : list tocsec) : list Z := map snd (forest_entries f).
Lemma levels_app a b : levels (a ++ b) = levels a ++ levels b.
Proof. unfold levels. now rewrite forest_entries_app, map_app. Qed.
Lemma levels_one i l s : levels [TocSec i l s] = l :: levels s.
Proof. unfold levels, forest_entries. cbn [flat_map toc_entries map snd]. now rewrite app_nil_r. Qed.

Lemma above : forall t, nested (toc_sub t) -> Forall (fun c => (toc_level t < toc_level c)%Z) (toc_sub t) ->
  Forall (fun z => (toc_level t < z)%Z) (levels (toc_sub t)) /\ Forall (fun z => (toc_level t < z)%Z) (fspine (toc_sub t)).
Proof.
  apply (tocsec_ind' (fun t => nested (toc_sub t) -> Forall (fun c => (toc_level t < toc_level c)%Z) (toc_sub t) ->
    Forall (fun z => (toc_level t < z)%Z) (levels (toc_sub t)) /\ Forall (fun z => (toc_level t < z)%Z) (fspine (toc_sub t)))).
  intros i l sub IH N D. cbn [toc_sub toc_level] in *. inversion N as [|k f F]; subst; [split; constructor|]. clear N.
  assert (G : forall y, In y sub -> Forall (fun z => (l < z)%Z) (levels [y]) /\ Forall (fun z => (l < z)%Z) (spine y)).
  { intros y Iy. rewrite Forall_forall in IH, D, F. destruct (F y Iy) as (E & A & B). specialize (D y Iy). destruct (IH y Iy A) as [I1 I2]; [now rewrite E|].
    destruct y as [j m s]. cbn [toc_level toc_sub] in *. rewrite levels_one, spine_eq.
    split; constructor; try assumption; eapply Forall_impl; try eassumption; intros z Hz; cbn in Hz; lia. }
  clear IH D F. split.
  - induction sub as [|c sub IHs]; [constructor|]. change (c :: sub) with ([c] ++ sub). rewrite levels_app. apply Forall_app. split; [apply G; now left|].
    apply IHs. intros y Hy. apply G. now right.
  - destruct sub as [|c0 sub0]; [constructor|]. assert (NE : c0 :: sub0 <> []) by discriminate. destruct (exists_last NE) as (f' & y & Ey). rewrite Ey in *.
    rewrite fspine_snoc. apply G. apply in_or_app. right. now left.
Qed.
Lemma at_least l f : nested f -> Forall (fun t => toc_level t = l) f -> Forall (fun z => (l <= z)%Z) (levels f) /\ Forall (fun z => (l <= z)%Z) (fspine f).
Proof.
  intros N L. destruct (above (TocSec "" (l - 1)%Z f) N) as [A B]; cbn [toc_sub toc_level] in *.
  - eapply Forall_impl; [|exact L]. intros t ->. lia.
  - split; (eapply Forall_impl; [|eassumption]; intros z Hz; cbn in Hz; lia).
Qed.

(** ** the last nodes after an insertion *)
Definition below (x : Z) (s : list Z) : list Z := filter (fun y => (y <? x)%Z) s.
Lemma below_none x s : Forall (fun z => (x <= z)%Z) s -> below x s = [].
Proof. induction 1 as [|z s H F IH]; [reflexivity|]. cbn. destruct (Z.ltb_spec z x); [lia|exact IH]. Qed.
Lemma ins_spine : forall t e, nested (toc_sub t) -> fits (snd e) (fspine (toc_sub t)) ->
  fspine (ins (leaf e) (toc_sub t)) = below (snd e) (fspine (toc_sub t)) ++ [snd e].
Proof.
  intros t e. revert t. apply (tocsec_ind' (fun t => nested (toc_sub t) -> fits (snd e) (fspine (toc_sub t)) ->
    fspine (ins (leaf e) (toc_sub t)) = below (snd e) (fspine (toc_sub t)) ++ [snd e])).
  intros i l sub IH N H. cbn [toc_sub] in *. destruct (nested_level _ N) as (l' & L).
  destruct (ins_cases (leaf e) sub) as [[-> ->]|[(a & r & Ef & El & ->)|(a & r & f' & y & Ef & El & Ey & ->)]].
  - reflexivity.
  - cbn [leaf toc_level] in El. assert (l' = snd e) as -> by (rewrite Ef in L; inversion L; congruence).
    rewrite fspine_snoc. destruct (at_least _ _ N L) as [_ A]. now rewrite (below_none _ _ A).
  - cbn [leaf toc_level] in El. clear IH' || idtac. rewrite fspine_snoc. destruct y as [j m s].
    assert (Iy : In (TocSec j m s) sub) by (rewrite Ey; apply in_or_app; right; now left).
    assert (m = l') as -> by (rewrite Forall_forall in L; exact (L _ Iy)).
    rewrite Forall_forall in IH. rewrite toc_insert_ins, spine_eq. pose proof L as L2. rewrite Forall_forall in L2. destruct (nested_inv l' sub _ N Iy L2) as [Ny Dy]. cbn [toc_sub] in Ny, Dy.
    assert (SP : fspine sub = l' :: fspine s) by (rewrite Ey, fspine_snoc; apply spine_eq). rewrite SP in *.
    assert (La : toc_level a = l') by (rewrite Ef in L; now inversion L).
    destruct (above (TocSec j l' s) Ny Dy) as [_ B]. cbn [toc_level toc_sub] in B.
    assert (FX : fits (snd e) (fspine s) /\ (l' < snd e)%Z).
    { destruct H as [[H|H]|H]; [congruence| |].
      - split; [now left|]. rewrite Forall_forall in B. now apply B.
      - inversion H; subst. split; [now right|assumption]. }
    destruct FX as [FX LT]. pose proof (IH _ Iy Ny FX) as IHy. cbn [toc_sub] in IHy. rewrite IHy. cbn [below filter]. destruct (Z.ltb_spec l' (snd e)); [reflexivity|lia].
Qed.

Fixpoint stack (s : list Z) (l : list Z) : list Z := match l with [] => s | x :: r => stack (below x s ++ [x]) r end.
Lemma stack_snoc l x : forall s, stack s (l ++ [x]) = below x (stack s l) ++ [x].
Proof. induction l as [|y l IH]; intros s; [reflexivity|]. cbn. apply IH. Qed.
Lemma stack_in l : forall x, In x (stack [] l) <-> exists a b, l = a ++ x :: b /\ Forall (fun y => (x < y)%Z) b.
Proof.
  induction l as [|z l IH] using rev_ind; intros x.
  - split; [intros []|]. intros (a & b & E & _). destruct a; discriminate.
  - rewrite stack_snoc, in_app_iff. unfold below. rewrite filter_In, IH. split.
    + intros [[(a & b & -> & F) H]|[<-|[]]].
      * apply Z.ltb_lt in H. exists a, (b ++ [z]). split; [now rewrite <- app_assoc|]. apply Forall_app. split; [exact F|]. now constructor.
      * exists l, []. split; [reflexivity|constructor].
    + intros (a & b & E & F). destruct b as [|b0 b1] using rev_ind.
      * apply app_inj_tail in E. destruct E as [_ ->]. right. now left.
      * clear IHb1 || idtac. left. rewrite app_comm_cons, app_assoc in E. apply app_inj_tail in E. destruct E as [-> ->]. apply Forall_app in F. destruct F as [F1 F2].
        inversion F2; subst. split; [now exists a, b1|]. now apply Z.ltb_lt.
Qed.

Definition next_ok (l : list Z) (x : Z) : Prop :=
  l = [] \/ (exists l' prev, l = l' ++ [prev] /\ (prev < x)%Z) \/ exists a b, l = a ++ x :: b /\ Forall (fun y => (x < y)%Z) b.
Lemma fits_next l x : fits x (stack [] l) <-> next_ok l x.
Proof.
  unfold fits, next_ok. rewrite stack_in. split.
  - intros [H|H]; [auto|]. destruct l as [|prev l] using rev_ind; [now left|]. right. left. exists l, prev. split; [reflexivity|].
    rewrite stack_snoc in H. apply Forall_app in H. destruct H as [_ H]. now inversion H.
  - intros [->|[(l' & prev & -> & H)|H]]; [right; constructor| |now left]. right. rewrite stack_snoc. apply Forall_app. split; [|now constructor].
    rewrite Forall_forall. intros z Hz. unfold below in Hz. apply filter_In in Hz. destruct Hz as [_ Hz]. apply Z.ltb_lt in Hz. lia.
Qed.
Lemma returning_snoc l x : returning (l ++ [x]) <-> returning l /\ next_ok l x.
Proof.
  split.
  - intros R. split.
    + intros pre prev y post ->. apply (R pre prev y (post ++ [x])). now rewrite <- app_assoc.
    + destruct l as [|prev l] using rev_ind; [now left|]. right. destruct (R l prev x []) as [H|H]; [now rewrite <- app_assoc| |].
      * left. eauto.
      * now right.
  - intros [R N] pre prev y post E. destruct post as [|p0 post] using rev_ind.
    + change (pre ++ [prev; y]) with (pre ++ [prev] ++ [y]) in E. rewrite app_assoc in E. apply app_inj_tail in E. destruct E as [-> ->].
      destruct N as [N|[(l' & p & E & H)|H]]; [now destruct pre|left|now right]. apply app_inj_tail in E. now destruct E as [_ ->].
    + clear IHpost || idtac. change (pre ++ prev :: y :: post ++ [p0]) with (pre ++ (prev :: y :: post) ++ [p0]) in E. rewrite app_assoc in E.
      apply app_inj_tail in E. destruct E as [-> _]. exact (R pre prev y post eq_refl).
Qed.
Lemma returning_nil : returning [].
Proof. intros pre prev x post E. now destruct pre. Qed.

Theorem grow_nested es : 
  (returning (map snd es) -> nested (grow es) /\ fspine (grow es) = stack [] (map snd es)) /\ (Forall toc_deeper (grow es) -> returning (map snd es)).
Proof.
  induction es as [|e es [IH1 IH2]] using rev_ind.
  - split; [intros _; split; [constructor|reflexivity]|intros _; apply returning_nil].
  - rewrite map_app, grow_snoc. cbn [map]. rewrite returning_snoc. split.
    + intros [R N]. destruct (IH1 R) as [A B]. apply fits_next in N. rewrite <- B in N. destruct (forest_ins_nested _ e A) as [C _]. split; [now apply C|].
      rewrite stack_snoc, <- B. apply (ins_spine (TocSec "" 0%Z (grow es)) e A N).
    + intros F. assert (R : returning (map snd es)) by (apply IH2; now apply ins_wrong in F). split; [exact R|].
      destruct (IH1 R) as [A B]. apply fits_next. rewrite <- B. destruct (forest_ins_nested _ e A) as [_ C].
      assert (DEC : fits (snd e) (fspine (grow es)) \/ ~ fits (snd e) (fspine (grow es))).
      { unfold fits. destruct (in_dec Z.eq_dec (snd e) (fspine (grow es))) as [I|I]; [tauto|].
        destruct (Forall_dec (fun y => (y < snd e)%Z) (fun y => Z_lt_dec y (snd e)) (fspine (grow es))); tauto. }
      destruct DEC as [D|D]; [exact D|]. destruct (C D F).
Qed.

(** ** parents *)
Fixpoint cl (p : option nat) (n : nat) (l : list Z) (x : Z) : option nat :=
  match l with [] => p | y :: r => cl (if (y <? x)%Z then Some n else p) (S n) r x end.
Lemma cl_app a b x : forall p n, cl p n (a ++ b) x = cl (cl p n a x) (n + List.length a) b x.
Proof. induction a as [|y a IH]; intros p n; cbn; [now rewrite Nat.add_0_r|]. rewrite IH. f_equal. lia. Qed.
Lemma cl_none x l : Forall (fun z => (x <= z)%Z) l -> forall p n, cl p n l x = p.
Proof. induction 1 as [|z l H F IH]; intros p n; [reflexivity|]. cbn. rewrite IH. destruct (Z.ltb_spec z x); [lia|reflexivity]. Qed.
Lemma toc_parents_eq p n i l sub : toc_parents p n (TocSec i l sub) = p :: forest_parents (Some n) (S n) sub.
Proof.
  cbn [toc_parents]. f_equal. generalize (S n) as m. generalize (Some n) as q. clear. intros q m. revert m. induction sub as [|x r IH]; intros m; [reflexivity|]. cbn [forest_parents]. f_equal. apply IH.
Qed.
Definition fsize (f : list tocsec) : nat := list_sum (map toc_size f).
Lemma forest_parents_app a b : forall p n, forest_parents p n (a ++ b) = forest_parents p n a ++ forest_parents p (n + fsize a) b.
Proof.
  induction a as [|x a IH]; intros p n; [cbn; now rewrite Nat.add_0_r|]. cbn [app forest_parents]. rewrite IH, <- app_assoc. do 2 f_equal.
  unfold fsize. cbn [map]. change (list_sum (toc_size x :: map toc_size a)) with (toc_size x + list_sum (map toc_size a)). f_equal. lia.
Qed.
Lemma fsize_levels : forall f, fsize f = List.length (levels f).
Proof.
  assert (G : forall t, toc_size t = List.length (toc_entries t)).
  { apply (tocsec_ind' (fun t => toc_size t = List.length (toc_entries t))). intros i l sub IH. cbn [toc_size toc_entries List.length]. f_equal.
    induction IH as [|x r H F IH]; [reflexivity|]. cbn [map flat_map]. rewrite app_length, <- IH, <- H. reflexivity. }
  intros f. unfold fsize, levels, forest_entries. rewrite map_length. induction f as [|x f IH]; [reflexivity|]. cbn [map flat_map]. rewrite app_length, <- IH, <- G. reflexivity.
Qed.
Lemma ins_parents : forall t e, nested (toc_sub t) -> fits (snd e) (fspine (toc_sub t)) -> forall p n,
  forest_parents p n (ins (leaf e) (toc_sub t)) = forest_parents p n (toc_sub t) ++ [cl p n (levels (toc_sub t)) (snd e)].
Proof.
  intros t e. revert t. apply (tocsec_ind' (fun t => nested (toc_sub t) -> fits (snd e) (fspine (toc_sub t)) -> forall p n,
    forest_parents p n (ins (leaf e) (toc_sub t)) = forest_parents p n (toc_sub t) ++ [cl p n (levels (toc_sub t)) (snd e)])).
  intros i l sub IH N H p n. cbn [toc_sub] in *. destruct (nested_level _ N) as (l' & L).
  destruct (ins_cases (leaf e) sub) as [[-> ->]|[(a & r & Ef & El & ->)|(a & r & f' & y & Ef & El & Ey & ->)]].
  - reflexivity.
  - cbn [leaf toc_level] in El. assert (l' = snd e) as -> by (rewrite Ef in L; inversion L; congruence).
    rewrite forest_parents_app. f_equal. destruct (at_least _ _ N L) as [A _]. now rewrite (cl_none _ _ A).
  - cbn [leaf toc_level] in El. destruct y as [j m s].
    assert (Iy : In (TocSec j m s) sub) by (rewrite Ey; apply in_or_app; right; now left).
    assert (m = l') as -> by (rewrite Forall_forall in L; exact (L _ Iy)).
    rewrite Forall_forall in IH. pose proof L as L2. rewrite Forall_forall in L2. destruct (nested_inv l' sub _ N Iy L2) as [Ny Dy]. cbn [toc_sub] in Ny, Dy.
    assert (SP : fspine sub = l' :: fspine s) by (rewrite Ey, fspine_snoc; apply spine_eq). rewrite SP in *.
    assert (La : toc_level a = l') by (rewrite Ef in L; now inversion L).
    destruct (above (TocSec j l' s) Ny Dy) as [_ B]. cbn [toc_level toc_sub] in B.
    assert (FX : fits (snd e) (fspine s) /\ (l' < snd e)%Z).
    { destruct H as [[H|H]|H]; [congruence| |].
      - split; [now left|]. rewrite Forall_forall in B. now apply B.
      - inversion H; subst. split; [now right|assumption]. }
    destruct FX as [FX LT]. pose proof (IH _ Iy Ny FX) as IHy. cbn [toc_sub] in IHy.
    rewrite Ey, !forest_parents_app, <- app_assoc, levels_app, levels_one, cl_app, <- fsize_levels. f_equal. cbn [forest_parents]. rewrite !app_nil_r, toc_insert_ins, !toc_parents_eq, IHy.
    cbn [cl app]. destruct (Z.ltb_spec l' (snd e)); [reflexivity|lia].
Qed.
Fixpoint expected_parents (done l : list Z) : list (option nat) :=
  match l with [] => [] | x :: r => cl None 0 done x :: expected_parents (done ++ [x]) r end.
Lemma expected_snoc l x : forall d, expected_parents d (l ++ [x]) = expected_parents d l ++ [cl None 0 (d ++ l) x].
Proof. induction l as [|y l IH]; intros d; cbn [expected_parents app]; [now rewrite app_nil_r|]. rewrite IH, <- app_assoc. reflexivity. Qed.
Lemma grow_parents es : returning (map snd es) -> forest_parents None 0 (grow es) = expected_parents [] (map snd es).
Proof.
  induction es as [|e es IH] using rev_ind; [reflexivity|]. rewrite map_app. cbn [map]. intros R. apply returning_snoc in R. destruct R as [R N].
  destruct (proj1 (grow_nested es) R) as [A B]. apply fits_next in N. rewrite <- B in N.
  rewrite grow_snoc, expected_snoc, <- (IH R). pose proof (ins_parents (TocSec "" 0%Z (grow es)) e A N None 0%nat) as P. cbn [toc_sub] in P. rewrite P. cbn [app]. unfold levels. now rewrite grow_entries.
Qed.
Lemma cl_spec x l : forall p n, match cl p n l x with
  | r => (r = p /\ Forall (fun z => (x <= z)%Z) l) \/
         exists i, r = Some (n + i) /\ (exists y, nth_error l i = Some y /\ (y < x)%Z) /\ forall k y, (i < k)%nat -> nth_error l k = Some y -> (x <= y)%Z end.
Proof.
  induction l as [|z l IH]; intros p n; cbn [cl]; [left; split; [reflexivity|constructor]|].
  destruct (Z.ltb_spec z x) as [LT|GE].
  - right. destruct (IH (Some n) (S n)) as [[E F]|(i & E & Y & K)].
    + exists 0%nat. rewrite E, Nat.add_0_r. split; [reflexivity|]. split; [exists z; auto|]. intros k y Hk Hy. destruct k as [|k]; [lia|]. cbn in Hy. rewrite Forall_forall in F. apply F. eapply nth_error_In; eauto.
    + exists (S i). rewrite E. split; [f_equal; lia|]. split; [exact Y|]. intros k y Hk Hy. destruct k as [|k]; [lia|]. apply (K k y); [lia|exact Hy].
  - destruct (IH p (S n)) as [[E F]|(i & E & Y & K)].
    + left. split; [exact E|]. now constructor.
    + right. exists (S i). rewrite E. split; [f_equal; lia|]. split; [exact Y|]. intros k y Hk Hy. destruct k as [|k]; [lia|]. apply (K k y); [lia|exact Hy].
Qed.
Lemma expected_closest l : forall d j p, nth_error (expected_parents d l) j = Some p -> closest_smaller (d ++ l) (List.length d + j) p.
Proof.
  induction l as [|x l IH]; intros d j p H; [destruct j; discriminate|]. destruct j as [|j]; cbn [expected_parents nth_error] in H.
  - injection H as <-. exists x. split; [rewrite nth_error_app2 by lia; now replace (_ + 0 - _)%nat with 0%nat by lia|].
    assert (PRE : forall k y, (k < List.length d + 0)%nat -> nth_error (d ++ x :: l) k = Some y -> nth_error d k = Some y) by (intros k y Hk Hy; rewrite nth_error_app1 in Hy by lia; exact Hy).
    destruct (cl_spec x d None 0) as [[-> F]|(i & -> & (y & Hy & LT) & K)].
    + intros k y Hk Hy. rewrite Forall_forall in F. apply F. eapply nth_error_In. eauto.
    + assert (i < List.length d)%nat by (apply nth_error_Some; congruence). cbn [Nat.add]. split; [lia|]. split.
      * exists y. split; [rewrite nth_error_app1 by lia; exact Hy|exact LT].
      * intros k z Hk Hz. apply (K k z); [lia|]. apply PRE; [lia|exact Hz].
  - specialize (IH (d ++ [x]) j p H). rewrite <- app_assoc, app_length in IH. cbn [app List.length] in IH. now replace (List.length d + S j)%nat with (List.length d + 1 + j)%nat by lia.
Qed.

(** ** everything together *)
Theorem grow_nesting f : f = grow (forest_entries f) ->
  (Forall toc_deeper f <-> returning (map snd (flat_map toc_entries f))) /\
  (returning (map snd (flat_map toc_entries f)) -> forall j p, nth_error (forest_parents None 0 f) j = Some p -> closest_smaller (map snd (flat_map toc_entries f)) j p).
Proof.
  intros E. change (flat_map toc_entries f) with (forest_entries f). destruct (grow_nested (forest_entries f)) as [A B]. rewrite <- E in A, B. split.
  - split; [exact B|]. intros R. apply nested_all_deeper, (A R).
  - intros R j p H. rewrite E in H. rewrite (grow_parents _ R) in H. exact (expected_closest _ [] j p H).
Qed.
