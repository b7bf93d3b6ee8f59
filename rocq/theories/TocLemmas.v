(** Proofs about the table of contents. *)
From Verif Require Import GoBase Types Toc SecSpec.

(** induction over ToC trees *)
Lemma tocsec_ind' (P : tocsec -> Prop) :
  (forall i l sub, Forall P sub -> P (TocSec i l sub)) -> forall t, P t.
Proof.
  intros H. fix IH 1. intros [i l sub]. apply H.
  induction sub as [|x r IHr]; constructor; auto.
Qed.

Definition forest_entries (l : list tocsec) : list (string * Z) := flat_map toc_entries l.

Lemma toc_insert_eq ts i l sub :
  toc_insert ts (TocSec i l sub) =
  match sub with
  | [] => TocSec i l [ts]
  | first :: _ =>
      if (toc_level first =? toc_level ts)%Z then TocSec i l (sub ++ [ts])
      else TocSec i l (toc_on_last ts sub)
  end.
Proof.
  destruct sub as [|f r]; [reflexivity|].
  cbn [toc_insert]. destruct (toc_level f =? toc_level ts)%Z; [reflexivity|].
  f_equal. revert f. induction r as [|x r IH]; intros f; [reflexivity|].
  cbn [toc_on_last]. f_equal. apply IH.
Qed.

Lemma toc_on_last_app ts l x : toc_on_last ts (l ++ [x]) = l ++ [toc_insert ts x].
Proof.
  induction l as [|y l IH]; [reflexivity|].
  cbn [app]. destruct l as [|z l']; [reflexivity|].
  cbn [toc_on_last app] in *. f_equal. exact IH.
Qed.

Lemma forest_entries_app a b : forest_entries (a ++ b) = forest_entries a ++ forest_entries b.
Proof. unfold forest_entries. apply flat_map_app. Qed.

Lemma toc_insert_entries ts t :
  toc_entries (toc_insert ts t) = toc_entries t ++ toc_entries ts.
Proof.
  revert t. apply (tocsec_ind' (fun t => toc_entries (toc_insert ts t) = toc_entries t ++ toc_entries ts)).
  intros i l sub IH. rewrite toc_insert_eq.
  destruct sub as [|f r].
  - cbn. now rewrite app_nil_r.
  - destruct (toc_level f =? toc_level ts)%Z.
    + cbn [toc_entries]. change (flat_map toc_entries) with forest_entries.
      rewrite forest_entries_app. unfold forest_entries at 2. cbn [flat_map].
      now rewrite app_nil_r.
    + cbn [toc_entries]. change (flat_map toc_entries) with forest_entries.
      assert (NE : f :: r <> []) by discriminate.
      destruct (exists_last NE) as (l' & x & E). rewrite E in *.
      rewrite toc_on_last_app, !forest_entries_app. unfold forest_entries at 2 4. cbn [flat_map].
      rewrite !app_nil_r. apply Forall_app in IH. destruct IH as [_ IH].
      inversion IH as [|? ? Hx _]; subst. rewrite Hx.
      cbn. now rewrite <- app_assoc.
Qed.

Lemma tocAdd_entries t id lvl :
  forest_entries (toc_sections (tocAdd t id lvl)) =
  forest_entries (toc_sections t) ++ (if (lvl <=? toc_max t)%Z then [(id, lvl)] else []).
Proof.
  unfold tocAdd.
  destruct (Z.ltb_spec (toc_max t) lvl), (Z.leb_spec lvl (toc_max t)); try lia.
  - now rewrite app_nil_r.
  - destruct (toc_sections t) as [|f r] eqn:E; [reflexivity|].
    destruct (lvl =? toc_level f)%Z; cbn [toc_sections].
    + rewrite forest_entries_app. reflexivity.
    + assert (NE : f :: r <> []) by discriminate.
      destruct (exists_last NE) as (l' & x & E'). rewrite E'.
      rewrite toc_on_last_app, !forest_entries_app. unfold forest_entries at 2 4. cbn [flat_map].
      rewrite toc_insert_entries, !app_nil_r. cbn. now rewrite <- app_assoc.
Qed.

Lemma tocAdd_max t id lvl : toc_max (tocAdd t id lvl) = toc_max t.
Proof.
  unfold tocAdd. destruct (toc_max t <? lvl)%Z; auto.
  destruct (toc_sections t); auto. destruct (lvl =? toc_level t0)%Z; auto.
Qed.

Definition tocAddAll (t : toc) (l : list (string * Z)) : toc :=
  fold_left (fun t p => tocAdd t (fst p) (snd p)) l t.

Lemma tocAddAll_entries l : forall t,
  forest_entries (toc_sections (tocAddAll t l)) =
  forest_entries (toc_sections t) ++ filter (fun p => (snd p <=? toc_max t)%Z) l.
Proof.
  induction l as [|[id lvl] l IH]; intros t.
  - cbn. now rewrite app_nil_r.
  - change (tocAddAll t ((id, lvl) :: l)) with (tocAddAll (tocAdd t id lvl) l).
    cbn [filter snd]. rewrite IH, tocAdd_entries, tocAdd_max.
    destruct (lvl <=? toc_max t)%Z; rewrite <- app_assoc; reflexivity.
Qed.

(** ** Nesting *)

(** level of the last entry in preorder *)
Fixpoint last_level (t : tocsec) : Z :=
  match t with
  | TocSec _ l sub =>
      (fix go (l0 : Z) (s : list tocsec) : Z :=
         match s with [] => l0 | x :: r => go (last_level x) r end) l sub
  end.
Fixpoint last_level_forest (d : Z) (s : list tocsec) : Z :=
  match s with [] => d | x :: r => last_level_forest (last_level x) r end.
Lemma last_level_eq i l sub : last_level (TocSec i l sub) = last_level_forest l sub.
Proof.
  cbn. generalize l. induction sub as [|x r IH]; intros d; [reflexivity|]. cbn. apply IH.
Qed.
Lemma last_level_forest_app d s x : last_level_forest d (s ++ [x]) = last_level x.
Proof. revert d; induction s as [|y s IH]; intros d; cbn; auto. Qed.

Lemma toc_levels_level l t : toc_levels l t -> toc_level t = l.
Proof. intros H; inversion H; reflexivity. Qed.

Lemma toc_insert_levels id L t : forall p,
  toc_levels p t -> (p < L)%Z -> (L <= last_level t + 1)%Z ->
  toc_levels p (toc_insert (TocSec id L []) t) /\
  last_level (toc_insert (TocSec id L []) t) = L.
Proof.
  revert t. apply (tocsec_ind' (fun t => forall p,
    toc_levels p t -> (p < L)%Z -> (L <= last_level t + 1)%Z ->
    toc_levels p (toc_insert (TocSec id L []) t) /\
    last_level (toc_insert (TocSec id L []) t) = L)).
  intros i l sub IH p Hp HL Hlast.
  pose proof (toc_levels_level _ _ Hp) as El; cbn in El; subst l.
  assert (Hsub : Forall (toc_levels (p + 1)) sub) by (inversion Hp; assumption).
  rewrite toc_insert_eq, last_level_eq in *.
  destruct sub as [|f r].
  - cbn in Hlast. assert (L = p + 1)%Z by lia. subst L. split; [|reflexivity].
    constructor. constructor; constructor. constructor.
  - assert (Hf : toc_level f = (p + 1)%Z)
      by (inversion Hsub; now apply toc_levels_level).
    destruct (Z.eqb_spec (toc_level f) (toc_level (TocSec id L []))) as [E|E]; cbn [toc_level] in E.
    + rewrite Hf in E. subst L. split.
      * constructor. apply Forall_app. split; auto. constructor; constructor. constructor.
      * rewrite last_level_eq, last_level_forest_app. reflexivity.
    + assert (NE : f :: r <> []) by discriminate.
      destruct (exists_last NE) as (l' & x & E'). rewrite E' in *.
      rewrite toc_on_last_app.
      apply Forall_app in Hsub. destruct Hsub as [Hl' Hx].
      apply Forall_app in IH. destruct IH as [_ IHx].
      inversion Hx as [|? ? Hx1 _]; subst. inversion IHx as [|? ? IHx1 _]; subst.
      rewrite last_level_forest_app in Hlast.
      destruct (IHx1 (p + 1)%Z Hx1) as [G1 G2]; [|auto|].
      { cbn [toc_level] in *. clear -E HL Hf. 
        assert (L <> p + 1)%Z by congruence. lia. }
      split.
      * constructor. apply Forall_app. split; auto.
      * now rewrite last_level_eq, last_level_forest_app.
Qed.

Lemma tocAddAll_levels l : forall t l0 lprev,
  toc_sections t <> [] ->
  Forall (toc_levels l0) (toc_sections t) ->
  last_level_forest 0 (toc_sections t) = Z.min lprev (toc_max t) ->
  (l0 <= toc_max t)%Z ->
  no_skip l0 lprev (map snd l) ->
  Forall (toc_levels l0) (toc_sections (tocAddAll t l)).
Proof.
  induction l as [|[id lvl] l IH]; intros t l0 lprev NE HF HL HM HS; [exact HF|].
  change (tocAddAll t ((id, lvl) :: l)) with (tocAddAll (tocAdd t id lvl) l). cbn in HS. destruct HS as [HB HS].
  apply (IH _ _ lvl).
  - unfold tocAdd. destruct (toc_max t <? lvl)%Z; auto.
    destruct (toc_sections t) as [|f r] eqn:E; [discriminate|].
    destruct (lvl =? toc_level f)%Z; cbn; [discriminate|].
    destruct r; discriminate.
  - unfold tocAdd. destruct (Z.ltb_spec (toc_max t) lvl) as [Hmx|Hmx]; auto.
    destruct (toc_sections t) as [|f r] eqn:E; [congruence|].
    assert (Hf : toc_level f = l0) by (inversion HF; now apply toc_levels_level).
    destruct (Z.eqb_spec lvl (toc_level f)) as [Ef|Ef]; cbn [toc_sections].
    + apply Forall_app. split; auto.
      assert (l0 = lvl) by congruence. subst. constructor; [|constructor]. constructor. constructor.
    + destruct (exists_last NE) as (l' & x & E'). rewrite E' in *.
      rewrite toc_on_last_app. apply Forall_app in HF. destruct HF as [H1 H2].
      apply Forall_app. split; auto. constructor; auto.
      inversion H2; subst. apply toc_insert_levels; auto; [lia|].
      rewrite last_level_forest_app in HL. lia.
  - rewrite tocAdd_max. unfold tocAdd. destruct (Z.ltb_spec (toc_max t) lvl) as [Hmx|Hmx].
    + rewrite HL. lia.
    + destruct (toc_sections t) as [|f r] eqn:E; [congruence|].
      assert (Hf : toc_level f = l0) by (inversion HF; now apply toc_levels_level).
      destruct (Z.eqb_spec lvl (toc_level f)) as [Ef|Ef]; cbn [toc_sections].
      * rewrite last_level_forest_app. cbn. lia.
      * destruct (exists_last NE) as (l' & x & E'). rewrite E' in *.
        rewrite toc_on_last_app, last_level_forest_app.
        apply Forall_app in HF. destruct HF as [H1 H2]. inversion H2; subst.
        rewrite last_level_forest_app in HL.
        destruct (toc_insert_levels id lvl x (toc_level f)) as [_ G]; auto; [lia|lia|].
        rewrite G. lia.
  - now rewrite tocAdd_max.
  - exact HS.
Qed.
