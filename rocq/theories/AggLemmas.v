(** Proofs about the aggregation stage: section tree, ids and table of contents. *)
From Verif Require Import GoBase GoLemmas Types Attrs Utf8 Ids Toc Context Aggregate SecSpec
  IdsLemmas TocLemmas.

(** ** The tree builder *)

Definition block (v : val) : Prop := is_section v = false.
Definition above (p : option Z) (l : Z) : Prop :=
  match p with Some q => (q < l)%Z | None => True end.

Lemma child_levels_app a b : child_levels (a ++ b) = child_levels a ++ child_levels b.
Proof.
  induction a as [|x a IH]; [reflexivity|].
  destruct x; cbn [app child_levels]; rewrite IH; reflexivity.
Qed.

Lemma child_levels_blocks l : Forall block l -> child_levels l = [].
Proof.
  induction 1 as [|x l Hx _ IH]; [reflexivity|].
  destruct x; cbn in *; try discriminate; exact IH.
Qed.

Lemma blocks_first_app a b :
  blocks_first a -> blocks_first b -> (child_levels a <> [] -> Forall (fun x => is_section x = true) b) ->
  blocks_first (a ++ b).
Proof.
  induction a as [|x a IH]; intros Ha Hb Hab; [exact Hb|].
  cbn [app blocks_first] in *. destruct Ha as [H1 H2]. split.
  - intros Hx. apply Forall_app. split; [auto|]. apply Hab. destruct x; discriminate.
  - apply IH; auto. intros H. apply Hab. destruct x; cbn; auto; discriminate.
Qed.

Lemma blocks_first_blocks l : Forall block l -> blocks_first l.
Proof.
  induction 1 as [|x l Hx _ IH]; cbn; [exact I|]. split; auto.
  unfold block in Hx. congruence.
Qed.

Lemma nonincreasing_app_one l x :
  nonincreasing l -> (forall y, In y (List.rev l) -> hd_error (List.rev l) = Some y -> (x <= y)%Z) ->
  nonincreasing (l ++ [x]).
Proof.
  induction l as [|a l IH]; intros H Hx; cbn [app nonincreasing]; [auto|].
  cbn [nonincreasing] in H. destruct H as [H1 H2]. split.
  - destruct l as [|b l]; cbn; auto. apply (Hx a); cbn; auto.
  - apply IH; auto. intros y Hy E. apply (Hx y).
    + cbn. apply in_or_app; auto.
    + cbn. destruct (List.rev l); [destruct Hy|exact E].
Qed.

Lemma nonincreasing_app l x y :
  nonincreasing (l ++ [x]) -> (y <= x)%Z -> nonincreasing (l ++ [x; y]).
Proof.
  induction l as [|a l IH]; cbn [app nonincreasing]; intros H Hxy.
  - cbn. auto.
  - destruct H as [H1 H2]. split; [|auto].
    destruct l; cbn in *; auto.
Qed.

(** Invariant of the nodes under construction: [els] are the finished children of the current
    node, [frames] the open sections below it. *)
Fixpoint open_ok (p : option Z) (els : list val) (frames : list osec) : Prop :=
  match frames with
  | [] => Forall block els
  | o :: r => node_ok p (els ++ [Section (os_level o) [] None []]) /\ Forall tree_ok els /\
              open_ok (Some (os_level o)) (os_elements o) r
  end.

Lemma node_ok_placeholder p els l a t e a' t' e' :
  node_ok p (els ++ [Section l a t e]) -> node_ok p (els ++ [Section l a' t' e']).
Proof.
  unfold node_ok. rewrite !child_levels_app. cbn [child_levels]. intros (H1 & H2 & H3).
  repeat split; auto. clear H2 H3. induction els as [|x els IH]; cbn in *; auto.
  destruct H1 as [G1 G2]. split; auto. intros Hx. specialize (G1 Hx).
  apply Forall_app in G1. apply Forall_app. split; [tauto|]. repeat constructor.
Qed.

Lemma node_ok_blocks p els : Forall block els -> node_ok p els.
Proof.
  intros H. unfold node_ok. rewrite (child_levels_blocks _ H).
  repeat split; auto using blocks_first_blocks. destruct p; auto.
Qed.

Lemma open_ok_nest frames : forall p els,
  open_ok p els frames -> node_ok p (els ++ nest frames) /\ Forall tree_ok (els ++ nest frames).
Proof.
  induction frames as [|o r IH]; intros p els H; cbn [open_ok nest] in *.
  - rewrite app_nil_r. split; [now apply node_ok_blocks|].
    eapply Forall_impl; [|exact H]. intros x Hx. now constructor.
  - destruct H as (H1 & H2 & H3). apply IH in H3. destruct H3 as [H3 H4]. split.
    + eapply node_ok_placeholder; exact H1.
    + apply Forall_app. split; auto. constructor; [|constructor]. apply tree_section; auto.
Qed.

(** appendSection as a structural recursion along the open sections *)
Fixpoint push (els : list val) (frames : list osec) (s : osec) : list val * list osec :=
  match frames with
  | [] => (els, [s])
  | o :: r =>
      if (os_level s <=? os_level o)%Z then (els ++ nest (o :: r), [s])
      else let (oels, r') := push (os_elements o) r s in
           (els, mkOsec (os_level o) (os_attrs o) (os_title o) oels :: r')
  end.

Definition agS (root : list val) (frames : list osec) (i : option nat) (s : osec) :=
  match i with
  | Some i => let a1 := ag_add (mkAgg root (firstn i frames)) (nest (skipn i frames)) in
              mkAgg (ag_root a1) (ag_open a1 ++ [s])
  | None => mkAgg root (frames ++ [s])
  end.

Lemma indexOfParent_shift l level i :
  indexOfParent l level (S i) = option_map S (indexOfParent l level i).
Proof.
  revert i; induction l as [|o l IH]; intros i; cbn; auto.
  destruct (level <=? os_level o)%Z; auto.
Qed.

Lemma appendSection_push frames s : forall root,
  appendSection (mkAgg root frames) s =
  let (els, fr) := push root frames s in mkAgg els fr.
Proof.
  assert (G : forall frames root,
    agS root frames (indexOfParent frames (os_level s) 0) s =
    let (els, fr) := push root frames s in mkAgg els fr).
  2:{ intros root. rewrite <- G. unfold appendSection, agS. cbn [ag_open ag_root].
      destruct (indexOfParent frames (os_level s) 0); reflexivity. }
  clear frames. induction frames as [|o r IH]; intros root; [reflexivity|].
  cbn [indexOfParent push].
  destruct (os_level s <=? os_level o)%Z.
  - cbn [agS firstn skipn]. unfold ag_add. cbn [ag_open ag_root app]. reflexivity.
  - rewrite indexOfParent_shift. specialize (IH (os_elements o)).
    destruct (push (os_elements o) r s) as [oels r'].
    destruct (indexOfParent r (os_level s) 0) as [i|].
    + cbn [option_map agS firstn skipn] in *. unfold ag_add in *. cbn [ag_open ag_root] in *.
      destruct (firstn i r) as [|o2 fr] eqn:E; cbn [ag_open ag_root add_last app] in *.
      * injection IH as E1 E2. subst. reflexivity.
      * injection IH as E1 E2. subst. cbn. f_equal. f_equal. destruct o; reflexivity.
    + cbn [option_map agS] in *. injection IH as E1 E2. subst. cbn. f_equal. f_equal.
      destruct o; reflexivity.
Qed.

Lemma node_ok_blocks_then p els l :
  Forall block els -> above p l -> node_ok p (els ++ [Section l [] None []]).
Proof.
  intros H Hl. unfold node_ok. rewrite child_levels_app, (child_levels_blocks _ H). cbn.
  repeat split; auto.
  - apply blocks_first_app.
    + now apply blocks_first_blocks.
    + cbn. auto.
    + rewrite (child_levels_blocks _ H). congruence.
  - destruct p; auto.
Qed.

Lemma push_ok s : Forall block (os_elements s) -> forall frames p els,
  open_ok p els frames -> above p (os_level s) ->
  let (els', fr') := push els frames s in open_ok p els' fr'.
Proof.
  intros Hs. induction frames as [|o r IH]; intros p els H Hp; cbn [push].
  - cbn [open_ok] in *. split; [|split; auto].
    + now apply node_ok_blocks_then.
    + eapply Forall_impl; [|exact H]. intros x Hx. now constructor.
  - destruct (Z.leb_spec (os_level s) (os_level o)) as [L|L].
    + pose proof (open_ok_nest (o :: r) p els H) as [_ HT].
      cbn [open_ok]. cbn [open_ok] in H. destruct H as (H1 & H2 & H3).
      split; [|split; auto].
      cbn [nest]. unfold node_ok in *. rewrite !child_levels_app in *. cbn [child_levels] in *.
      destruct H1 as (B & Lv & NI). rewrite <- !app_assoc. cbn [app].
      split; [|split].
      * clear -B. induction els as [|x els IH]; cbn [app blocks_first] in *;
          [repeat split; repeat constructor|].
        destruct B as [B1 B2]. split; [|auto]. intros Hx. specialize (B1 Hx).
        apply Forall_app in B1. apply Forall_app. split; [tauto|]. repeat constructor.
      * destruct p as [q|]; auto. apply Forall_app in Lv. apply Forall_app. split; [tauto|].
        destruct Lv as [_ Lv]. inversion Lv; subst. repeat constructor; auto.
      * now apply nonincreasing_app.
    + cbn [open_ok] in H. destruct H as (H1 & H2 & H3).
      specialize (IH (Some (os_level o)) (os_elements o) H3).
      destruct (push (os_elements o) r s) as [oels r']. cbn [open_ok os_level os_elements].
      split; [|split]; auto.
Qed.

Lemma add_last_ok e : block e -> forall frames p els,
  open_ok p els frames ->
  match frames with
  | [] => open_ok p (els ++ [e]) []
  | _ => open_ok p els (add_last frames [e])
  end.
Proof.
  intros He. induction frames as [|o r IH]; intros p els H; cbn [open_ok] in *.
  - apply Forall_app. split; auto.
  - destruct H as (H1 & H2 & H3). specialize (IH _ _ H3).
    destruct r as [|o2 r].
    + cbn [add_last open_ok os_level os_elements os_add]. auto.
    + cbn [add_last]. change (open_ok p els (o :: add_last (o2 :: r) [e])).
      cbn [open_ok]. auto.
Qed.

Definition agOK (a : aggregator) : Prop := open_ok None (ag_root a) (ag_open a).

Lemma agAppend_ok a e :
  agOK a -> (forall l at_ t els, e = Section l at_ t els -> els = []) -> agOK (agAppend a e).
Proof.
  intros H He. unfold agOK in *. destruct a as [root frames].
  destruct (is_section e) eqn:S.
  - destruct e; try discriminate. cbn [agAppend]. rewrite appendSection_push.
    specialize (He _ _ _ _ eq_refl). subst.
    pose proof (push_ok (mkOsec level attrs title []) (Forall_nil _) frames None root H I) as G.
    destruct (push root frames _) as [els fr]. exact G.
  - assert (E : agAppend (mkAgg root frames) e = ag_add (mkAgg root frames) [e])
      by (destruct e; try reflexivity; discriminate).
    rewrite E. unfold ag_add. cbn [ag_open ag_root] in *.
    pose proof (add_last_ok e S frames None root H) as G.
    destruct frames; exact G.
Qed.

(** flattening *)
Definition flats (l : list val) : list val := flat_map flat l.
Lemma flats_app a b : flats (a ++ b) = flats a ++ flats b.
Proof. apply flat_map_app. Qed.

Lemma flats_one x : flats [x] = flat x.
Proof. unfold flats. cbn. apply app_nil_r. Qed.

Lemma flats_push s : forall frames els,
  let (els', fr') := push els frames s in
  flats (els' ++ nest fr') =
  flats (els ++ nest frames) ++
  flat (Section (os_level s) (os_attrs s) (os_title s) (os_elements s)).
Proof.
  induction frames as [|o r IH]; intros els; cbn [push].
  - cbn [nest]. rewrite !flats_app, !app_nil_r, flats_one. reflexivity.
  - destruct (os_level s <=? os_level o)%Z.
    + rewrite (flats_app (els ++ nest (o :: r))). f_equal. cbn [nest].
      rewrite app_nil_r, flats_one. reflexivity.
    + specialize (IH (os_elements o)). destruct (push (os_elements o) r s) as [oels r'].
      set (F := flat (Section (os_level s) (os_attrs s) (os_title s) (os_elements s))) in *.
      clearbody F.
      cbn [nest os_level os_attrs os_title os_elements]. rewrite !flats_app, !flats_one in *.
      cbn [flat]. change (flat_map flat) with flats. rewrite !flats_app in *.
      rewrite IH. cbn [app]. rewrite <- !app_assoc. cbn [app]. now rewrite <- !app_assoc.
Qed.

Lemma flats_add_last e : forall frames els,
  frames <> [] ->
  flats (els ++ nest (add_last frames [e])) = flats (els ++ nest frames) ++ flat e.
Proof.
  induction frames as [|o r IH]; intros els NE; [congruence|].
  destruct r as [|o2 r].
  - cbn [add_last nest os_add os_level os_attrs os_title os_elements].
    rewrite !flats_app, !flats_one. cbn [flat]. change (flat_map flat) with flats.
    rewrite !flats_app, flats_one. cbn [app]. rewrite !app_nil_r, <- !app_assoc. reflexivity.
  - assert (NE2 : o2 :: r <> []) by discriminate. specialize (IH (os_elements o) NE2).
    change (add_last (o :: o2 :: r) [e]) with (o :: add_last (o2 :: r) [e]).
    cbn [nest]. rewrite !flats_app, !flats_one. cbn [flat]. change (flat_map flat) with flats.
    change (match r with [] => [os_add o2 [e]] | _ :: _ => o2 :: add_last r [e] end)
      with (add_last (o2 :: r) [e]).
    rewrite IH. cbn [nest]. cbn [app]. rewrite <- !app_assoc. reflexivity.
Qed.

Lemma flats_append a e : flats (agDoc (agAppend a e)) = flats (agDoc a) ++ flat e.
Proof.
  destruct a as [root frames]. destruct (is_section e) eqn:S.
  - destruct e; try discriminate. cbn [agAppend]. rewrite appendSection_push.
    pose proof (flats_push (mkOsec level attrs title elements) frames root) as G.
    destruct (push root frames _) as [els fr]. exact G.
  - assert (E : agAppend (mkAgg root frames) e = ag_add (mkAgg root frames) [e])
      by (destruct e; try reflexivity; discriminate).
    rewrite E. unfold ag_add, agDoc. cbn [ag_open ag_root].
    destruct frames as [|o r]; cbn [ag_open ag_root].
    + cbn [nest]. rewrite !app_nil_r, flats_app, flats_one. reflexivity.
    + apply flats_add_last. discriminate.
Qed.
