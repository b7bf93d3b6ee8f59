(** Proofs about merge (C27). *)
From Verif Require Import GoBase GoLemmas Types Merge MergeSpec.

(** *** [drops] *)
Lemma drops_refl a : drops a a.
Proof. induction a; constructor; auto. Qed.
Lemma drops_trans a b : drops a b -> forall c, drops b c -> drops a c.
Proof.
  induction 1 as [|t a b H IH|a b H IH]; intros c Hc.
  - exact Hc.
  - inversion Hc; subst.
    + constructor. auto.
    + apply drops_space. auto.
  - inversion Hc; subst. apply drops_space. apply IH. exact Hc.
Qed.
Lemma drops_app a b : drops a b -> forall c d, drops c d -> drops (a ++ c) (b ++ d).
Proof.
  induction 1 as [|t a b H IH|a b H IH]; intros c d Hc; cbn [app].
  - exact Hc.
  - constructor. auto.
  - apply drops_space. apply IH. exact Hc.
Qed.
Lemma drops_in_elem a b : drops a b -> forall v, In (Elem v) b -> In (Elem v) a.
Proof.
  induction 1 as [|t a b H IH|a b H IH]; intros v I.
  - destruct I.
  - destruct I as [->|I]; [now left|right; auto].
  - right. auto.
Qed.
Lemma drops_no_dash a b : drops a b -> ~ In dash a -> a = b.
Proof.
  induction 1 as [|t a b H IH|a b H IH]; intros N.
  - reflexivity.
  - f_equal. apply IH. intros I. apply N. now right.
  - exfalso. apply N. right. eapply drops_in_elem; [exact H|]. now left.
Qed.
Definition elem_of (t : token) : list val := match t with Elem v => [v] | _ => [] end.
Lemma drops_elems a b : drops a b -> flat_map elem_of a = flat_map elem_of b.
Proof.
  induction 1 as [|t a b H IH|a b H IH]; cbn [flat_map].
  - reflexivity.
  - now rewrite IH.
  - exact IH.
Qed.
Definition nonspace (t : token) : bool :=
  match t with Char c => negb (Ascii.eqb c " "%char) | Elem _ => true end.
Lemma drops_nonspace a b : drops a b -> filter nonspace a = filter nonspace b.
Proof.
  induction 1 as [|t a b H IH|a b H IH]; cbn [filter].
  - reflexivity.
  - destruct (nonspace t); now rewrite IH.
  - exact IH.
Qed.

(** *** tokens *)
Definition is_other (e : val) : bool :=
  match e with VNil | VStr _ | StringElement _ | VSlice _ => false | _ => true end.
Lemma tokens_other e : is_other e = true -> tokens e = [Elem e].
Proof. destruct e; try discriminate; reflexivity. Qed.
Lemma tokens_slice l : tokens (VSlice l) = tokens_of l.
Proof. cbn [tokens]. unfold tokens_of. induction l as [|x l IH]; cbn [flat_map]; [reflexivity|]. now rewrite IH. Qed.
Lemma tokens_of_app a b : tokens_of (a ++ b) = tokens_of a ++ tokens_of b.
Proof. apply flat_map_app. Qed.
Lemma chars_app a b : chars (a ++ b)%string = chars a ++ chars b.
Proof. induction a as [|c a IH]; cbn; [reflexivity|]. now rewrite IH. Qed.

Definition tok (st : mstate) : list token := tokens_of (fst st) ++ chars (snd st).

Lemma tok_flush st : tokens_of (mflush st) = tok st.
Proof.
  unfold mflush, tok. destruct st as [r s]. cbn [fst snd]. destruct (String.eqb_spec s "") as [->|N].
  - cbn. now rewrite app_nil_r.
  - rewrite tokens_of_app. cbn. now rewrite app_nil_r.
Qed.

Lemma stake_last s : has_suffix s " " = true -> exists r, s = (r ++ " ")%string /\ stake (String.length s - 1) s = r.
Proof.
  intros H. apply has_suffix_iff in H. destruct H as [r ->]. exists r. split; [reflexivity|].
  rewrite slength_app. cbn [String.length]. replace (String.length r + 1 - 1)%nat with (String.length r) by lia.
  apply stake_app.
Qed.

Lemma tok_default st e : is_other e = true -> drops (tok st ++ [Elem e]) (tok (mdefault st e)).
Proof.
  intros O. destruct st as [r s]. unfold mdefault, tok. cbn [fst snd].
  destruct (String.eqb_spec s "") as [->|N]; cbn [fst snd].
  - rewrite tokens_of_app. unfold tokens_of at 3. cbn [flat_map chars]. rewrite (tokens_other e O). rewrite !app_nil_r.
    apply drops_refl.
  - rewrite tokens_of_app. unfold tokens_of at 3. cbn [flat_map chars]. rewrite (tokens_other e O).
    rewrite !app_nil_r, <- app_assoc. apply drops_app; [apply drops_refl|].
    destruct e; cbn [tokens]; try apply drops_refl.
    destruct (String.eqb_spec name " -- ") as [->|]; cbn [andb]; [|apply drops_refl].
    destruct (has_suffix s " ") eqn:S; [|apply drops_refl].
    apply stake_last in S. destruct S as (q & -> & ->). rewrite chars_app. rewrite <- app_assoc.
    apply drops_app; [apply drops_refl|]. cbn. apply drops_space. apply drops_refl.
Qed.

Lemma mflat_step_other st e : is_other e = true -> mflat_step st e = mdefault st e.
Proof. destruct e; try discriminate; reflexivity. Qed.
Lemma mstep_other st e : is_other e = true -> mstep e st = mdefault st e.
Proof. destruct e; try discriminate; reflexivity. Qed.

Definition no_slice (e : val) : Prop := match e with VSlice _ => False | _ => True end.

Lemma val_cases e : e = VNil \/ (exists s, e = VStr s) \/ (exists s, e = StringElement s) \/
  (exists l, e = VSlice l) \/ is_other e = true.
Proof. destruct e; cbn; eauto 8. Qed.

Lemma tok_flat_step st e : no_slice e -> drops (tok st ++ tokens e) (tok (mflat_step st e)).
Proof.
  intros NS. destruct (val_cases e) as [->|[[s ->]|[[s ->]|[[l ->]|O]]]].
  - cbn. rewrite app_nil_r. apply drops_refl.
  - cbn. unfold tok. cbn [fst snd]. rewrite chars_app, app_assoc. apply drops_refl.
  - cbn. unfold tok. cbn [fst snd]. rewrite chars_app, app_assoc. apply drops_refl.
  - destruct NS.
  - rewrite mflat_step_other, tokens_other by assumption. now apply tok_default.
Qed.
Lemma tok_flat_loop l : Forall no_slice l -> forall st,
  drops (tok st ++ tokens_of l) (tok (fold_left mflat_step l st)).
Proof.
  induction 1 as [|e l N F IH]; intros st; cbn [fold_left tokens_of flat_map].
  - rewrite app_nil_r. apply drops_refl.
  - eapply drops_trans; [|apply IH]. rewrite app_assoc. apply drops_app; [|apply drops_refl].
    now apply tok_flat_step.
Qed.
Lemma tok_mergeFlat l : Forall no_slice l -> drops (tokens_of l) (tokens_of (mergeFlat l)).
Proof. intros F. unfold mergeFlat. rewrite tok_flush. exact (tok_flat_loop l F ([], "")). Qed.

(** results contain neither slices nor nil nor raw strings *)
Definition atom (e : val) : Prop := is_other e = true \/ exists s, e = StringElement s.
Lemma atom_no_slice e : atom e -> no_slice e.
Proof. intros [H|[s ->]]; [|exact I]. destruct e; try exact I; discriminate. Qed.
Lemma atoms_default st e : Forall atom (fst st) -> is_other e = true -> Forall atom (fst (mdefault st e)).
Proof.
  intros F O. destruct st as [r s]. cbn [fst] in F. unfold mdefault.
  destruct (String.eqb s ""); cbn [fst]; apply Forall_app; split; auto.
  - constructor; [now left|constructor].
  - constructor; [right; eauto|]. constructor; [now left|constructor].
Qed.
Lemma atoms_flush st : Forall atom (fst st) -> Forall atom (mflush st).
Proof.
  intros F. unfold mflush. destruct (String.eqb (snd st) ""); [exact F|]. apply Forall_app. split; [exact F|].
  constructor; [right; eauto|constructor].
Qed.
Lemma atoms_flat_loop l : Forall no_slice l -> forall st, Forall atom (fst st) ->
  Forall atom (fst (fold_left mflat_step l st)).
Proof.
  induction 1 as [|e l N F IH]; intros st H; cbn [fold_left]; [exact H|].
  apply IH. destruct (val_cases e) as [->|[[s ->]|[[s ->]|[[x ->]|O]]]]; try exact H.
  - destruct N.
  - rewrite mflat_step_other by assumption. now apply atoms_default.
Qed.
Lemma atoms_mergeFlat l : Forall no_slice l -> Forall atom (mergeFlat l).
Proof. intros F. apply atoms_flush. apply atoms_flat_loop; [exact F|constructor]. Qed.
Lemma atoms_no_slices l : Forall atom l -> Forall no_slice l.
Proof. apply Forall_impl. apply atom_no_slice. Qed.

Lemma mstep_slice l st : mstep (VSlice l) st =
  match l with [] => st | _ => (mergeFlat (mflush st ++ merge l), "") end.
Proof.
  destruct l; reflexivity.
Qed.

Lemma atoms_mstep_gen : forall n e, vsize e < n -> forall st, Forall atom (fst st) -> Forall atom (fst (mstep e st)).
Proof.
  induction n as [|n IH]; intros e Hn st F; [lia|].
  destruct (val_cases e) as [->|[[s ->]|[[s ->]|[[l ->]|O]]]]; try exact F.
  - rewrite mstep_slice. destruct l as [|x l]; [exact F|]. cbn [fst].
    apply atoms_mergeFlat. apply Forall_app. split; [apply atoms_no_slices, atoms_flush, F|].
    apply atoms_no_slices. unfold merge. apply atoms_flush.
    assert (G : forall k, incl k (x :: l) -> forall s, Forall atom (fst s) -> Forall atom (fst (mloop k s))).
    { induction k as [|y k IHk]; intros Hi s Hs; cbn [mloop]; [exact Hs|].
      apply IHk; [intros z Hz; apply Hi; now right|]. apply IH; [|exact Hs].
      assert (Hy : In y (x :: l)) by (apply Hi; now left).
      pose proof (children_size (VSlice (x :: l)) y Hy). lia. }
    apply G; [apply incl_refl|constructor].
  - rewrite mstep_other by assumption. now apply atoms_default.
Qed.
Lemma atoms_mstep e st : Forall atom (fst st) -> Forall atom (fst (mstep e st)).
Proof. apply (atoms_mstep_gen (S (vsize e))). lia. Qed.
Lemma atoms_mloop l : forall st, Forall atom (fst st) -> Forall atom (fst (mloop l st)).
Proof. induction l as [|x l IH]; intros st F; cbn [mloop]; [exact F|]. apply IH. now apply atoms_mstep. Qed.
Lemma atoms_merge l : Forall atom (merge l).
Proof. apply atoms_flush, atoms_mloop. constructor. Qed.

(** the simplification of the model: on elements that are not slices merge is [mergeFlat] *)
Lemma merge_flat l : Forall no_slice l -> merge l = mergeFlat l.
Proof.
  unfold merge, mergeFlat. intros F. f_equal. generalize (([], "") : mstate) as s.
  induction F as [|e l N F IH]; intros s; cbn [mloop fold_left]; [reflexivity|].
  rewrite IH. f_equal. destruct (val_cases e) as [->|[[x ->]|[[x ->]|[[x ->]|O]]]]; try reflexivity.
  - destruct N.
  - now rewrite mstep_other, mflat_step_other.
Qed.

Lemma tok_mstep_gen : forall n e, vsize e < n -> forall st, Forall atom (fst st) ->
  drops (tok st ++ tokens e) (tok (mstep e st)).
Proof.
  induction n as [|n IH]; intros e Hn st F; [lia|].
  destruct (val_cases e) as [->|[[s ->]|[[s ->]|[[l ->]|O]]]].
  - cbn. rewrite app_nil_r. apply drops_refl.
  - cbn. unfold tok. cbn [fst snd]. rewrite chars_app, app_assoc. apply drops_refl.
  - cbn. unfold tok. cbn [fst snd]. rewrite chars_app, app_assoc. apply drops_refl.
  - rewrite mstep_slice, tokens_slice. destruct l as [|x l].
    + cbn. rewrite app_nil_r. apply drops_refl.
    + assert (G : forall k, incl k (x :: l) -> forall s, Forall atom (fst s) ->
                  drops (tok s ++ tokens_of k) (tok (mloop k s))).
      { induction k as [|y k IHk]; intros Hi s Hs; cbn [mloop tokens_of flat_map].
        - rewrite app_nil_r. apply drops_refl.
        - eapply drops_trans; [|apply IHk; [intros z Hz; apply Hi; now right|now apply atoms_mstep]].
          rewrite app_assoc. apply drops_app; [|apply drops_refl]. apply IH; [|exact Hs].
          assert (Hy : In y (x :: l)) by (apply Hi; now left).
          pose proof (children_size (VSlice (x :: l)) y Hy). lia. }
      set (f := merge (x :: l)).
      assert (D : drops (tokens_of (x :: l)) (tokens_of f)).
      { unfold f, merge. rewrite tok_flush. apply (G (x :: l) (incl_refl _) ([], "")). constructor. }
      assert (NF : Forall no_slice (mflush st ++ f)).
      { apply Forall_app. split; apply atoms_no_slices; [apply atoms_flush, F|apply atoms_merge]. }
      unfold tok at 2. cbn [fst snd chars]. rewrite app_nil_r.
      eapply drops_trans; [|apply (tok_mergeFlat _ NF)].
      rewrite tokens_of_app, tok_flush. apply drops_app; [apply drops_refl|exact D].
  - rewrite mstep_other, tokens_other by assumption. now apply tok_default.
Qed.
Lemma tok_mloop l : forall st, Forall atom (fst st) -> drops (tok st ++ tokens_of l) (tok (mloop l st)).
Proof.
  induction l as [|e l IH]; intros st F; cbn [mloop tokens_of flat_map].
  - rewrite app_nil_r. apply drops_refl.
  - eapply drops_trans; [|apply IH; now apply atoms_mstep]. rewrite app_assoc.
    apply drops_app; [|apply drops_refl]. apply (tok_mstep_gen (S (vsize e))); [lia|exact F].
Qed.
Lemma merge_tokens l : drops (tokens_of l) (tokens_of (merge l)).
Proof. unfold merge. rewrite tok_flush. apply (tok_mloop l ([], "")). constructor. Qed.

(** *** no adjacent strings *)
Definition last_text (l : list val) : bool := match List.rev l with e :: _ => is_text e | [] => false end.
Lemma last_text_snoc l e : last_text (l ++ [e]) = is_text e.
Proof. unfold last_text. now rewrite rev_unit. Qed.
Lemma no_adj_snoc l e : no_adjacent_text l -> (last_text l = true -> is_text e = false) -> no_adjacent_text (l ++ [e]).
Proof.
  induction l as [|a l IH]; intros N L; [exact I|].
  destruct l as [|b l].
  - cbn in *. split; [exact L|exact I].
  - destruct N as [N1 N2]. change ((a :: b :: l) ++ [e]) with (a :: b :: (l ++ [e])). split; [exact N1|].
    apply IH; [exact N2|]. intros H. apply L. unfold last_text in *. cbn [List.rev] in *.
    rewrite <- !app_assoc in *. destruct (List.rev l) as [|z zs]; exact H.
Qed.
Definition settled (st : mstate) : Prop :=
  no_adjacent_text (fst st) /\ (last_text (fst st) = true -> snd st = "").
Definition fresh (st : mstate) : Prop := no_adjacent_text (fst st) /\ last_text (fst st) = false.
Lemma other_not_text e : is_other e = true -> is_text e = false.
Proof. destruct e; try discriminate; reflexivity. Qed.
Lemma fresh_default st e : settled st -> is_other e = true -> fresh (mdefault st e).
Proof.
  intros [N L] O. destruct st as [r s]. cbn [fst snd] in *. unfold mdefault, fresh.
  destruct (String.eqb_spec s "") as [->|Ns]; cbn [fst].
  - rewrite last_text_snoc. split; [|now apply other_not_text]. apply no_adj_snoc; [exact N|].
    intros _. now apply other_not_text.
  - set (c := match e with Symbol _ => _ | _ => _ end).
    replace (r ++ [StringElement c; e]) with ((r ++ [StringElement c]) ++ [e]) by (now rewrite <- app_assoc).
    rewrite last_text_snoc. split; [|now apply other_not_text].
    apply no_adj_snoc; [apply no_adj_snoc; [exact N|]|].
    + intros H. exfalso. apply Ns. now apply L.
    + intros _. now apply other_not_text.
Qed.
Lemma flush_settled st : settled st -> no_adjacent_text (mflush st).
Proof.
  intros [N L]. unfold mflush. destruct (String.eqb_spec (snd st) "") as [E|E]; [exact N|].
  apply no_adj_snoc; [exact N|]. intros H. exfalso. apply E. now apply L.
Qed.
Lemma fresh_settled st : fresh st -> settled st.
Proof. intros [N L]. split; [exact N|]. rewrite L. discriminate. Qed.
Lemma fresh_flat_loop l : Forall no_slice l -> forall st, fresh st -> fresh (fold_left mflat_step l st).
Proof.
  induction 1 as [|e l NS F IH]; intros st H; cbn [fold_left]; [exact H|]. apply IH.
  destruct (val_cases e) as [->|[[s ->]|[[s ->]|[[x ->]|O]]]]; try exact H.
  - destruct NS.
  - rewrite mflat_step_other by assumption. apply fresh_default; [now apply fresh_settled|exact O].
Qed.
Lemma mergeFlat_no_adj l : Forall no_slice l -> no_adjacent_text (mergeFlat l).
Proof.
  intros F. unfold mergeFlat. apply flush_settled, fresh_settled, fresh_flat_loop; [exact F|].
  split; [exact I|reflexivity].
Qed.

(** a slice is followed, if at all, by something that is not text *)
Fixpoint starts_other (l : list val) : Prop :=
  match l with
  | [] => True
  | VNil :: r | VSlice _ :: r => starts_other r
  | VStr _ :: _ | StringElement _ :: _ => False
  | _ => True
  end.
Fixpoint slices_before_elements (l : list val) : Prop :=
  match l with
  | [] => True
  | VSlice _ :: r => starts_other r /\ slices_before_elements r
  | _ :: r => slices_before_elements r
  end.
Lemma sbe_cons e l : slices_before_elements (e :: l) -> slices_before_elements l.
Proof. destruct e; cbn; tauto. Qed.
Lemma mloop_no_adj l : slices_before_elements l -> forall st, Forall atom (fst st) ->
  (fresh st \/ (no_adjacent_text (fst st) /\ snd st = "" /\ starts_other l)) -> settled (mloop l st).
Proof.
  induction l as [|e l IH]; intros S st A H; cbn [mloop].
  - destruct H as [H|(N & B & _)]; [now apply fresh_settled|]. split; [exact N|]. intros _. exact B.
  - apply IH; [now apply sbe_cons in S|now apply atoms_mstep|].
    destruct (val_cases e) as [->|[[s ->]|[[s ->]|[[x ->]|O]]]].
    + cbn. destruct H as [H|H]; [left; exact H|right]. exact H.
    + destruct H as [H|(_ & _ & [])]. left. exact H.
    + destruct H as [H|(_ & _ & [])]. left. exact H.
    + rewrite mstep_slice. destruct S as [S1 S2].
      destruct x as [|y x].
      * destruct H as [H|(N & B & _)]; [now left|right; auto].
      * right. cbn [fst snd]. split; [|auto]. apply mergeFlat_no_adj. apply Forall_app.
        split; apply atoms_no_slices; [apply atoms_flush, A|apply atoms_merge].
    + left. rewrite mstep_other by assumption. apply fresh_default; [|exact O].
      destruct H as [H|(N & B & _)]; [now apply fresh_settled|]. split; [exact N|]. intros _. exact B.
Qed.
Lemma merge_no_adj l : slices_before_elements l -> no_adjacent_text (merge l).
Proof.
  intros S. apply flush_settled, mloop_no_adj; [exact S|constructor|]. left. split; [exact I|reflexivity].
Qed.

(** *** when adjacent strings are left *)
Definition quiet (v : val) : Prop := ~ filled v.
Lemma last_slice l : Forall quiet l \/ exists pre x post, l = pre ++ x :: post /\ filled x /\ Forall quiet post.
Proof.
  induction l as [|e l [IH|(pre & x & post & -> & F & Q)]].
  - left. constructor.
  - destruct e; try (left; constructor; [intros []|exact IH]). destruct l0 as [|y l0]; [left; constructor; [intros []|exact IH]|].
    right. exists [], (VSlice (y :: l0)), l. repeat split. exact IH.
  - right. exists (e :: pre), x, post. auto.
Qed.
Lemma quiet_step e (st : mstate) : quiet e -> e = VNil \/ (exists s, e = VStr s) \/ (exists s, e = StringElement s) \/ e = VSlice [] \/ is_other e = true.
Proof. intros Q. destruct (val_cases e) as [->|[[s ->]|[[s ->]|[[l ->]|O]]]]; eauto 8. destruct l; [auto 6|]. destruct (Q I). Qed.
Lemma mstep_text s st : mstep (VStr s) st = (fst st, (snd st ++ s)%string) /\ mstep (StringElement s) st = (fst st, (snd st ++ s)%string).
Proof. split; reflexivity. Qed.
Lemma default_prefix st e : exists x, fst (mdefault st e) = fst st ++ x.
Proof. destruct st as [r s]. unfold mdefault. cbn [fst]. destruct (String.eqb s ""); eexists; reflexivity. Qed.
Lemma quiet_prefix post : Forall quiet post -> forall st, exists x, mflush (mloop post st) = fst st ++ x.
Proof.
  induction 1 as [|e post Q F IH]; intros st.
  - cbn [mloop]. unfold mflush. destruct (String.eqb (snd st) ""); [exists []; now rewrite app_nil_r|eexists; reflexivity].
  - cbn [mloop]. destruct (IH (mstep e st)) as (x & ->).
    destruct (quiet_step e st Q) as [->|[[s ->]|[[s ->]|[->|O]]]]; try (eexists; reflexivity).
    rewrite (mstep_other st e O). destruct (default_prefix st e) as (y & ->). rewrite <- app_assoc. eexists. reflexivity.
Qed.
Lemma quiet_fresh post : Forall quiet post -> forall st, fresh st -> fresh (mloop post st).
Proof.
  induction 1 as [|e post Q F IH]; intros st H; [exact H|]. cbn [mloop]. apply IH.
  destruct (quiet_step e st Q) as [->|[[s ->]|[[s ->]|[->|O]]]]; try exact H.
  rewrite (mstep_other st e O). apply fresh_default; [now apply fresh_settled|exact O].
Qed.
Lemma quiet_settled post : Forall quiet post -> forall m, no_adjacent_text m -> ~ begins_with_text post -> no_adjacent_text (mflush (mloop post (m, ""))).
Proof.
  induction 1 as [|e post Q F IH]; intros m N B; [exact N|]. cbn [mloop].
  assert (T : forall s, e = VStr s \/ e = StringElement s -> s = "").
  { intros s E. destruct s as [|c s]; [reflexivity|]. exfalso. apply B. exists c. unfold tokens_of. cbn [flat_map]. destruct E as [->| ->]; cbn [tokens chars]; eexists; reflexivity. }
  assert (B' : tokens e = [] -> ~ begins_with_text post).
  { intros E (c & t & X). apply B. exists c, t. unfold tokens_of in *. cbn [flat_map]. now rewrite E, X. }
  destruct (quiet_step e (m, "") Q) as [->|[[s ->]|[[s ->]|[->|O]]]].
  - apply IH; auto.
  - rewrite (T s) in * by auto. apply IH; auto.
  - rewrite (T s) in * by auto. apply IH; auto.
  - apply IH; auto.
  - rewrite (mstep_other _ e O). apply flush_settled, fresh_settled, quiet_fresh; [exact F|]. apply fresh_default; [|exact O]. split; [exact N|reflexivity].
Qed.
Lemma no_adj_mid a x b : no_adjacent_text (a ++ x :: b) -> last_text a = true -> is_text x = false.
Proof.
  induction a as [|y a IH]; intros N L; [discriminate|]. destruct a as [|z a].
  - cbn in N. now apply N.
  - apply IH; [now destruct N|]. unfold last_text in *. cbn [List.rev] in *. rewrite <- !app_assoc in L. destruct (List.rev a); exact L.
Qed.
Lemma quiet_adjacent post : Forall quiet post -> forall m c, c <> "" -> last_text m = true -> ~ no_adjacent_text (mflush (mloop post (m, c))).
Proof.
  induction 1 as [|e post Q F IH]; intros m c C L.
  - cbn [mloop]. unfold mflush. cbn [fst snd]. destruct (String.eqb_spec c ""); [congruence|]. intros N. apply no_adj_mid in N; [discriminate|exact L].
  - cbn [mloop]. assert (A : forall s, (c ++ s)%string <> "") by (destruct c; [congruence|discriminate]).
    destruct (quiet_step e (m, c) Q) as [->|[[s ->]|[[s ->]|[->|O]]]].
    + now apply IH. + now apply IH. + now apply IH. + now apply IH.
    + rewrite (mstep_other _ e O). destruct (quiet_prefix post F (mdefault (m, c) e)) as (x & ->).
      unfold mdefault. destruct (String.eqb_spec c ""); [congruence|]. cbn [fst]. rewrite <- app_assoc. cbn [app]. intros N. apply no_adj_mid in N; [discriminate|exact L].
Qed.
Lemma quiet_begins post : Forall quiet post -> begins_with_text post -> forall m, last_text m = true -> ~ no_adjacent_text (mflush (mloop post (m, ""))).
Proof.
  induction 1 as [|e post Q F IH]; intros (c & t & B) m L; [discriminate|]. cbn [mloop]. unfold tokens_of in B. cbn [flat_map] in B.
  destruct (quiet_step e (m, "") Q) as [->|[[s ->]|[[s ->]|[->|O]]]].
  - apply IH; [now exists c, t|exact L].
  - destruct s as [|x s]; [apply IH; [now exists c, t|exact L]|]. apply quiet_adjacent; [exact F|discriminate|exact L].
  - destruct s as [|x s]; [apply IH; [now exists c, t|exact L]|]. apply quiet_adjacent; [exact F|discriminate|exact L].
  - apply IH; [now exists c, t|exact L].
  - rewrite tokens_other in B by exact O. discriminate.
Qed.
Fixpoint lastt (l : list token) : option token := match l with [] => None | x :: r => match lastt r with None => Some x | s => s end end.
Lemma lastt_snoc l x : lastt (l ++ [x]) = Some x.
Proof. induction l as [|y l IH]; [reflexivity|]. cbn. now rewrite IH. Qed.
Lemma drops_lastt a b : drops a b -> lastt a = lastt b.
Proof.
  induction 1 as [|t a b D IH|a b D IH]; [reflexivity|cbn; now rewrite IH|]. cbn [lastt] in *. rewrite IH. now destruct (lastt b).
Qed.
Lemma lastt_ends l : ends_in_text l <-> exists c, lastt (tokens_of l) = Some (Char c).
Proof.
  split.
  - intros (t & c & ->). exists c. apply lastt_snoc.
  - intros (c & H). unfold ends_in_text. destruct (tokens_of l) as [|x r] using rev_ind; [discriminate|]. rewrite lastt_snoc in H. injection H as ->. eauto.
Qed.
Lemma lastt_app l m : m <> [] -> lastt (l ++ m) = lastt m.
Proof. destruct m as [|x m] using rev_ind; [congruence|]. intros _. now rewrite app_assoc, !lastt_snoc. Qed.
Lemma fresh_last st : fresh st -> Forall atom (fst st) -> (last_text (mflush st) = true <-> exists c, lastt (tok st) = Some (Char c)).
Proof.
  intros [_ L] A. destruct st as [m c]. unfold mflush, tok. cbn [fst snd] in *. destruct (String.eqb_spec c "") as [->|N].
  - cbn [chars]. rewrite app_nil_r, L. split; [discriminate|]. intros (c & H). exfalso. destruct m as [|e m] using rev_ind; [discriminate|].
    rewrite last_text_snoc in L. apply Forall_app in A as [_ A]. inversion A as [|? ? AE]; subst. destruct AE as [O|[s ->]]; [|discriminate].
    rewrite tokens_of_app in H. unfold tokens_of at 2 in H. cbn [flat_map] in H. rewrite tokens_other, app_nil_r, lastt_snoc in H by exact O. discriminate.
  - rewrite last_text_snoc. split; [|reflexivity]. intros _. rewrite lastt_app by (destruct c; [congruence|discriminate]).
    clear - N. destruct c as [|x s]; [congruence|]. clear N. revert x. induction s as [|y s IH]; intros x; [now exists x|].
    destruct (IH y) as (c & H). exists c. change (lastt (chars (String x (String y s)))) with (match lastt (chars (String y s)) with None => Some (Char x) | z => z end). now rewrite H.
Qed.
Theorem merge_adjacent l : ~ no_adjacent_text (merge l) <->
  exists pre x post, l = pre ++ x :: post /\ filled x /\ Forall (fun v => ~ filled v) post /\ ends_in_text (pre ++ [x]) /\ begins_with_text post.
Proof.
  assert (ML : forall a b st, mloop (a ++ b) st = mloop b (mloop a st)) by (induction a; intros; cbn; auto).
  assert (K : forall pre x, filled x -> exists m, mloop (pre ++ [x]) ([], "") = (m, "") /\ no_adjacent_text m /\ (last_text m = true <-> ends_in_text (pre ++ [x]))).
  { intros pre x Fx. destruct x; try destruct Fx. destruct l0 as [|y l0]; [destruct Fx|]. rewrite ML. cbn [mloop]. rewrite mstep_slice.
    set (st0 := mloop pre ([], "")). set (arg := mflush st0 ++ merge (y :: l0)). exists (mergeFlat arg). split; [reflexivity|].
    assert (A0 : Forall atom (fst st0)) by (apply atoms_mloop; constructor).
    assert (NS : Forall no_slice arg) by (apply Forall_app; split; apply atoms_no_slices; [apply atoms_flush, A0|apply atoms_merge]).
    split; [now apply mergeFlat_no_adj|]. unfold mergeFlat. rewrite fresh_last.
    - rewrite lastt_ends. pose proof (tok_mloop (pre ++ [VSlice (y :: l0)]) ([], "") ltac:(constructor)) as D. apply drops_lastt in D.
      unfold tok at 1 in D. cbn [fst snd tokens_of flat_map app chars] in D. rewrite D, ML. cbn [mloop]. rewrite mstep_slice. fold st0. fold arg.
      unfold tok at 2. cbn [fst snd chars]. rewrite app_nil_r. unfold mergeFlat. rewrite tok_flush. reflexivity.
    - apply fresh_flat_loop; [exact NS|]. split; [exact I|reflexivity].
    - apply atoms_flat_loop; [exact NS|constructor]. }
  split.
  - intros N. destruct (last_slice l) as [Q|(pre & x & post & -> & Fx & Q)].
    + destruct N. unfold merge. apply flush_settled, fresh_settled, quiet_fresh; [exact Q|]. split; [exact I|reflexivity].
    + exists pre, x, post. split; [reflexivity|]. split; [exact Fx|]. split; [exact Q|].
      destruct (K pre x Fx) as (m & E & NM & L). unfold merge in N. change (pre ++ x :: post) with (pre ++ [x] ++ post) in N. rewrite app_assoc, ML, E in N.
      destruct (last_text m) eqn:LM.
      * split; [now apply L|]. destruct (tokens_of post) as [|[c|v] t] eqn:T.
        -- destruct N. apply quiet_settled; [exact Q|exact NM|]. intros (c & t & X). congruence.
        -- now exists c, t.
        -- destruct N. apply quiet_settled; [exact Q|exact NM|]. intros (c & t' & X). congruence.
      * destruct N. apply flush_settled, fresh_settled, quiet_fresh; [exact Q|]. split; assumption.
  - intros (pre & x & post & -> & Fx & Q & En & Be). destruct (K pre x Fx) as (m & E & NM & L). unfold merge.
    change (pre ++ x :: post) with (pre ++ [x] ++ post). rewrite app_assoc, ML, E. apply quiet_begins; [exact Q|exact Be|now apply L].
Qed.
