(** Proofs about section numbers. *)
From Verif Require Import GoBase GoLemmas Types Attrs Utf8 Ids Toc Context Aggregate SectNum SectNumSpec
  CtxLemmas.

Lemma last_app {A} (a b : list A) d : last (a ++ b) d = last b (last a d).
Proof.
  induction a as [|x a IH] using rev_ind; [reflexivity|].
  destruct b as [|y b]; [rewrite app_nil_r; reflexivity|].
  rewrite (last_last a x d). clear. revert x y. induction b as [|z b IH] using rev_ind; intros.
  - rewrite last_last. reflexivity.
  - change (y :: b ++ [z]) with ((y :: b) ++ [z]). rewrite app_assoc, !last_last. reflexivity.
Qed.

Lemma state_after_app en a b : state_after en (a ++ b) = state_after (state_after en a) b.
Proof. unfold state_after. rewrite flat_map_app. apply last_app. Qed.
Lemma state_after_cons en x b : state_after en (x :: b) = state_after (state_after en [x]) b.
Proof. apply (state_after_app en [x] b). Qed.

Lemma traverse_section l a t els en prefix c :
  traverse (Section l a t els) en prefix c =
  let c' := if en then (c + 1)%N else c in
  let n := if en then (prefix ++ itoaN c')%string else "" in
  let '(m, en') := traverse_list els en (n ++ ".") 0%N in
  ((if en then [(sectionID (Section l a t els), n)] else []) ++ m, en', c').
Proof.
  cbn [traverse]. cbv zeta.
  set (n := if en then _ else _).
  assert (G : forall els en c, (fix loop (l : list val) (en : bool) (c : N) : gomap string * bool :=
        match l with
        | [] => ([], en)
        | x :: r =>
            let '(m1, en1, c1) := traverse x en (n ++ ".")%string c in
            let '(m2, en2) := loop r en1 c1 in
            (m1 ++ m2, en2)
        end) els en c = traverse_list els en (n ++ ".") c).
  { intros els0. clearbody n. clear. induction els0 as [|x r IH]; intros en0 c0; cbn; [reflexivity|].
    destruct (traverse x en0 (n ++ ".")%string c0) as [[m1 en1] c1]. now rewrite IH. }
  rewrite G. destruct (traverse_list els en (n ++ ".") 0%N). reflexivity.
Qed.

(** state and counter *)
Definition rank (v : val) (en : bool) : N :=
  match v with Section _ _ _ _ => if en then 1 else 0 | _ => 0 end.

Lemma traverse_state : forall v en prefix c,
  snd (fst (traverse v en prefix c)) = state_after en [v] /\
  snd (traverse v en prefix c) = (c + rank v en)%N.
Proof.
  apply (val_ind_children (fun v => forall en prefix c,
    snd (fst (traverse v en prefix c)) = state_after en [v] /\
    snd (traverse v en prefix c) = (c + rank v en)%N)).
  intros v IH en prefix c. destruct v; try (cbn; rewrite N.add_0_r; auto; fail).
  - rewrite traverse_section. cbv zeta.
    set (n := if en then _ else _).
    assert (G : forall els, (forall x, In x els -> In x elements) -> forall en p c,
              snd (traverse_list els en p c) = state_after en els).
    { induction els as [|x r IHr]; intros HI en0 p c0; [reflexivity|].
      cbn [traverse_list]. 
      assert (HX : In x (children (Section level attrs title elements)))
        by (cbn; apply in_or_app; right; apply in_or_app; left; apply HI; left; reflexivity).
      destruct (IH x HX en0 p c0) as [H1 _].
      destruct (traverse x en0 p c0) as [[m1 en1] c1]. cbn [fst snd] in H1.
      assert (HR : forall y, In y r -> In y elements) by (intros y Hy; apply HI; now right).
      specialize (IHr HR en1 p c1). destruct (traverse_list r en1 p c1) as [m2 en2].
      cbn [snd] in *. rewrite IHr, H1. symmetry. apply state_after_cons. }
    specialize (G elements (fun x H => H) en (n ++ ".")%string 0%N).
    destruct (traverse_list elements en (n ++ ".") 0%N) as [m en']. cbn [fst snd] in *.
    split.
    + rewrite G. unfold state_after. cbn [flat_map switches]. now rewrite app_nil_r.
    + cbn [rank]. destruct en; [reflexivity|now rewrite N.add_0_r].
  - cbn [traverse fst snd rank]. rewrite N.add_0_r. split; [|reflexivity].
    unfold state_after, toggles_numbering. cbn [flat_map switches].
    change (is_switch name) with (String.eqb name AttrSectionNumbering || String.eqb name AttrNumbered).
    destruct (String.eqb name AttrSectionNumbering || String.eqb name AttrNumbered); cbn;
      [apply orb_true_r|apply orb_false_r].
  - cbn [traverse fst snd rank]. rewrite N.add_0_r. split; [|reflexivity].
    unfold state_after, toggles_numbering. cbn [flat_map switches].
    change (is_switch name) with (String.eqb name AttrSectionNumbering || String.eqb name AttrNumbered).
    destruct (String.eqb name AttrSectionNumbering || String.eqb name AttrNumbered); cbn;
      [apply andb_false_r|apply andb_true_r].
Qed.

Lemma numbered_siblings_app en a b :
  numbered_siblings en (a ++ b) =
  (numbered_siblings en a + numbered_siblings (state_after en a) b)%N.
Proof.
  revert en. induction a as [|x a IH]; intros en; [reflexivity|].
  cbn [app numbered_siblings]. rewrite IH, (state_after_cons en x a). lia.
Qed.

(** the writes of [traverse_list], with a counter that starts at [c] *)
Inductive sn : bool -> N -> string -> list val -> string -> string -> Prop :=
| sn_here en c prefix pre l a t sub post id :
    state_after en pre = true ->
    mget a "id" = Some (VStr id) ->
    sn en c prefix (pre ++ Section l a t sub :: post) id
      (prefix ++ itoaN (c + 1 + numbered_siblings en pre))
| sn_inside en c prefix pre l a t sub post id n :
    sn (state_after en pre) 0%N
      (if state_after en pre
       then prefix ++ itoaN (c + 1 + numbered_siblings en pre) ++ "."
       else ".")%string
      sub id n ->
    sn en c prefix (pre ++ Section l a t sub :: post) id n.

Lemma sn_section_number en prefix els id n :
  sn en 0%N prefix els id n <-> section_number en prefix els id n.
Proof.
  split.
  - intros H. remember 0%N as c eqn:EC. induction H; subst c.
    + rewrite N.add_0_l. now constructor.
    + rewrite N.add_0_l in IHsn. constructor. now apply IHsn.
  - induction 1.
    + replace (1 + numbered_siblings en pre)%N with (0 + 1 + numbered_siblings en pre)%N by lia. now constructor.
    + constructor. rewrite N.add_0_l. exact IHsection_number.
Qed.

Lemma sn_cons en c prefix x r id n :
  sn en c prefix (x :: r) id n <->
  (match x with
   | Section l a t sub =>
       (en = true /\ mget a "id" = Some (VStr id) /\ n = (prefix ++ itoaN (c + 1))%string) \/
       sn en 0%N (if en then prefix ++ itoaN (c + 1) ++ "." else ".")%string sub id n
   | _ => False
   end) \/ sn (state_after en [x]) (c + rank x en)%N prefix r id n.
Proof.
  split.
  - intros H. remember (x :: r) as els eqn:E1.
    destruct H as [en c prefix pre l a t sub post id HS HI|en c prefix pre l a t sub post id n HS].
    + destruct pre as [|y pre].
      * cbn in E1. injection E1 as E1 E2; subst x r. left. left. cbn in HS.
        change (numbered_siblings en []) with 0%N. rewrite N.add_0_r. auto.
      * cbn in E1. injection E1 as E1 E2; subst x r. right.
        replace (c + 1 + numbered_siblings en (y :: pre))%N
          with (c + rank y en + 1 + numbered_siblings (state_after en [y]) pre)%N.
        -- constructor; [|exact HI]. now rewrite <- state_after_cons.
        -- cbn [numbered_siblings]. unfold rank. lia.
    + destruct pre as [|y pre].
      * cbn in E1. injection E1 as E1 E2; subst x r. left. right. cbn in HS.
        rewrite N.add_0_r in HS. exact HS.
      * cbn in E1. injection E1 as E1 E2; subst x r. right.
        constructor. rewrite <- state_after_cons.
        replace (c + rank y en + 1 + numbered_siblings (state_after en [y]) pre)%N
          with (c + 1 + numbered_siblings en (y :: pre))%N; [exact HS|].
        cbn [numbered_siblings]. unfold rank. lia.
  - intros [H|H].
    + destruct x; try contradiction. destruct H as [(-> & HI & ->)|H].
      * replace (c + 1)%N with (c + 1 + numbered_siblings true [])%N by (cbn; lia).
        apply (sn_here true c prefix [] level attrs title elements r); auto.
      * apply (sn_inside en c prefix [] level attrs title elements r).
        change (state_after en []) with en. change (numbered_siblings en []) with 0%N.
        rewrite N.add_0_r. exact H.
    + inversion H; subst.
      * replace (c + rank x en + 1 + numbered_siblings (state_after en [x]) pre)%N
          with (c + 1 + numbered_siblings en (x :: pre))%N
          by (cbn [numbered_siblings]; unfold rank; lia).
        apply (sn_here en c prefix (x :: pre)); [|assumption]. now rewrite state_after_cons.
      * apply (sn_inside en c prefix (x :: pre)). rewrite state_after_cons.
        replace (c + 1 + numbered_siblings en (x :: pre))%N
          with (c + rank x en + 1 + numbered_siblings (state_after en [x]) pre)%N
          by (cbn [numbered_siblings]; unfold rank; lia).
        assumption.
Qed.

Definition all_ids (els : list val) : Prop :=
  (fix all (l : list val) : Prop :=
         match l with [] => True | x :: r => all_have_ids x /\ all r end) els.
Lemma all_ids_forall els : all_ids els <-> Forall all_have_ids els.
Proof.
  induction els as [|x r IH]; cbn; [split; constructor|]. rewrite IH. split.
  - intros [H1 H2]; now constructor.
  - intros H; inversion H; auto.
Qed.

Lemma traverse_list_writes n : forall els, (sizes els < n)%nat -> Forall all_have_ids els ->
  forall en prefix c id num,
  In (id, num) (fst (traverse_list els en prefix c)) <-> sn en c prefix els id num.
Proof.
  induction n as [|n IHn]; intros els HL HA en prefix c id num; [lia|].
  revert HL HA en c. induction els as [|x r IHr]; intros HL HA en c.
  - cbn. split; [intros []|]. intros H. inversion H; destruct pre; discriminate.
  - rewrite sn_cons. cbn [traverse_list].
    assert (LX : (0 < vsize x)%nat) by (destruct x; cbn; lia).
    cbn [sizes] in HL. inversion HA as [|? ? HA1 HA2]; subst.
    destruct (traverse_state x en prefix c) as [S1 S2].
    destruct (traverse x en prefix c) as [[m1 en1] c1] eqn:TX. cbn [fst snd] in S1, S2. subst en1 c1.
    assert (LR : (sizes r < S n)%nat) by lia.
    specialize (IHr LR HA2 (state_after en [x]) (c + rank x en)%N).
    destruct (traverse_list r (state_after en [x]) prefix (c + rank x en)) as [m2 en2]. cbn [fst] in *.
    rewrite in_app_iff, IHr. apply or_iff_compat_r.
    destruct x; try (assert (E0 : m1 = []) by (cbn [traverse] in TX; congruence); subst m1; cbn; tauto).
    + rewrite traverse_section in TX. cbv zeta in TX.
      cbn in HA1. destruct HA1 as [(sid & HS) HAS]. change (all_ids elements) in HAS.
      apply all_ids_forall in HAS.
      assert (LE : (sizes elements < n)%nat).
      { cbn [vsize] in HL. fold sizes in HL. fold asizes in HL. lia. }
      set (nn := if en then _ else _) in TX.
      pose proof (IHn elements LE HAS en (nn ++ ".")%string 0%N id num) as IHe.
      destruct (traverse_list elements en (nn ++ ".") 0%N) as [m e3]. cbn [fst] in IHe.
      assert (E0 : m1 = (if en then [(sectionID (Section level attrs title elements), nn)] else []) ++ m)
        by congruence. subst m1. rewrite in_app_iff, IHe.
      assert (EQ : (nn ++ ".")%string = (if en then prefix ++ itoaN (c + 1) ++ "." else ".")%string).
      { unfold nn. destruct en; [now rewrite sapp_assoc|reflexivity]. }
      rewrite EQ. apply or_iff_compat_r. unfold nn. destruct en.
      * cbn [sectionID In]. unfold getAsString. change AttrID with "id". rewrite HS. split.
        -- intros [E|[]]. injection E as <- <-. auto.
        -- intros (_ & E & ->). left. congruence.
      * cbn. split; [tauto|]. intros (E & _). discriminate.
Qed.

Definition all_section_ids (els : list val) : list string := flat_map section_ids els.

Lemma traverse_list_keys n : forall els, (sizes els < n)%nat -> Forall all_have_ids els ->
  forall en prefix c, exists keep,
  mkeys (fst (traverse_list els en prefix c)) = keep /\
  (NoDup (all_section_ids els) -> NoDup keep) /\ incl keep (all_section_ids els).
Proof.
  induction n as [|n IHn]; intros els HL HA en prefix c; [lia|].
  revert HL HA en c. induction els as [|x r IHr]; intros HL HA en c.
  - exists []. split; [reflexivity|]. split; [intros _; constructor|intros ? []].
  - cbn [traverse_list].
    assert (LX : (0 < vsize x)%nat) by (destruct x; cbn; lia).
    cbn [sizes] in HL. inversion HA as [|? ? HA1 HA2]; subst.
    destruct (traverse x en prefix c) as [[m1 en1] c1] eqn:TX.
    assert (LR : (sizes r < S n)%nat) by lia.
    destruct (IHr LR HA2 en1 c1) as (k2 & E2 & N2 & I2).
    destruct (traverse_list r en1 prefix c1) as [m2 en2]. cbn [fst] in *.
    assert (G : (NoDup (section_ids x) -> NoDup (mkeys m1)) /\ incl (mkeys m1) (section_ids x)).
    { destruct x; try (assert (E0 : m1 = []) by (cbn [traverse] in TX; congruence); subst m1; cbn; split; [constructor|intros ? []]).
      rewrite traverse_section in TX. cbv zeta in TX.
      cbn in HA1. destruct HA1 as [(sid & HS) HAS]. change (all_ids elements) in HAS.
      apply all_ids_forall in HAS.
      assert (LE : (sizes elements < n)%nat).
      { cbn [vsize] in HL. fold sizes in HL. fold asizes in HL. lia. }
      set (nn := if en then _ else _) in TX.
      destruct (IHn elements LE HAS en (nn ++ ".")%string 0%N) as (k & E & NK & IK).
      destruct (traverse_list elements en (nn ++ ".") 0%N) as [m e3]. cbn [fst] in E.
      assert (E0 : m1 = (if en then [(sectionID (Section level attrs title elements), nn)] else []) ++ m)
        by congruence. subst m1. cbn [section_ids]. rewrite HS. unfold mkeys in *. rewrite map_app, E.
      destruct en; cbn [map app sectionID fst].
      - unfold getAsString. change AttrID with "id". rewrite HS. split.
        + intros H. inversion H as [|? ? H1 H2]; subst. constructor; auto.
        + intros y [->|Hy]; [left; reflexivity|right; auto].
      - split.
        + intros H. inversion H as [|? ? H1 H2]; subst. auto.
        + intros y Hy. right; auto. }
    destruct G as [G1 G2]. exists (mkeys m1 ++ k2). unfold mkeys in *. rewrite map_app, E2.
    split; [reflexivity|]. unfold all_section_ids. cbn [flat_map]. split.
    + intros H. apply NoDup_app_iff in H. destruct H as (H1 & H2 & H3).
      apply NoDup_app_iff. repeat split; auto.
      intros y Hy1 Hy2. apply (H3 y); [apply G2, Hy1|apply I2, Hy2].
    + intros y Hy. apply in_app_iff in Hy. apply in_app_iff. destruct Hy; [left; auto|right; auto].
Qed.

Lemma mget_fold_nodup {V} (l : list (string * V)) k : NoDup (mkeys l) ->
  mget (fold_left (fun acc kv => mset acc (fst kv) (snd kv)) l []) k = mget l k.
Proof. intros H. rewrite mget_fold_mset, last_assoc_mget by exact H. cbn. now destruct (mget l k). Qed.

Lemma traverseElements_spec els en prefix :
  Forall all_have_ids els -> NoDup (all_section_ids els) ->
  forall id n, mget (fst (traverseElements els en prefix)) id = Some n <->
               section_number en prefix els id n.
Proof.
  intros HA ND id n. unfold traverseElements.
  pose proof (traverse_list_writes (S (sizes els)) els (Nat.lt_succ_diag_r _) HA en prefix 0%N id n) as W.
  destruct (traverse_list_keys (S (sizes els)) els (Nat.lt_succ_diag_r _) HA en prefix 0%N) as (k & E & NK & _).
  destruct (traverse_list els en prefix 0%N) as [m e]. cbn [fst] in *.
  specialize (NK ND). subst k. rewrite mget_fold_nodup by exact NK.
  rewrite <- sn_section_number, <- W. split.
  - apply mget_In.
  - intros H. now apply In_mget.
Qed.

Lemma traverseElements_state els en prefix : snd (traverseElements els en prefix) = state_after en els.
Proof.
  unfold traverseElements.
  assert (G : forall els en c, snd (traverse_list els en prefix c) = state_after en els).
  { induction els0 as [|x r IH]; intros e c; [reflexivity|]. cbn [traverse_list].
    destruct (traverse_state x e prefix c) as [S1 S2].
    destruct (traverse x e prefix c) as [[m1 en1] c1]. cbn [fst snd] in *. subst.
    specialize (IH (state_after e [x]) (c + rank x e)%N). destruct (traverse_list r _ _ _). cbn in *.
    rewrite IH. symmetry. apply state_after_cons. }
  specialize (G els en 0%N). destruct (traverse_list els en prefix 0%N). exact G.
Qed.

(** *** documents that never switch numbering *)
Definition no_switch (els : list val) : Prop := flat_map switches els = [].

Lemma no_switch_app a b : no_switch (a ++ b) <-> no_switch a /\ no_switch b.
Proof. unfold no_switch. rewrite flat_map_app. split; [apply app_eq_nil|]. intros [-> ->]. reflexivity. Qed.

Lemma no_switch_state en els : no_switch els -> state_after en els = en.
Proof. unfold no_switch, state_after. now intros ->. Qed.

Lemma no_switch_siblings els : no_switch els ->
  numbered_siblings true els =
  N.of_nat (List.length (filter (fun v => match v with Section _ _ _ _ => true | _ => false end) els)).
Proof.
  induction els as [|x r IH]; intros H; [reflexivity|].
  change (x :: r) with ([x] ++ r) in H. apply no_switch_app in H. destruct H as [H1 H2].
  cbn [numbered_siblings]. rewrite no_switch_state by exact H1. rewrite IH by exact H2.
  destruct x; cbn [filter List.length]; lia.
Qed.

Lemma no_switch_section pre l a t sub post :
  no_switch (pre ++ Section l a t sub :: post) -> no_switch pre /\ no_switch sub.
Proof.
  intros H. apply no_switch_app in H. destruct H as [H1 H2]. split; [exact H1|].
  change (Section l a t sub :: post) with ([Section l a t sub] ++ post) in H2.
  apply no_switch_app in H2. destruct H2 as [H2 _]. unfold no_switch in *. cbn in H2.
  now rewrite app_nil_r in H2.
Qed.

Definition prefixed (prefix : string) (p : list N) : string := (prefix ++ dotted p)%string.

Lemma dotted_cons x p : p <> [] -> dotted (x :: p) = (itoaN x ++ "." ++ dotted p)%string.
Proof. destruct p; [congruence|reflexivity]. Qed.

Lemma section_at_nonempty els id p : section_at els id p -> p <> [].
Proof. destruct 1; discriminate. Qed.

Lemma section_number_at els id n : forall prefix, no_switch els ->
  section_number true prefix els id n <-> exists p, section_at els id p /\ n = prefixed prefix p.
Proof.
  intros prefix NS. split.
  - intros H. remember true as en eqn:EN. induction H; subst en.
    + destruct (no_switch_section _ _ _ _ _ _ NS) as [N1 N2].
      rewrite no_switch_siblings by exact N1.
      eexists. split; [now constructor|]. reflexivity.
    + destruct (no_switch_section _ _ _ _ _ _ NS) as [N1 N2].
      rewrite (no_switch_state true pre N1) in *.
      destruct (IHsection_number N2 eq_refl) as (p & HP & ->).
      eexists. split; [apply at_inside; exact HP|].
      unfold prefixed. rewrite dotted_cons by (eapply section_at_nonempty; exact HP).
      rewrite no_switch_siblings by exact N1. now rewrite !sapp_assoc.
  - intros (p & HP & ->). revert prefix NS. induction HP; intros prefix NS.
    + destruct (no_switch_section _ _ _ _ _ _ NS) as [N1 N2].
      unfold prefixed, dotted. cbn [map join]. rewrite <- no_switch_siblings by exact N1.
      constructor; [now apply no_switch_state|assumption].
    + destruct (no_switch_section _ _ _ _ _ _ NS) as [N1 N2].
      apply number_inside. rewrite (no_switch_state true pre N1).
      unfold prefixed. rewrite dotted_cons by (eapply section_at_nonempty; exact HP).
      rewrite no_switch_siblings by exact N1.
      match goal with |- section_number _ ?p _ _ _ => pose proof (IHHP p N2) as H end.
      unfold prefixed in H. rewrite !sapp_assoc in H. exact H.
Qed.

Lemma section_number_off els id n prefix : no_switch els -> ~ section_number false prefix els id n.
Proof.
  intros NS H. remember false as en eqn:EN. induction H; subst en.
  - destruct (no_switch_section _ _ _ _ _ _ NS) as [N1 N2]. rewrite no_switch_state in H by exact N1. discriminate.
  - destruct (no_switch_section _ _ _ _ _ _ NS) as [N1 N2]. rewrite (no_switch_state _ _ N1) in *. auto.
Qed.

(** *** numbers are read back *)
Fixpoint schar_in (c : ascii) (s : string) : Prop :=
  match s with EmptyString => False | String d r => d = c \/ schar_in c r end.

Lemma digit_not_dot d : (d < 10)%N -> digit_ascii d <> "."%char.
Proof.
  intros H E. apply (f_equal N_of_ascii) in E. unfold digit_ascii in E.
  rewrite N_ascii_embedding in E by lia. change (N_of_ascii ".") with 46%N in E. lia.
Qed.
Lemma digits_no_dot fuel n acc : ~ schar_in "." acc -> ~ schar_in "." (digits_fuel fuel n acc).
Proof.
  revert n acc. induction fuel as [|f IH]; intros n acc H; cbn [digits_fuel]; [exact H|].
  assert (G : ~ schar_in "." (String (digit_ascii (n mod 10)) acc)).
  { cbn. intros [E|E]; [|tauto]. revert E. apply digit_not_dot. apply N.mod_lt. lia. }
  destruct (n <? 10)%N; [exact G|]. now apply IH.
Qed.
Lemma itoaN_no_dot n : ~ schar_in "." (itoaN n).
Proof. unfold itoaN. apply digits_no_dot. tauto. Qed.

Lemma split_char_app sep a b : ~ schar_in sep a ->
  split_char sep (a ++ String sep b) = a :: split_char sep b.
Proof.
  induction a as [|c a IH]; cbn; intros H.
  - now rewrite Ascii.eqb_refl.
  - destruct (Ascii.eqb_spec c sep) as [->|N]; [tauto|]. rewrite IH by tauto. reflexivity.
Qed.
Lemma split_char_none sep a : ~ schar_in sep a -> split_char sep a = [a].
Proof.
  induction a as [|c a IH]; cbn; intros H; [reflexivity|].
  destruct (Ascii.eqb_spec c sep) as [->|N]; [tauto|]. now rewrite IH by tauto.
Qed.
Lemma split_dotted p : p <> [] -> split_char "." (dotted p) = map itoaN p.
Proof.
  induction p as [|x p IH]; intros H; [congruence|].
  destruct p as [|y p].
  - cbn. apply split_char_none, itoaN_no_dot.
  - rewrite dotted_cons by discriminate. cbn [append].
    rewrite split_char_app by apply itoaN_no_dot. rewrite IH by discriminate. reflexivity.
Qed.
Lemma dotted_inj p q : p <> [] -> q <> [] -> dotted p = dotted q -> p = q.
Proof.
  intros HP HQ E. apply (f_equal (split_char ".")) in E.
  rewrite !split_dotted in E by assumption. clear HP HQ. revert q E.
  induction p as [|x p IH]; intros [|y q] E; cbn in E; try discriminate; [reflexivity|].
  injection E as E1 E2. apply itoaN_inj in E1. subst. f_equal. auto.
Qed.

Definition is_section (v : val) : bool := match v with Section _ _ _ _ => true | _ => false end.
Lemma nth_section_unique pre l a t sub post pre' l' a' t' sub' post' :
  pre ++ Section l a t sub :: post = pre' ++ Section l' a' t' sub' :: post' ->
  List.length (filter is_section pre) = List.length (filter is_section pre') ->
  Section l a t sub = Section l' a' t' sub'.
Proof.
  revert pre'. induction pre as [|x pre IH]; intros pre' E L.
  - destruct pre' as [|y pre']; cbn in E; [now injection E as -> -> -> -> _|].
    injection E as <- E. cbn in L. discriminate.
  - destruct pre' as [|y pre']; cbn in E.
    + injection E as -> E. cbn in L. discriminate.
    + injection E as -> E. apply (IH pre' E). cbn in L. destruct (is_section y); cbn in L; congruence.
Qed.

Lemma head_inj2 (x y : N) p q : x :: p = y :: q -> x = y /\ p = q.
Proof. now intros [= -> ->]. Qed.
Lemma head_inj (x y : N) : [x] = [y] -> x = y.
Proof. now intros [= ->]. Qed.
Lemma section_at_unique els id p : section_at els id p -> forall id', section_at els id' p -> id = id'.
Proof.
  induction 1 as [pre l a t sub post id HI|pre l a t sub post id p HP IH]; intros id' H'.
  - remember (pre ++ Section l a t sub :: post) as els eqn:EE.
    remember [(1 + _)%N] as p eqn:EP.
    destruct H' as [pre' l' a' t' sub' post' id' HI'|pre' l' a' t' sub' post' id' p' HP'].
    + apply head_inj in EP. assert (X := nth_section_unique _ _ _ _ _ _ _ _ _ _ _ _ (eq_sym EE)).
      specialize (X ltac:(unfold is_section; lia)). injection X as -> -> -> ->. congruence.
    + apply head_inj2 in EP. destruct EP as [_ ->]. now apply section_at_nonempty in HP'.
  - remember (pre ++ Section l a t sub :: post) as els eqn:EE.
    remember (_ :: p) as q eqn:EP.
    destruct H' as [pre' l' a' t' sub' post' id' HI'|pre' l' a' t' sub' post' id' p' HP'].
    + apply head_inj2 in EP. destruct EP as [_ <-]. now apply section_at_nonempty in HP.
    + apply head_inj2 in EP. destruct EP as [EP ->].
      assert (X := nth_section_unique _ _ _ _ _ _ _ _ _ _ _ _ (eq_sym EE)).
      specialize (X ltac:(unfold is_section; lia)). injection X as -> -> -> ->. auto.
Qed.

Lemma numbers_distinct els id id' n : no_switch els ->
  section_number true "" els id n -> section_number true "" els id' n -> id = id'.
Proof.
  intros NS H H'. apply section_number_at in H, H'; try exact NS.
  destruct H as (p & HP & ->), H' as (q & HQ & E). unfold prefixed in E. cbn in E.
  apply dotted_inj in E; eauto using section_at_nonempty. subst q.
  eapply section_at_unique; eassumption.
Qed.

Lemma section_at_total_n n : forall els id, (sizes els < n)%nat -> Forall all_have_ids els ->
  In id (flat_map section_ids els) -> exists p, section_at els id p.
Proof.
  induction n as [|n IH]; intros els id HL HA HI; [lia|].
  apply in_flat_map in HI. destruct HI as (x & HX & HI).
  apply in_split in HX. destruct HX as (pre & post & ->).
  destruct x; try destruct HI. cbn [section_ids] in HI.
  rewrite Forall_forall in HA. pose proof (HA _ (in_elt _ _ _)) as HS. cbn in HS.
  destruct HS as [(sid & HS) HAS]. change (all_ids elements) in HAS. apply all_ids_forall in HAS.
  rewrite HS in HI. destruct HI as [->|HI].
  - eexists. apply at_here. exact HS.
  - destruct (IH elements id) as (p & HP); auto.
    + assert (X : (vsize (Section level attrs title elements) <= sizes (pre ++ Section level attrs title elements :: post))%nat)
        by (apply in_sizes, in_elt).
      cbn [vsize] in X. fold sizes in X. fold asizes in X. lia.
    + eexists. apply at_inside. exact HP.
Qed.
Lemma section_at_total els id : Forall all_have_ids els ->
  In id (flat_map section_ids els) -> exists p, section_at els id p.
Proof. intros. eapply section_at_total_n; eauto. Qed.
