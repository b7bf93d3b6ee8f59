(** Proofs about included lines (ranges, tags), level offsets and delimiters. *)
From Coq Require Import Sorting.Sorted.
From Verif Require Import GoBase GoLemmas Types Attrs Context Cond Include Preprocess PreSpec.

(** ** line ranges *)
Definition by_start (a b : linerange) : Prop := (lr_start a <= lr_start b)%Z.

Lemma in_range_b n r :
  ((lr_start r <=? n) && ((n <=? lr_end r) || (lr_end r =? -1)))%Z = true <-> in_range n r.
Proof.
  unfold in_range. rewrite andb_true_iff, orb_true_iff, !Z.leb_le, Z.eqb_eq. tauto.
Qed.

Lemma lr_match_sorted rs n : StronglySorted by_start rs -> lr_match rs n = true <-> in_some_range n rs.
Proof.
  induction 1 as [|r rs HS IH HF]; cbn [lr_match].
  - split; [discriminate|]. intros (r & [] & _).
  - destruct (_ && _)%Z eqn:E.
    + apply in_range_b in E. split; [|reflexivity]. intros _. exists r. split; [left; reflexivity|exact E].
    + assert (NR : ~ in_range n r) by (intros X; apply in_range_b in X; congruence).
      destruct (Z.ltb_spec n (lr_start r)) as [L|L].
      * split; [discriminate|]. intros (x & HX & H1 & _). exfalso.
        destruct HX as [<-|HX]; [lia|]. rewrite Forall_forall in HF. apply HF in HX.
        unfold by_start in HX. lia.
      * rewrite IH. split; intros (x & HX & HR).
        -- exists x. split; [right; exact HX|exact HR].
        -- destruct HX as [<-|HX]; [contradiction|]. exists x. auto.
Qed.

Lemma lr_insert_perm x l : Permutation (x :: l) (lr_insert x l).
Proof.
  induction l as [|y l IH]; cbn; [reflexivity|]. destruct (_ <? _)%Z; [|reflexivity].
  rewrite <- IH. constructor.
Qed.
Lemma newLineRanges_perm l : Permutation l (newLineRanges l).
Proof.
  induction l as [|x l IH]; cbn; [reflexivity|]. rewrite <- lr_insert_perm. now constructor.
Qed.
Lemma lr_insert_sorted x l : StronglySorted by_start l -> StronglySorted by_start (lr_insert x l).
Proof.
  induction 1 as [|y l HS IH HF]; cbn.
  - repeat constructor.
  - destruct (Z.ltb_spec (lr_start y) (lr_start x)) as [L|L].
    + constructor; [exact IH|]. eapply Permutation_Forall; [apply lr_insert_perm|].
      constructor; [unfold by_start; lia|exact HF].
    + constructor; [constructor; auto|]. constructor; [exact L|].
      eapply Forall_impl; [|exact HF]. unfold by_start. intros; lia.
Qed.
Lemma newLineRanges_sorted l : StronglySorted by_start (newLineRanges l).
Proof. induction l as [|x l IH]; cbn; [constructor|]. now apply lr_insert_sorted. Qed.

Lemma hasTag_iff items : hasTag items = true <-> has_directive items.
Proof.
  unfold hasTag. rewrite existsb_exists. split.
  - intros (x & HX & H). destruct x as [s|t|t]; [discriminate|exists t; auto|exists t; auto].
  - intros (t & [H|H]); eexists; (split; [exact H|reflexivity]).
Qed.

Section Read.
  Variable fileLine : string -> option (list lineitem).
  (** lines whose number is in a range and that carry no tag directive *)
  Definition wanted_line (rs : list linerange) (n : Z) (l : string) : Prop :=
    in_some_range n rs /\ exists items, fileLine l = Some items /\ ~ has_directive items.

  Lemma readWithinLines_kept rs rs' : Permutation rs rs' -> StronglySorted by_start rs' ->
    forall lines n, Forall (fun l => fileLine l <> None) lines ->
    exists out, readWithinLines fileLine rs' lines n = Ok out /\ kept (wanted_line rs) (n + 1)%Z lines out.
  Proof.
    intros HP HS lines. induction lines as [|l r IH]; intros n HF; cbn [readWithinLines].
    - exists "". split; [reflexivity|constructor].
    - inversion HF as [|? ? H1 H2]; subst.
      destruct (fileLine l) as [items|] eqn:FL; [|congruence].
      destruct (IH (n + 1)%Z H2) as (out & E & K). rewrite E. cbn [bind].
      assert (SR : in_some_range (n + 1) rs <-> in_some_range (n + 1) rs').
      { unfold in_some_range. split; intros (x & HX & HR); exists x; (split; [|exact HR]).
        - eapply Permutation_in; eauto.
        - eapply Permutation_in; [apply Permutation_sym; exact HP|exact HX]. }
      destruct (hasTag items) eqn:HT.
      + exists out. split; [reflexivity|]. apply kept_no; [|exact K].
        intros (_ & items' & E' & ND). apply hasTag_iff in HT. congruence.
      + destruct (lr_match rs' (n + 1)) eqn:LM.
        * eexists. split; [reflexivity|]. apply kept_yes; [|exact K]. split.
          -- apply SR. now apply lr_match_sorted.
          -- exists items. split; [exact FL|]. intros X. apply hasTag_iff in X. congruence.
        * exists out. split; [reflexivity|]. apply kept_no; [|exact K].
          intros (X & _). apply SR in X. apply lr_match_sorted in X; congruence.
  Qed.

  (** ** tags *)
  (** the table of tags after the directives [evs] *)
  Definition tag_table (evs : list tagev) (cur : gomap curtag) : Prop :=
    forall t, (exists c, mget cur t = Some c /\ cr_end c = (-1)%Z) <-> tag_open evs t.
  Definition tag_known (evs : list tagev) (cur : gomap curtag) : Prop :=
    forall t, mhas cur t = true <-> exists e, In e evs /\ tag_of e = t.

  Lemma tag_open_snoc_open evs t t' : tag_open (evs ++ [TOpen t]) t' <-> t' = t \/ tag_open evs t'.
  Proof.
    split.
    - intros (a & b & E & F). destruct b as [|x b] using rev_ind.
      + apply app_inj_tail in E. destruct E as [_ E]. left. congruence.
      + right. change (a ++ TOpen t' :: b ++ [x]) with (a ++ (TOpen t' :: b) ++ [x]) in E.
        rewrite app_assoc in E. apply app_inj_tail in E. destruct E as [-> <-].
        exists a, b. split; [reflexivity|]. apply Forall_app in F. tauto.
    - intros H. destruct (String.eqb_spec t' t) as [->|N].
      + exists evs, []. split; [reflexivity|constructor].
      + destruct H as [H|(a & b & -> & F)]; [contradiction|].
        exists a, (b ++ [TOpen t]). rewrite <- app_assoc. split; [reflexivity|].
        apply Forall_app. split; [exact F|]. constructor; [cbn; congruence|constructor].
  Qed.
  Lemma tag_open_snoc_close evs t t' : tag_open (evs ++ [TClose t]) t' <-> t' <> t /\ tag_open evs t'.
  Proof.
    split.
    - intros (a & b & E & F). destruct b as [|x b] using rev_ind.
      + apply app_inj_tail in E. destruct E as [_ E]. discriminate.
      + change (a ++ TOpen t' :: b ++ [x]) with (a ++ (TOpen t' :: b) ++ [x]) in E.
        rewrite app_assoc in E. apply app_inj_tail in E. destruct E as [-> <-].
        apply Forall_app in F. destruct F as [F1 F2]. inversion F2; subst. cbn in *.
        split; [congruence|]. exists a, b. auto.
    - intros (N & a & b & -> & F).
      exists a, (b ++ [TClose t]). rewrite <- app_assoc. split; [reflexivity|].
      apply Forall_app. split; [exact F|]. constructor; [cbn; congruence|constructor].
  Qed.

  Lemma tr_step_spec t cur : forall m, NoDup (mkeys cur) -> String.eqb (tr_name t) "**" = false ->
    fold_left (tr_step t) cur m =
    if existsb (fun nr => (cr_end (snd nr) =? -1)%Z &&
                          (String.eqb (tr_name t) "*" || String.eqb (tr_name t) (fst nr))) cur
    then tr_incl t else m.
  Proof.
    induction cur as [|[n c] cur IH]; intros m ND HN; [reflexivity|].
    inversion ND; subst. cbn [fold_left existsb fst snd]. rewrite IH by assumption.
    unfold tr_step. destruct (cr_end c =? -1)%Z; cbn [negb andb].
    - destruct (String.eqb (tr_name t) "*"); cbn [orb];
        [destruct (existsb _ cur); reflexivity|].
      destruct (String.eqb (tr_name t) n); cbn; destruct (existsb _ cur); reflexivity.
    - reflexivity.
  Qed.

  Lemma applies_b evs cur r : NoDup (mkeys cur) -> tag_table evs cur -> String.eqb (tr_name r) "**" = false ->
    existsb (fun nr => (cr_end (snd nr) =? -1)%Z &&
                       (String.eqb (tr_name r) "*" || String.eqb (tr_name r) (fst nr))) cur = true
    <-> applies evs r.
  Proof.
    intros ND TT HN. apply String.eqb_neq in HN. rewrite existsb_exists. unfold applies. split.
    - intros ([n c] & HI & H). cbn [fst snd] in H. apply andb_true_iff in H. destruct H as [H1 H2].
      apply Z.eqb_eq in H1. apply In_mget in HI; [|exact ND].
      assert (O : tag_open evs n) by (apply TT; eauto).
      destruct (String.eqb_spec (tr_name r) "*") as [E|E].
      + right; left. eauto.
      + apply orb_true_iff in H2. destruct H2 as [H2|H2]; [discriminate|]. apply String.eqb_eq in H2.
        right; right. repeat split; auto. now rewrite H2.
    - intros [H|[(E & t & O)|(N1 & N2 & O)]]; [contradiction| |].
      + apply TT in O. destruct O as (c & HM & HE). exists (t, c). split; [now apply mget_In|].
        cbn [fst snd]. rewrite HE, E. reflexivity.
      + apply TT in O. destruct O as (c & HM & HE). exists (tr_name r, c). split; [now apply mget_In|].
        cbn [fst snd]. rewrite HE, String.eqb_refl. now rewrite orb_true_r.
  Qed.

  Lemma decides_snoc rules evs r x :
    decides (rules ++ [x]) evs r <-> (applies evs x /\ r = x) \/ (~ applies evs x /\ decides rules evs r).
  Proof.
    split.
    - intros (a & b & E & HA & HF). destruct b as [|y b] using rev_ind.
      + apply app_inj_tail in E. destruct E as [_ ->]. auto.
      + change (a ++ r :: b ++ [y]) with (a ++ (r :: b) ++ [y]) in E. rewrite app_assoc in E.
        apply app_inj_tail in E. destruct E as [-> ->]. apply Forall_app in HF. destruct HF as [F1 F2].
        inversion F2; subst. right. split; [assumption|]. exists a, b. auto.
    - intros [[HA ->]|[HN (a & b & -> & HA & HF)]].
      + exists rules, []. auto.
      + exists a, (b ++ [x]). rewrite <- app_assoc. repeat split; auto. apply Forall_app. auto.
  Qed.

  Lemma tr_match_spec rules evs cur : NoDup (mkeys cur) -> tag_table evs cur ->
    tr_match rules cur = true <-> selected verdict rules evs.
  Proof.
    intros ND TT. unfold tr_match, selected.
    induction rules as [|x rules IH] using rev_ind.
    - cbn. split; [discriminate|]. intros (r & (a & b & E & _) & _). destruct a; discriminate.
    - rewrite fold_left_app. cbn [fold_left].
      set (m := fold_left _ rules false) in *.
      assert (D : (applies evs x /\ (verdict x = true <->
               (exists r, decides (rules ++ [x]) evs r /\ verdict r = true))) \/
              (~ applies evs x /\ (m = true <->
               (exists r, decides (rules ++ [x]) evs r /\ verdict r = true)))).
      { assert (DEC : applies evs x \/ ~ applies evs x).
        { destruct (String.eqb_spec (tr_name x) "**") as [E|N]; [left; left; exact E|].
          apply String.eqb_neq in N.
          destruct (existsb (fun nr => (cr_end (snd nr) =? -1)%Z &&
                       (String.eqb (tr_name x) "*" || String.eqb (tr_name x) (fst nr))) cur) eqn:E.
          - left. eapply applies_b; eauto.
          - right. intros X. eapply applies_b in X; eauto. congruence. }
        destruct DEC as [A|A]; [left|right]; (split; [exact A|]).
        - split.
          + intros V. exists x. split; [|exact V]. apply decides_snoc. auto.
          + intros (r & HD & V). apply decides_snoc in HD. destruct HD as [[_ ->]|[HN _]]; [exact V|contradiction].
        - rewrite IH. split; intros (r & HD & V); exists r; (split; [|exact V]).
          + apply decides_snoc. auto.
          + apply decides_snoc in HD. destruct HD as [[HA _]|[_ HD]]; [contradiction|exact HD]. }
      destruct (String.eqb (tr_name x) "**") eqn:EX.
      + destruct D as [[_ D]|[N _]].
        * rewrite <- D. unfold verdict. rewrite EX. tauto.
        * exfalso. apply N. left. now apply String.eqb_eq.
      + rewrite tr_step_spec by assumption.
        destruct (existsb _ cur) eqn:EB.
        * destruct D as [[_ D]|[N _]].
          -- rewrite <- D. unfold verdict. now rewrite EX.
          -- exfalso. apply N. eapply applies_b; eauto.
        * destruct D as [[A _]|[_ D]]; [|exact D].
          exfalso. eapply applies_b in A; eauto. congruence.
  Qed.

  (** the items of the lines *)
  Fixpoint all_items (lines : list string) : option (list (list lineitem)) :=
    match lines with
    | [] => Some []
    | l :: r => match fileLine l, all_items r with
                | Some i, Some is => Some (i :: is)
                | _, _ => None
                end
    end.

  Lemma line_tags_eq items : line_tags items =
    match getStartTag items with Some t => [TOpen t] | None => [] end ++
    match getEndTag items with Some t => [TClose t] | None => [] end.
  Proof.
    unfold line_tags. f_equal.
    - induction items as [|[s|t|t] r IH]; cbn; auto.
    - induction items as [|[s|t|t] r IH]; cbn; auto.
  Qed.

  Lemma table_open evs cur t n : tag_table evs cur -> tag_table (evs ++ [TOpen t]) (mset cur t (mkCur n (-1))).
  Proof.
    intros TT t'. rewrite tag_open_snoc_open, mget_mset. destruct (String.eqb_spec t t') as [->|N].
    - split; [auto|]. intros _. eexists. split; [reflexivity|reflexivity].
    - rewrite (TT t'). split; [auto|]. intros [E|E]; [congruence|exact E].
  Qed.
  Lemma table_close evs cur t c n : (0 <= n)%Z -> tag_table evs cur ->
    tag_table (evs ++ [TClose t]) (mset cur t (mkCur c n)).
  Proof.
    intros HN TT t'. rewrite tag_open_snoc_close, mget_mset. destruct (String.eqb_spec t t') as [->|N].
    - split; [|tauto]. intros (x & [= <-] & E). cbn in E. lia.
    - rewrite (TT t'). split; [|tauto]. intros H. split; [congruence|exact H].
  Qed.
  Lemma known_set evs cur e v : tag_known evs cur -> tag_known (evs ++ [e]) (mset cur (tag_of e) v).
  Proof.
    intros TK t. unfold mhas. rewrite mget_mset. destruct (String.eqb_spec (tag_of e) t) as [<-|N].
    - split; [|reflexivity]. intros _. exists e. split; [apply in_or_app; right; left; reflexivity|reflexivity].
    - specialize (TK t). unfold mhas in TK. rewrite TK. split; intros (x & HX & E); exists x; (split; [|exact E]).
      + apply in_or_app; auto.
      + apply in_app_iff in HX. destruct HX as [HX|[<-|[]]]; [exact HX|congruence].
  Qed.

  Lemma readTagsLoop_spec rules lines : forall n cur evs, (0 <= n)%Z ->
    NoDup (mkeys cur) -> tag_table evs cur -> tag_known evs cur ->
    (forall r, readTagsLoop fileLine rules lines n cur = Ok r ->
       tags_kept fileLine rules evs lines (fst r)) /\
    (well_tagged fileLine evs lines -> exists r, readTagsLoop fileLine rules lines n cur = Ok r /\
       exists evs', tag_known evs' (snd r) /\
         (forall t, (exists e, In e evs' /\ tag_of e = t) <->
           (exists e, In e evs /\ tag_of e = t) \/
           exists l items, In l lines /\ fileLine l = Some items /\
              exists e, In e (line_tags items) /\ tag_of e = t)).
  Proof.
    induction lines as [|l r IH]; intros n cur evs Hn ND TT TK; cbn [readTagsLoop].
    - split.
      + intros x [= <-]. constructor.
      + intros _. eexists. split; [reflexivity|]. exists evs. split; [exact TK|].
        intros t. split; [auto|]. intros [H|(l & i & [] & _)]. exact H.
    - destruct (fileLine l) as [items|] eqn:FL.
      2:{ split; [discriminate|]. intros W. inversion W; subst. congruence. }
      cbv zeta. pose proof (line_tags_eq items) as LT.
      set (cur1 := match getStartTag items with Some t => mset cur t (mkCur (n + 1) (-1)) | None => cur end).
      set (evs1 := match getStartTag items with Some t => [TOpen t] | None => [] end).
      assert (I1 : NoDup (mkeys cur1) /\ tag_table (evs ++ evs1) cur1 /\ tag_known (evs ++ evs1) cur1).
      { unfold cur1, evs1. destruct (getStartTag items) as [t|].
        - repeat split.
          + now apply NoDup_mset.
          + apply (table_open evs cur t (n + 1) TT).
          + apply (table_open evs cur t (n + 1) TT).
          + apply (known_set evs cur (TOpen t) _ TK).
          + apply (known_set evs cur (TOpen t) _ TK).
        - rewrite app_nil_r. auto. }
      destruct I1 as (ND1 & TT1 & TK1).
      assert (STEP : forall cur2, NoDup (mkeys cur2) -> tag_table (evs ++ line_tags items) cur2 ->
        tag_known (evs ++ line_tags items) cur2 ->
        (forall x, (do (rest, cur') <- readTagsLoop fileLine rules r (n + 1) cur2;
            Ok (if tr_match rules cur2 && negb (hasTag items) then (l ++ LF ++ rest)%string else rest, cur')) = Ok x ->
           tags_kept fileLine rules evs (l :: r) (fst x)) /\
        (well_tagged fileLine (evs ++ line_tags items) r -> exists x, (do (rest, cur') <- readTagsLoop fileLine rules r (n + 1) cur2;
            Ok (if tr_match rules cur2 && negb (hasTag items) then (l ++ LF ++ rest)%string else rest, cur')) = Ok x /\
           exists evs', tag_known evs' (snd x) /\
         (forall t, (exists e, In e evs' /\ tag_of e = t) <->
           (exists e, In e evs /\ tag_of e = t) \/
           exists l0 items, In l0 (l :: r) /\ fileLine l0 = Some items /\
              exists e, In e (line_tags items) /\ tag_of e = t))).
      { intros cur2 ND2 TT2 TK2.
        destruct (IH (n + 1)%Z cur2 (evs ++ line_tags items) ltac:(lia) ND2 TT2 TK2) as [IH1 IH2].
        split.
        - intros x E. destruct (readTagsLoop fileLine rules r (n + 1) cur2) as [[rest cur']| |]; try discriminate.
          cbn in E. injection E as <-. cbn [fst]. specialize (IH1 _ eq_refl). cbn [fst] in IH1.
          destruct (tr_match rules cur2) eqn:TM; cbn [andb].
          + destruct (hasTag items) eqn:HT; cbn [negb].
            * eapply tk_no; eauto. left. now apply hasTag_iff.
            * eapply tk_yes; eauto.
              -- intros X. apply hasTag_iff in X. congruence.
              -- eapply tr_match_spec; eauto.
          + eapply tk_no; eauto. right. intros X. eapply tr_match_spec in X; eauto. congruence.
        - intros W. destruct (IH2 W) as ([rest cur'] & E & evs' & K & KK). rewrite E. cbn [bind].
          eexists. split; [reflexivity|]. exists evs'. split; [exact K|]. intros t. rewrite KK. split.
          + intros [(e & HE & HT)|(l0 & i0 & H1 & H2 & H3)].
            * apply in_app_iff in HE. destruct HE as [HE|HE]; [left; eauto|].
              right. exists l, items. split; [left; reflexivity|]. split; [exact FL|]. eauto.
            * right. exists l0, i0. split; [right; exact H1|]. auto.
          + intros [(e & HE & HT)|(l0 & i0 & [<-|H1] & H2 & H3)].
            * left. exists e. split; [apply in_or_app; auto|exact HT].
            * destruct H3 as (e & HE & HT). left. exists e. split; [|exact HT]. apply in_or_app. right. congruence.
            * right. eauto. }
      fold evs1 in LT. rewrite LT in STEP. rewrite app_assoc in STEP.
      destruct (getEndTag items) as [t|] eqn:GE.
      + destruct (mget cur1 t) as [c|] eqn:MC.
        * cbn [bind].
          assert (ND2 : NoDup (mkeys (mset cur1 t (mkCur (cr_start c) (n + 1))))) by now apply NoDup_mset.
          destruct (STEP _ ND2 (table_close _ _ t _ (n + 1) ltac:(lia) TT1)
                      (known_set _ _ (TClose t) _ TK1)) as [S1 S2].
          split; [exact S1|]. intros W. inversion W as [|? ? ? ? FL' _ W']; subst.
          assert (items0 = items) by congruence. subst. rewrite LT, app_assoc in W'. exact (S2 W').
        * cbn [bind]. split; [discriminate|].
          intros W. inversion W as [|? ? ? ? FL' HH W']; subst.
          assert (items0 = items) by congruence. subst. exfalso.
          destruct (HH t evs1 [] LT) as (e & HE & HT).
          assert (X : mhas cur1 t = true) by (apply TK1; eauto). unfold mhas in X. now rewrite MC in X.
      + cbn [bind]. rewrite app_nil_r in STEP. destruct (STEP cur1 ND1 TT1 TK1) as [S1 S2].
        split; [exact S1|]. intros W. inversion W as [|? ? ? ? FL' _ W']; subst.
        assert (items0 = items) by congruence. subst. rewrite LT, app_nil_r in W'. exact (S2 W').
  Qed.

  Lemma table_nil : tag_table [] [] /\ tag_known [] [].
  Proof.
    split; intros t; cbn.
    - split; [intros (c & E & _); discriminate|]. intros (a & b & E & _). destruct a; discriminate.
    - split; [discriminate|]. intros (e & [] & _).
  Qed.

  Lemma readWithinTags_spec rules lines out :
    readWithinTags fileLine rules lines = Ok out -> tags_kept fileLine rules [] lines out.
  Proof.
    unfold readWithinTags. intros H.
    destruct (readTagsLoop_spec rules lines 0%Z [] [] ltac:(lia) ltac:(constructor) (proj1 table_nil) (proj2 table_nil)) as [S1 _].
    destruct (readTagsLoop fileLine rules lines 0 []) as [[content cur]| |]; try discriminate.
    cbn in H. destruct (forallb _ rules); [|discriminate]. injection H as <-. apply (S1 _ eq_refl).
  Qed.

  Lemma readWithinTags_no_panic rules lines : well_tagged fileLine [] lines ->
    (forall r, In r rules -> tr_name r <> "*" -> tr_name r <> "**" ->
       exists l items t, In l lines /\ fileLine l = Some items /\ t = tr_name r /\
         exists e, In e (line_tags items) /\ tag_of e = t) ->
    exists out, readWithinTags fileLine rules lines = Ok out.
  Proof.
    intros W HR. unfold readWithinTags.
    destruct (readTagsLoop_spec rules lines 0%Z [] [] ltac:(lia) ltac:(constructor) (proj1 table_nil) (proj2 table_nil)) as [_ S2].
    destruct (S2 W) as ([content cur] & E & evs' & K & KK). rewrite E. cbn [bind].
    replace (forallb _ rules) with true; [eauto|]. symmetry. apply forallb_forall. intros r Hr.
    destruct (String.eqb_spec (tr_name r) "*") as [|N1]; [reflexivity|].
    destruct (String.eqb_spec (tr_name r) "**") as [|N2]; [reflexivity|]. cbn [orb].
    apply K. apply KK. right. destruct (HR r Hr N1 N2) as (l & items & t & H1 & H2 & -> & H3). eauto.
  Qed.
  Lemma readWithinTags_missing rules lines r : well_tagged fileLine [] lines -> In r rules ->
    tr_name r <> "*" -> tr_name r <> "**" ->
    (forall l items e, In l lines -> fileLine l = Some items -> In e (line_tags items) -> tag_of e <> tr_name r) ->
    exists m, readWithinTags fileLine rules lines = Err m.
  Proof.
    intros W Hr N1 N2 HN. unfold readWithinTags.
    destruct (readTagsLoop_spec rules lines 0%Z [] [] ltac:(lia) ltac:(constructor) (proj1 table_nil) (proj2 table_nil)) as [_ S2].
    destruct (S2 W) as ([content cur] & E & evs' & K & KK). rewrite E. cbn [bind].
    replace (forallb _ rules) with false; [eauto|]. symmetry. apply not_true_is_false. intros F.
    rewrite forallb_forall in F. apply F in Hr. apply String.eqb_neq in N1, N2. rewrite N1, N2 in Hr. cbn [orb] in Hr.
    apply K in Hr. apply KK in Hr. destruct Hr as [(e & [] & _)|(l & items & H1 & H2 & e & H3 & H4)].
    eapply HN; eauto.
  Qed.
End Read.

(** iteration order of the table of tags *)
Lemma existsb_perm {A} (f : A -> bool) l l' : Permutation l l' -> existsb f l = existsb f l'.
Proof.
  induction 1 as [|x l l' H IH|x y l|l1 l2 l3 H1 IH1 H2 IH2]; cbn; auto.
  - now rewrite IH.
  - destruct (f x), (f y); reflexivity.
  - congruence.
Qed.
Lemma tr_match_perm rules cur cur' : NoDup (mkeys cur) -> Permutation cur cur' ->
  tr_match rules cur = tr_match rules cur'.
Proof.
  intros ND P.
  assert (ND' : NoDup (mkeys cur')) by (eapply Permutation_NoDup; [apply Permutation_map; exact P|exact ND]).
  unfold tr_match.
  assert (G : forall m, fold_left (fun m t => if String.eqb (tr_name t) "**" then true
                                              else fold_left (tr_step t) cur m) rules m =
                        fold_left (fun m t => if String.eqb (tr_name t) "**" then true
                                              else fold_left (tr_step t) cur' m) rules m); [|apply G].
  induction rules as [|t rules IH]; intros m; [reflexivity|]. cbn [fold_left].
  destruct (String.eqb (tr_name t) "**") eqn:E; [apply IH|].
  rewrite !tr_step_spec by assumption. rewrite (existsb_perm _ _ _ P). apply IH.
Qed.

(** ** level offsets *)
Fixpoint partial_ok (l : Z) (os : list Z) : Prop :=
  match os with
  | [] => True
  | o :: r => (-1 <= l + o)%Z /\ partial_ok (l + o) r
  end.

Lemma has_prefix_app p r : has_prefix (p ++ r)%string p = true.
Proof. apply has_prefix_iff. eauto. Qed.

Lemma offsetLevel_heading l o title : (-1 <= l)%Z -> (-1 <= l + o)%Z ->
  offsetLevel (l, heading l title) o = Ok ((l + o)%Z, heading (l + o) title).
Proof.
  intros H1 H2. unfold offsetLevel, repeat_eq.
  destruct (Z.ltb_spec (l + 1) 0); [lia|]. destruct (Z.ltb_spec (l + 1 + o) 0); [lia|]. cbn [bind].
  f_equal. f_equal. unfold heading. set (a := srepeat "=" (Z.to_nat (l + 1))).
  replace (l + 1 + o)%Z with (l + o + 1)%Z by lia. set (b := srepeat "=" (Z.to_nat (l + o + 1))).
  assert (E : (a ++ " " ++ title)%string = ((a ++ " ") ++ title)%string) by now rewrite sapp_assoc.
  rewrite E. destruct ((a ++ " ") ++ title)%string eqn:ES.
  - destruct a; discriminate.
  - cbn [replace_first]. rewrite <- ES, has_prefix_app, sdrop_app. now rewrite sapp_assoc.
Qed.

Lemma offsApply_relative os : forall l title, (-1 <= l)%Z -> partial_ok l os ->
  offsApply (map (mkOff false) os) (l, heading l title) =
  Ok (map (mkOff false) os, heading (l + zsum os) title).
Proof.
  induction os as [|o os IH]; intros l title HL HP; cbn [map offsApply].
  - cbn. now rewrite Z.add_0_r.
  - destruct HP as [H1 H2]. unfold offApply. cbn [off_abs off_val]. rewrite offsetLevel_heading by assumption.
    cbn [bind]. rewrite IH by assumption. cbn [bind]. replace (l + zsum (o :: os))%Z with (l + o + zsum os)%Z by (unfold zsum; cbn [fold_right]; lia). reflexivity.
Qed.

Lemma offsApply_absolute n os l title : (-1 <= l)%Z -> (-1 <= n)%Z -> partial_ok n os ->
  offsApply (mkOff true n :: map (mkOff false) os) (l, heading l title) =
  Ok (mkOff false (n - l) :: map (mkOff false) os, heading (n + zsum os) title).
Proof.
  intros H1 H2 H3. cbn [offsApply]. unfold offApply. cbn [off_abs off_val fst].
  rewrite offsetLevel_heading by lia. cbn [bind]. replace (l + (n - l))%Z with n by lia.
  rewrite offsApply_relative by assumption. reflexivity.
Qed.

(** ** delimiters *)
Lemma track_snoc t k l k' l' :
  track (t ++ [(k', l')]) k l = if String.eqb k' k && (l' =? l)%Z then t else t ++ [(k', l')] ++ [(k, l)].
Proof.
  unfold track. rewrite rev_unit. destruct (String.eqb k' k && (l' =? l)%Z).
  - apply removelast_last.
  - now rewrite <- app_assoc.
Qed.
Definition tstep (t : tracker) (d : delim) : tracker := track t (fst d) (snd d).
Definition top_of (t : tracker) : option delim := match List.rev t with d :: _ => Some d | [] => None end.

Lemma tstep_push t d : top_of t <> Some d -> tstep t d = t ++ [d].
Proof.
  unfold top_of, tstep, track. destruct (List.rev t) as [|[k l] r] eqn:E; intros H; destruct d as [k' l']; cbn [fst snd].
  - reflexivity.
  - destruct (String.eqb_spec k k') as [->|N]; [|reflexivity]. cbn [andb].
    destruct (Z.eqb_spec l l') as [->|N]; [|reflexivity]. exfalso; apply H; reflexivity.
Qed.
Lemma tstep_pop t d : tstep (t ++ [d]) d = t.
Proof. destruct d as [k l]. unfold tstep. cbn [fst snd]. rewrite track_snoc, String.eqb_refl, Z.eqb_refl. reflexivity. Qed.
Lemma top_of_snoc t d : top_of (t ++ [d]) = Some d.
Proof. unfold top_of. now rewrite rev_unit. Qed.

Lemma closed_track top ds : closed_blocks top ds -> forall t, top_of t = top ->
  fold_left tstep ds t = t.
Proof.
  induction 1 as [top|top d inner rest HN H1 IH1 H2 IH2]; intros t HT; [reflexivity|].
  cbn [fold_left]. rewrite tstep_push by congruence.
  rewrite fold_left_app. rewrite IH1 by apply top_of_snoc. cbn [fold_left]. rewrite tstep_pop.
  now apply IH2.
Qed.
Lemma unclosed_track top ds st : unclosed top ds st -> forall t, top_of t = top ->
  fold_left tstep ds t = t ++ st.
Proof.
  induction 1 as [top ds H|top before d ds rest HB HN H IH]; intros t HT.
  - rewrite app_nil_r. eapply closed_track; eauto.
  - rewrite fold_left_app. rewrite (closed_track top before HB t HT). cbn [fold_left].
    rewrite tstep_push by congruence. rewrite IH by apply top_of_snoc. now rewrite <- app_assoc.
Qed.

Lemma closed_app top a b : closed_blocks top a -> closed_blocks top b -> closed_blocks top (a ++ b).
Proof.
  induction 1 as [|top d inner rest HN H1 _ H2 IH2]; intros HB; [exact HB|].
  cbn [app]. rewrite <- app_assoc. cbn [app]. constructor; auto.
Qed.

Lemma delim_dec (e d : delim) : {e = d} + {e <> d}.
Proof. decide equality; [apply Z.eq_dec|apply string_dec]. Qed.
Lemma delims_dec (e d : delim) (rest : list delim) : (e = d /\ rest = []) \/ ~ (e = d /\ rest = []).
Proof. destruct (delim_dec e d); destruct rest; [left; auto|right|right|right]; intros [? ?]; congruence. Qed.
(** every sequence has such a decomposition *)
Lemma unclosed_snoc top ds st d : unclosed top ds st ->
  (exists st', st = st' ++ [d] /\ unclosed top (ds ++ [d]) st') \/
  ((st = [] -> top <> Some d) -> unclosed top (ds ++ [d]) (st ++ [d])) .
Proof.
  intros H. revert d. induction H as [top ds H|top before e ds rest HB HN H IH]; intros d.
  - right. intros HT. apply (un_cons top ds d [] []); auto. constructor. constructor.
  - destruct (IH d) as [(st' & -> & U)|U].
    + left. exists (e :: st'). split; [reflexivity|]. rewrite <- app_assoc. cbn [app]. now constructor.
    + destruct (delims_dec e d rest) as [[-> ->]|NE].
      * left. exists []. split; [reflexivity|]. constructor.
        inversion H as [top' ds' HC|]; subst.
        rewrite <- app_assoc. cbn [app]. apply closed_app; [exact HB|].
        apply (cb_block top d ds []); auto. constructor.
      * right. intros _. rewrite <- app_assoc. cbn [app]. constructor; auto. apply U.
        intros ->. intros [= ->]. apply NE. auto.
Qed.
Lemma unclosed_total ds : exists st, unclosed None ds st.
Proof.
  induction ds as [|d ds IH] using rev_ind.
  - exists []. constructor. constructor.
  - destruct IH as (st & H). destruct (unclosed_snoc None ds st d H) as [(st' & _ & H')|H']; [eauto|].
    eexists. apply H'. discriminate.
Qed.
