(** C73: lists. *)
From Coq Require Import List String NArith ZArith Bool Ascii Arith Lia.
From Verif Require Import GoBase Utf8 Types Attrs Elements Subs ListCollect Lists Peg PegGrammar PegDoc PegHost PegSym PegBlockSpec P_PegRun P_PegLines P_PegBlocks P_PegFragment P_PegPara.
Import ListNotations.
Local Open Scope list_scope.

(** what a mark and the blank after it are made of is on the line *)
Lemma mark_line : forall m k, item_mark m k -> one_line m /\ m <> [] /\ head_not blankb m /\ Forall (fun r => r <> 58%N) m.
Proof.
  assert (forall w t, w <> [] -> Forall (fun r => r <> 10 /\ r <> 13 /\ blankb r = false /\ r <> 58)%N (w ++ [t]) ->
    one_line (w ++ [t]) /\ w ++ [t] <> [] /\ head_not blankb (w ++ [t]) /\ Forall (fun r => r <> 58%N) (w ++ [t])) as A.
  { intros w t Nw F. repeat split.
    - eapply Forall_impl; [|exact F]. cbn. tauto.
    - destruct w; discriminate.
    - destruct w as [|x w]; [congruence|]. inversion F as [|? ? Q _]; subst. cbn. tauto.
    - eapply Forall_impl; [|exact F]. cbn. tauto. }
  assert (forall a b (r : rune), between a b r -> (33 <= a)%N -> (a <= b)%N -> (b < 58 \/ 58 < a)%N -> (r <> 10 /\ r <> 13 /\ blankb r = false /\ r <> 58)%N) as B.
  { intros a b r [B1 B2] L1 L2 L3. unfold blankb. rewrite orb_false_iff, !N.eqb_neq. lia. }
  intros m k I. destruct I as [|n b I|n s I|w Nw F|r Br|r Br|w Nw F|w Nw F].
  - repeat split; try discriminate; repeat constructor; discriminate.
  - cbn [In] in I. repeat destruct I as [I|I]; try (injection I as <- <-); try destruct I; repeat split; try discriminate; repeat constructor; discriminate.
  - cbn [In] in I. repeat destruct I as [I|I]; try (injection I as <- <-); try destruct I; repeat split; try discriminate; repeat constructor; discriminate.
  - apply A; auto. apply Forall_app. split; [|repeat constructor; discriminate]. eapply Forall_impl; [|exact F]. intros r Q. eapply B; [exact Q|lia..].
  - apply A; [discriminate|]. apply Forall_app. split; [|repeat constructor; discriminate]. constructor; [|constructor]. eapply B; [exact Br|lia..].
  - apply A; [discriminate|]. apply Forall_app. split; [|repeat constructor; discriminate]. constructor; [|constructor]. eapply B; [exact Br|lia..].
  - apply A; auto. apply Forall_app. split; [|repeat constructor; discriminate]. eapply Forall_impl; [|exact F].
    intros r Q. cbn in Q. repeat destruct Q as [<-|Q]; try destruct Q; repeat split; discriminate.
  - apply A; auto. apply Forall_app. split; [|repeat constructor; discriminate]. eapply Forall_impl; [|exact F].
    intros r Q. cbn in Q. repeat destruct Q as [<-|Q]; try destruct Q; repeat split; discriminate.
Qed.
Lemma line_prefix : forall w l t v, one_line w -> at_eol t -> l ++ t = w ++ v -> exists l', l = w ++ l' /\ v = l' ++ t.
Proof.
  induction w as [|x w IH]; intros l t v W T E; [exists l; auto|]. inversion W as [|? ? [X1 X2] W']; subst. destruct l as [|y l].
  - exfalso. cbn [app] in E. subst t. cbn [app at_eol] in T. unfold eolb in T. apply orb_true_iff in T. rewrite !N.eqb_eq in T. tauto.
  - cbn [app] in E. injection E as -> E. destruct (IH l t v W' T E) as (l' & -> & ->). exists l'. auto.
Qed.
Lemma blank_eol : forall r, blank r -> eolb r = false.
Proof. intros r [->| ->]; reflexivity. Qed.
Lemma no_item_text : forall ws l t m k z v, no_item (ws ++ l) -> blanks ws -> at_eol t -> item_mark m k -> blank z -> l ++ t <> m ++ z :: v.
Proof.
  intros ws l t m k z v N W T M Z E. destruct (mark_line m k M) as (L & _).
  destruct (line_prefix (m ++ [z]) l t v) as (l' & -> & _); [|exact T|now rewrite <- app_assoc|].
  - apply Forall_app. split; [exact L|]. constructor; [|constructor]. apply blank_eol in Z. unfold eolb in Z. rewrite orb_false_iff, !N.eqb_neq in Z. tauto.
  - apply N. exists ws, m, k, z, l'. rewrite <- app_assoc. auto.
Qed.

Section Lists.
  Variable X : Type.
  Variable cls : string -> rune -> bool.
  Variable low : rune -> rune.
  Variable white : rune -> bool.
  Variable other : string -> labels (hv X) -> soft gstore (option (list string)) -> option (value (hv X) * bool).
  Notation H := (go_host X cls low white other).
  Hypothesis U : unicode_ok H.
  Notation G := the_grammar.
  Notation Ok_ := (Ok_ H G).
  Notation No_ := (No_ H G).
  Notation Star_ := (Star_ H G).
  Notation Seq_ := (Seq_ H G).
  Notation core := (core H).

  Lemma in_range : forall a b r, in_cls H [] [(a, b)] [] r = true <-> between a b r.
  Proof. intros a b r. unfold in_cls, between. cbn [existsb orb]. rewrite !orb_false_r, andb_true_iff, !N.leb_le. tauto. Qed.
  Lemma in_chars : forall cs r, in_cls H cs [] [] r = true <-> In r cs.
  Proof.
    intros cs r. unfold in_cls. cbn [existsb]. rewrite !orb_false_r, existsb_exists. split.
    - intros (x & I & E). apply N.eqb_eq in E. now subst.
    - intros I. exists r. rewrite N.eqb_refl. auto.
  Qed.

  (** * Marks *)
  Section Mark.
    Variables (er : bool) (g : gstore) (st : option (list string)).
    Notation c := ((er, g, st) : core).
    (** letters or digits and a dot or a parenthesis *)
    Record numberE := { n_code : string; n_style : string; n_plus : bool; n_cs : list rune; n_rs : list (rune * rune); n_end : rune }.
    Definition one_or_more (x : numberE) : expr :=
      let e := ECls (n_cs x) (n_rs x) [] false in if n_plus x then EPlus e else e.
    Definition number_expr (x : numberE) : expr := EAct (AHost (n_code x)) (ESeq [one_or_more x; ELit [n_end x] false]).
    Definition numbers : list numberE :=
      [ {| n_code := "return types.NewOrderedListElementPrefix(types.Arabic)"; n_style := "arabic"; n_plus := true; n_cs := []; n_rs := [(48, 57)%N]; n_end := 46%N |};
        {| n_code := "return types.NewOrderedListElementPrefix(types.LowerAlpha)"; n_style := "loweralpha"; n_plus := false; n_cs := []; n_rs := [(97, 122)%N]; n_end := 46%N |};
        {| n_code := "return types.NewOrderedListElementPrefix(types.UpperAlpha)"; n_style := "upperalpha"; n_plus := false; n_cs := []; n_rs := [(65, 90)%N]; n_end := 46%N |};
        {| n_code := "return types.NewOrderedListElementPrefix(types.LowerRoman)"; n_style := "lowerroman"; n_plus := true; n_cs := R "ivxdlcm"; n_rs := []; n_end := 41%N |};
        {| n_code := "return types.NewOrderedListElementPrefix(types.UpperRoman)"; n_style := "upperroman"; n_plus := true; n_cs := R "IVXDLCM"; n_rs := []; n_end := 41%N |} ]%string.
    Definition in_number (x : numberE) (r : rune) : bool := in_cls H (n_cs x) (n_rs x) [] r.
    (** the text read by a number *)
    Definition reads_number (x : numberE) (w : list rune) : Prop :=
      w <> [] /\ (forall r, In r w -> in_number x r = true) /\ (n_plus x = false -> exists r, w = [r]).
    Lemma numbers_known : forall x, In x numbers -> assoc known_acts (n_code x) = Some (KNumber (n_style x)) /\ in_number x (n_end x) = false /\ n_end x <> Peg.RuneError.
    Proof. intros x I. cbn [numbers In] in I. repeat destruct I as [<-|I]; [..|destruct I]; repeat split; try reflexivity; discriminate. Qed.
    Lemma ok_number : forall x w u b, In x numbers -> reads_number x w -> exists b' en',
      Ok_ (number_expr x) (Pos b (w ++ n_end x :: u)) [] c (Peg.VHost (HPrefix (n_style x))) (Pos b' u) en' c.
    Proof.
      intros x w u b Ix (Nw & F & One). destruct (numbers_known x Ix) as (K & Ne & Nr).
      assert (exists v b', Ok_ (one_or_more x) (Pos b (w ++ n_end x :: u)) [] c v (Pos b' (n_end x :: u)) [] c) as (v & b' & O).
      { unfold one_or_more. destruct (n_plus x) eqn:Ep.
        - eexists _, _. eapply ok_plus; [apply star_cls|].
          + exact F.
          + cbn [P_PegRun.head_not]. fold (in_number x (n_end x)). now rewrite Ne.
          + destruct w; [congruence|discriminate].
        - destruct (One eq_refl) as (r & ->). eexists _, _. apply ok_cls. apply F. now left. }
      eexists _, []. eapply ok_act.
      - apply ok_seq. eapply seq_cons; [exact O|]. eapply seq_cons; [apply (ok_lit H G [n_end x])|apply seq_nil].
      - eapply act_known; [exact K|]. intros s Es _. unfold run_akind. apply core_store in Es. destruct Es as [-> _]. reflexivity.
    Qed.
    Lemma no_number : forall x u b, In x numbers -> (forall w v, reads_number x w -> u <> w ++ n_end x :: v) -> No_ (number_expr x) (Pos b u) [] c c.
    Proof.
      intros x u b Ix N. destruct (numbers_known x Ix) as (K & Ne & Nr). apply no_act.
      destruct (span_by (in_number x) u) as (w & u' & -> & Fw & Hd).
      assert (forall y, P_PegRun.head_not (fun r => Bool.eqb (in_cls H (n_cs x) (n_rs x) [] r) (negb false)) y <-> P_PegRun.head_not (in_number x) y) as Hs.
      { intros [|r y]; cbn; [tauto|]. unfold in_number. destruct (in_cls H (n_cs x) (n_rs x) [] r); cbn; split; congruence. }
      assert (forall b v, (forall w', v = n_end x :: w' -> False) -> No_ (ELit [n_end x] false) (Pos b v) [] c c) as NE.
      { intros b0 v Nv. destruct v as [|r v]; [now apply no_lit_end|]. apply no_lit1. intros <-. now apply (Nv v). }
      destruct w as [|r w].
      { apply no_seq1_c. cbn [app]. assert (No_ (ECls (n_cs x) (n_rs x) [] false) (Pos b u') [] c c) as Q.
        { destruct u' as [|r u']; [apply no_cls_end|]. apply no_cls. exact Hd. }
        unfold one_or_more. destruct (n_plus x); [now apply no_plus|exact Q]. }
      unfold one_or_more. destruct (n_plus x) eqn:Ep.
      - eapply (no_seq_c H G [_]); [eapply seq_cons; [eapply ok_plus; [apply star_cls; [exact Fw|now apply Hs]|discriminate]|apply seq_nil]|].
        apply NE. intros v ->. eapply N; [|reflexivity]. split; [discriminate|]. split; [exact Fw|congruence].
      - eapply (no_seq_c H G [_]); [eapply seq_cons; [apply ok_cls; apply Fw; now left|apply seq_nil]|].
        apply NE. intros v Ev. change (w ++ u' = n_end x :: v) in Ev. apply (N [r] v); [|cbn [app]; f_equal; exact Ev]. split; [discriminate|]. split; [|eauto].
        intros q [<-|[]]. apply Fw. now left.
    Qed.
    Lemma number_mark : forall x w, In x numbers -> reads_number x w -> item_mark (w ++ [n_end x]) (Number (n_style x)).
    Proof.
      intros x w I (Nw & F & One). cbn [numbers In] in I.
      assert (forall a b, (forall r, In r w -> in_cls H [] [(a, b)] [] r = true) -> Forall (between a b) w) as B1.
      { intros a b Q. apply Forall_forall. intros r Ir. now apply in_range, Q. }
      assert (forall cs, (forall r, In r w -> in_cls H cs [] [] r = true) -> Forall (fun r => In r cs) w) as B2.
      { intros cs Q. apply Forall_forall. intros r Ir. now apply in_chars, Q. }
      repeat destruct I as [<-|I]; [..|destruct I]; unfold in_number in F; cbn [n_cs n_rs n_end n_style n_plus] in *.
      - apply mark_digits; auto.
      - destruct (One eq_refl) as (r & ->). apply mark_lower. apply in_range, F. now left.
      - destruct (One eq_refl) as (r & ->). apply mark_upper. apply in_range, F. now left.
      - apply mark_lower_roman; auto.
      - apply mark_upper_roman; auto.
    Qed.
    Lemma mark_number : forall m s, item_mark m (Number s) -> (exists n, m = repeat 46%N n /\ In (n, s) [(1, "arabic"); (2, "loweralpha"); (3, "lowerroman"); (4, "upperalpha"); (5, "upperroman")]%string) \/
      exists l1 x l2 w, numbers = l1 ++ x :: l2 /\ s = n_style x /\ m = w ++ [n_end x] /\ reads_number x w /\
        (forall y w' v t, In y l1 -> reads_number y w' -> m ++ t <> w' ++ n_end y :: v) /\ head_not (N.eqb 46) m.
    Proof.
      intros m s M. inversion M as [| |n s' I|w Nw F|r Br|r Br|w Nw F|w Nw F]; subst.
      - left. eauto.
      - right. eexists [], _, (skipn 1 numbers), w. split; [reflexivity|]. split; [reflexivity|]. split; [reflexivity|].
        repeat split; auto; try discriminate.
        + intros r Ir. apply in_range. rewrite Forall_forall in F. now apply F.
        + destruct w as [|x w]; [congruence|]. inversion F as [|? ? [Q _] _]; subst. cbn [app head_not]. apply N.eqb_neq. lia.
      - right. eexists (firstn 1 numbers), _, (skipn 2 numbers), [r]. split; [reflexivity|]. split; [reflexivity|]. split; [reflexivity|]. repeat split; auto; try discriminate.
        + intros q [<-|[]]. now apply in_range.
        + eauto.
        + intros y w' v t [<-|[]] (Nw & F & _) E. destruct w' as [|q w']; [congruence|]. cbn in E. injection E as -> _.
          specialize (F _ (or_introl eq_refl)). apply in_range in F. unfold between in *. lia.
        + cbn [app head_not]. apply N.eqb_neq. unfold between in Br. lia.
      - right. eexists (firstn 2 numbers), _, (skipn 3 numbers), [r]. split; [reflexivity|]. split; [reflexivity|]. split; [reflexivity|]. repeat split; auto; try discriminate.
        + intros q [<-|[]]. now apply in_range.
        + eauto.
        + intros y w' v t [<-|[<-|[]]] (Nw & F & _) E; (destruct w' as [|q w']; [congruence|]); cbn in E; injection E as -> _;
          specialize (F _ (or_introl eq_refl)); apply in_range in F; unfold between in *; lia.
        + cbn [app head_not]. apply N.eqb_neq. unfold between in Br. lia.
      - right. eexists (firstn 3 numbers), _, (skipn 4 numbers), w. split; [reflexivity|]. split; [reflexivity|]. split; [reflexivity|]. repeat split; auto; try discriminate.
        + intros q Iq. apply in_chars. rewrite Forall_forall in F. now apply F.
        + intros y w' v t Iy (Nw' & F' & One) E. rewrite <- app_assoc in E. destruct w as [|r w]; [congruence|]. inversion F as [|? ? Fr Fw]; subst.
          destruct w' as [|q w']; [congruence|]. cbn in E. injection E as -> E. specialize (F' _ (or_introl eq_refl)) as Fq.
          destruct Iy as [<-|[<-|[<-|[]]]]; apply in_range in Fq.
          * unfold between in Fq. cbn in Fr. lia.
          * destruct (One eq_refl) as (z & Ez). injection Ez as -> ->. cbn [app] in E. destruct w as [|y w]; cbn in E; [discriminate|].
            inversion Fw as [|? ? Fy _]; subst. injection E as -> _. cbn in Fy. lia.
          * unfold between in Fq. cbn in Fr. lia.
        + destruct w as [|r w]; [congruence|]. inversion F as [|? ? Fr _]; subst. cbn in Fr. cbn [app head_not]. apply N.eqb_neq. lia.
      - right. eexists (firstn 4 numbers), _, (skipn 5 numbers), w. split; [reflexivity|]. split; [reflexivity|]. split; [reflexivity|]. repeat split; auto; try discriminate.
        + intros q Iq. apply in_chars. rewrite Forall_forall in F. now apply F.
        + intros y w' v t Iy (Nw' & F' & One) E. rewrite <- app_assoc in E. destruct w as [|r w]; [congruence|]. inversion F as [|? ? Fr Fw]; subst.
          destruct w' as [|q w']; [congruence|]. cbn in E. injection E as -> E. specialize (F' _ (or_introl eq_refl)) as Fq.
          destruct Iy as [<-|[<-|[<-|[<-|[]]]]].
          * apply in_range in Fq. unfold between in Fq. cbn in Fr. lia.
          * apply in_range in Fq. unfold between in Fq. cbn in Fr. lia.
          * destruct (One eq_refl) as (z & Ez). injection Ez as -> ->. cbn [app] in E. destruct w as [|y w]; cbn in E; [discriminate|].
            inversion Fw as [|? ? Fy _]; subst. injection E as -> _. cbn in Fy. lia.
          * apply in_chars in Fq. cbn in Fr, Fq. lia.
        + destruct w as [|r w]; [congruence|]. inversion F as [|? ? Fr _]; subst. cbn in Fr. cbn [app head_not]. apply N.eqb_neq. lia.
    Qed.

    Lemma number_dec : forall x u, In x numbers -> (exists w v, reads_number x w /\ u = w ++ n_end x :: v) \/ (forall w v, reads_number x w -> u <> w ++ n_end x :: v).
    Proof.
      intros x u Ix. destruct (numbers_known x Ix) as (K & Ne & Nr). destruct (span_by (in_number x) u) as (w & u' & -> & Fw & Hd).
      destruct (n_plus x) eqn:Ep.
      - destruct u' as [|r u'].
        { right. intros w' v (_ & F & _) E. assert (In (n_end x) w) as I by (rewrite app_nil_r in E; rewrite E, in_app_iff; right; now left).
          apply Fw in I. congruence. }
        cbn in Hd.
        assert (forall w' v, reads_number x w' -> w ++ r :: u' = w' ++ n_end x :: v -> w = w' /\ r = n_end x) as Q.
        { clear - Fw Hd Ne. induction w as [|y w IH]; intros w' v (Nw' & F & One) E.
          - destruct w' as [|y' w']; [congruence|]. cbn in E. injection E as -> _. specialize (F _ (or_introl eq_refl)). congruence.
          - destruct w' as [|y' w']; cbn in E; injection E as -> E.
            + rewrite (Fw _ (or_introl eq_refl)) in Ne. discriminate.
            + destruct w' as [|z w'].
              { destruct w as [|z w]; cbn in E; injection E as -> E; [auto|]. rewrite (Fw (n_end x)) in Ne by (right; now left). discriminate. }
              destruct w as [|z' w].
              { cbn in E. injection E as -> E. rewrite (F _ (or_intror (or_introl eq_refl))) in Hd. discriminate. }
              destruct (IH (fun r I => Fw r (or_intror I)) (z :: w') v) as [-> ->]; auto.
              split; [discriminate|]. split; [intros q I; apply F; now right|]. intros Q. destruct (One Q) as (q & Eq). discriminate. }
        destruct w as [|y w]; [right; intros w' v R E; destruct (Q w' v R E) as [<- _]; destruct R as (N & _); congruence|].
        destruct (N.eqb_spec r (n_end x)) as [->|Nx].
        + left. exists (y :: w), u'. repeat split; auto; congruence.
        + right. intros w' v R E. destruct (Q w' v R E) as [_ ->]. congruence.
      - destruct (w ++ u') as [|y t] eqn:Et; [right; intros [|? ?] v _ E; discriminate|].
        destruct (in_number x y) eqn:Ey.
        2: { right. intros w' v (_ & F & One) E. destruct (One Ep) as (z & ->). cbn in E. injection E as -> _. rewrite (F _ (or_introl eq_refl)) in Ey. discriminate. }
        destruct t as [|r t]; [right; intros w' v (_ & F & One) E; destruct (One Ep) as (z & ->); discriminate|].
        destruct (N.eqb_spec r (n_end x)) as [->|Nx].
        + left. exists [y], t. split; [|reflexivity]. split; [discriminate|]. split; [|eauto]. now intros q [<-|[]].
        + right. intros w' v (_ & F & One) E. destruct (One Ep) as (z & ->). cbn in E. injection E as -> -> _. congruence.
    Qed.
    Lemma numbers_alts : forall l u b, incl l numbers ->
      (forall en, No_ (EAlt (map number_expr l)) (Pos b u) en c c) \/
      exists x w v b', In x l /\ reads_number x w /\ u = w ++ n_end x :: v /\
        forall en, Ok_ (EAlt (map number_expr l)) (Pos b u) en c (Peg.VHost (HPrefix (n_style x))) (Pos b' v) en c.
    Proof.
      induction l as [|x l IH]; intros u b I; cbn [map]; [left; intros en; apply no_alt_nil|].
      destruct (number_dec x u (I x (or_introl eq_refl))) as [(w & v & R & ->)|N].
      - right. destruct (ok_number x w v b (I x (or_introl eq_refl)) R) as (b' & en' & O). exists x, w, v, b'. repeat split; auto; [now left|apply R..|].
        intros en. eapply ok_alt_here. exact O.
      - pose proof (no_number x u b (I x (or_introl eq_refl)) N) as Nx. destruct (IH u b) as [Q|(y & w & v & b' & Iy & R & -> & O)].
        + intros y Iy. apply I. now right.
        + left. intros en. now apply no_alt_c.
        + right. exists y, w, v, b'. repeat split; auto; [now right|apply R..|]. intros en. now apply ok_alt_c.
    Qed.
    Definition dotsE : expr := match x_OrderedListElementPrefix with EAct _ (ESeq [_; ELab _ (EAlt (d :: _)); _]) => d | _ => EAny end.
    Lemma prefix_shape : x_OrderedListElementPrefix = EAct (ALabel "prefix") (ESeq [EStar x_Space; ELab "prefix" (EAlt (dotsE :: map number_expr numbers)); x_Spaces]).
    Proof. reflexivity. Qed.
    Lemma dots_len : forall n u b en, head_not (N.eqb 46) u -> 1 <= n ->
      Ok_ (ELab "depth" (EAct (ALen 0) (EPlus (ELit (R ".") false)))) (Pos b (repeat 46%N n ++ u)) en c (Peg.VInt (Z.of_nat n)) (Pos (repeat 46%N n ++ b) u) (("depth"%string, Peg.VInt (Z.of_nat n)) :: en) c.
    Proof.
      intros n u b en Hd L. eapply ok_lab with (en' := []). eapply ok_act.
      - eapply ok_plus; [apply (star_lit1 H G 46%N); [discriminate|exact Hd]|]. destruct n; [lia|discriminate].
      - rewrite slice_app. intros s Es Et. exists s. cbn [run_act]. rewrite Et, byte_len_repeat by reflexivity. rewrite Z.sub_0_r. auto.
    Qed.
    Lemma ok_dots : forall n s u b, In (n, s) [(1, "arabic"); (2, "loweralpha"); (3, "lowerroman"); (4, "upperalpha"); (5, "upperroman")]%string ->
      head_not (N.eqb 46) u -> exists en', Ok_ dotsE (Pos b (repeat 46%N n ++ u)) [] c (Peg.VHost (HPrefix s)) (Pos (repeat 46%N n ++ b) u) en' c.
    Proof.
      intros n s u b I Hd. assert (1 <= n <= 5) as [L1 L2] by (cbn in I; repeat destruct I as [I|I]; [..|destruct I]; injection I as <- _; lia).
      eexists. eapply ok_act.
      - apply ok_seq. eapply seq_cons; [now apply dots_len|]. eapply seq_cons; [apply ok_pred|apply seq_nil].
        intros s0 Es. exists s0. split; [|exact Es]. cbn [run_pred label String.eqb Ascii.eqb Bool.eqb]. do 2 f_equal. apply Z.leb_le. lia.
      - eapply act_known; [reflexivity|]. intros s0 Es _. unfold run_akind. apply core_store in Es. destruct Es as [-> _].
        cbn in I; repeat destruct I as [I|I]; [..|destruct I]; injection I as <- <-; reflexivity.
    Qed.
    Lemma no_dots : forall n u b, head_not (N.eqb 46) u -> n = 0 \/ 5 < n -> No_ dotsE (Pos b (repeat 46%N n ++ u)) [] c c.
    Proof.
      intros n u b Hd L. apply no_act. destruct n as [|n].
      - apply no_seq1_c, no_lab, no_act, no_plus. cbn [repeat app]. destruct u as [|r u]; [apply no_lit_end; discriminate|]. apply no_lit1. intros <-. discriminate.
      - eapply (no_seq_c H G [_]); [eapply seq_cons; [apply dots_len; [exact Hd|lia]|apply seq_nil]|].
        apply no_pred. intros s0 Es. exists s0. split; [|exact Es]. cbn [run_pred label String.eqb Ascii.eqb Bool.eqb]. do 2 f_equal. apply Z.leb_gt. lia.
    Qed.
    Lemma ok_Spaces : forall bl t b en, blanks bl -> bl <> [] -> head_not blankb t -> Ok_ x_Spaces (Pos b (bl ++ t)) en c (Peg.VStr bl) (Pos (rev bl ++ b) t) en c.
    Proof.
      intros bl t b en B N T. eapply ok_act.
      - eapply ok_plus; [apply star_cls|].
        + intros r I. rewrite in_blank. apply blankb_spec. unfold blanks in B. rewrite Forall_forall in B. now apply B.
        + destruct t as [|r t]; [exact Logic.I|]. cbn in *. rewrite in_blank, T. reflexivity.
        + destruct bl; [congruence|discriminate].
      - rewrite slice_app. apply act_text.
    Qed.
    Lemma no_Spaces : forall t b en, head_not blankb t -> No_ x_Spaces (Pos b t) en c c.
    Proof. intros t b en T. apply no_act, no_plus. destruct t as [|r t]; [apply no_cls_end|]. apply no_cls. now rewrite in_blank. Qed.
    Lemma head_app : forall f (m t : list rune), m <> [] -> head_not f m -> head_not f (m ++ t).
    Proof. intros f [|x m] t N Q; [congruence|exact Q]. Qed.
    Lemma blanks_head : forall f (bl t : list rune), blanks bl -> bl <> [] -> f 32%N = false -> f 9%N = false -> head_not f (bl ++ t).
    Proof. intros f bl t B N F1 F2. destruct B as [|r bl [->| ->] B]; [congruence|exact F1|exact F2]. Qed.

    Lemma ok_OrderedPrefix : forall ws m s bl t b en, blanks ws -> item_mark m (Number s) -> blanks bl -> bl <> [] -> head_not blankb t -> exists b' en',
      Ok_ x_OrderedListElementPrefix (Pos b (ws ++ m ++ bl ++ t)) en c (Peg.VHost (HPrefix s)) (Pos b' t) en' c.
    Proof.
      intros ws m s bl t b en W M B N T. destruct (mark_line m _ M) as (L & Nm & Hm & _). rewrite prefix_shape.
      assert (exists b1, forall en, Ok_ (EAlt (dotsE :: map number_expr numbers)) (Pos (rev ws ++ b) (m ++ bl ++ t)) en c (Peg.VHost (HPrefix s)) (Pos b1 (bl ++ t)) en c) as (b1 & O).
      { destruct (mark_number m s M) as [(n & -> & I)|(l1 & x & l2 & w & En & -> & -> & R & Before & Hd)].
        - destruct (ok_dots n s (bl ++ t) (rev ws ++ b) I) as (en' & O); [now apply blanks_head|]. eexists. intros en0. eapply ok_alt_here. exact O.
        - assert (In x numbers) as Ix by (rewrite En, in_app_iff; right; now left).
          destruct (ok_number x w (bl ++ t) (rev ws ++ b) Ix R) as (b1 & en' & O). exists b1. intros en0.
          rewrite <- app_assoc. cbn [app]. eapply ok_alt_c.
          + replace (w ++ n_end x :: bl ++ t) with (repeat 46%N 0 ++ (w ++ [n_end x]) ++ bl ++ t) by (cbn; now rewrite <- app_assoc).
            apply no_dots; [now apply head_app|now left].
          + rewrite En, map_app. cbn [map]. eapply ok_alt_skip; [|exact O]. intros y Iy. apply in_map_iff in Iy. destruct Iy as (z & <- & Iz).
            apply no_number; [rewrite En, in_app_iff; now left|]. intros w' v R' E'. apply (Before z w' v (bl ++ t) Iz R').
            rewrite <- app_assoc. exact E'. }
      eexists _, (("prefix"%string, Peg.VHost (HPrefix s)) :: en).
      eapply ok_act with (en' := ("prefix"%string, Peg.VHost (HPrefix s)) :: en) (c1 := c); [apply ok_seq|apply (act_label H "prefix")].
      eapply seq_cons; [apply ok_Spaces0; [exact W|now apply head_app]|]. eapply seq_cons; [eapply ok_lab, O|].
      eapply seq_cons; [apply ok_Spaces; auto|apply seq_nil].
    Qed.
    Lemma no_OrderedPrefix : forall ws u b en, blanks ws -> head_not blankb u -> (forall m s z v, item_mark m (Number s) -> blank z -> u <> m ++ z :: v) ->
      No_ x_OrderedListElementPrefix (Pos b (ws ++ u)) en c c.
    Proof.
      intros ws u b en W Hu N. rewrite prefix_shape. apply no_act.
      assert ((forall en, No_ (EAlt (dotsE :: map number_expr numbers)) (Pos (rev ws ++ b) u) en c c) \/
        exists m s v b', item_mark m (Number s) /\ u = m ++ v /\ forall en, Ok_ (EAlt (dotsE :: map number_expr numbers)) (Pos (rev ws ++ b) u) en c (Peg.VHost (HPrefix s)) (Pos b' v) en c) as [Q|Q].
      { destruct (span_char 46%N u) as (k & u' & -> & Hd). set (b0 := rev ws ++ b).
        assert (k = 0 \/ 5 < k \/ exists s, In (k, s) [(1, "arabic"); (2, "loweralpha"); (3, "lowerroman"); (4, "upperalpha"); (5, "upperroman")]%string) as D.
        { destruct k as [|k]; [now left|right]. do 5 (destruct k as [|k]; [right; eexists; cbn; eauto 8|]). left. lia. }
        destruct D as [D|[D|(s & I)]].
        3: { right. destruct (ok_dots k s u' b0 I Hd) as (en' & O). exists (repeat 46%N k), s, u', (repeat 46%N k ++ b0). split; [now apply mark_dots|]. split; [reflexivity|].
             intros en0. eapply ok_alt_here. exact O. }
        1,2: (assert (No_ dotsE (Pos b0 (repeat 46%N k ++ u')) [] c c) as Nd by (apply no_dots; auto);
             destruct (numbers_alts numbers (repeat 46%N k ++ u') b0 (incl_refl _)) as [Q|(x & w & v & b' & Ix & R & E & O)];
             [left; intros en0; apply no_alt_c; [exact Nd|] |right; exists (w ++ [n_end x]), (n_style x), v, b'; split; [now apply number_mark|];
              split; [now rewrite <- app_assoc|]; intros en0; eapply ok_alt_c; [exact Nd|]]).
        all: auto. }
      - eapply (no_seq_c H G [_]); [eapply seq_cons; [apply ok_Spaces0; [exact W|exact Hu]|apply seq_nil]|]. now apply no_lab.
      - destruct Q as (m & s & v & b' & M & -> & O).
        eapply (no_seq_c H G [_; _]); [eapply seq_cons; [apply ok_Spaces0; [exact W|exact Hu]|]; eapply seq_cons; [eapply ok_lab, O|apply seq_nil]|].
        apply no_Spaces. destruct v as [|z v]; [exact Logic.I|]. cbn. apply not_true_iff_false. intros Z. apply blankb_spec in Z. now apply (N m s z v).
    Qed.

    Definition styleE : expr := EAct AText (EAlt [ELit (R "-") false; EPlus (ELit (R "*") false)]).
    Lemma bullet_shape : x_UnorderedListElementPrefix =
      EAct (AHost "return types.NewUnorderedListElementPrefix(style.(string))") (ESeq [EStar x_Space; ELab "style" styleE; EPred (PLenLe "style" 5); x_Spaces]).
    Proof. reflexivity. Qed.
    Lemma ok_dash : forall u b en, Ok_ styleE (Pos b (45%N :: u)) en c (Peg.VStr [45%N]) (Pos (45%N :: b) u) en c.
    Proof.
      intros u b en. eapply ok_act; [eapply ok_alt_here, (ok_lit H G [45%N])|]. change (45%N :: u) with ([45%N] ++ u). rewrite slice_app. apply act_text.
    Qed.
    Lemma ok_stars : forall n u b en, 1 <= n -> head_not (N.eqb 42) u -> Ok_ styleE (Pos b (repeat 42%N n ++ u)) en c (Peg.VStr (repeat 42%N n)) (Pos (repeat 42%N n ++ b) u) en c.
    Proof.
      intros n u b en L Hd. eapply ok_act.
      - eapply ok_alt_c; [destruct n as [|n]; [lia|]; cbn [repeat app]; apply no_lit1; discriminate|]. eapply ok_alt_here, ok_plus.
        + apply (star_lit1 H G 42%N); [discriminate|exact Hd].
        + destruct n; [lia|discriminate].
      - rewrite slice_app. apply act_text.
    Qed.
    Lemma ok_UnorderedPrefix : forall ws m s bl t b en, blanks ws -> item_mark m (Bullet s) -> blanks bl -> bl <> [] -> head_not blankb t -> exists b' en',
      Ok_ x_UnorderedListElementPrefix (Pos b (ws ++ m ++ bl ++ t)) en c (Peg.VHost (HPrefix s)) (Pos b' t) en' c.
    Proof.
      intros ws m s bl t b en W M B N T. destruct (mark_line m _ M) as (L & Nm & Hm & _).
      assert (exists b1, Ok_ styleE (Pos (rev ws ++ b) (m ++ bl ++ t)) [] c (Peg.VStr m) (Pos b1 (bl ++ t)) [] c) as (b1 & O).
      { inversion M as [|n s' I| | | | | |]; subst; [eexists; apply ok_dash|]. eexists. apply ok_stars.
        - cbn in I; repeat destruct I as [I|I]; [..|destruct I]; injection I as <- _; lia.
        - now apply blanks_head. }
      assert (byte_len m <= 5)%Z as Lm.
      { inversion M as [|n s' I| | | | | |]; subst; [vm_compute; discriminate|].
        cbn in I; repeat destruct I as [I|I]; [..|destruct I]; injection I as <- _; vm_compute; discriminate. }
      assert (assoc bullets (encode_runes m) = Some s) as Bs.
      { inversion M as [|n s' I| | | | | |]; subst; [reflexivity|]. cbn in I; repeat destruct I as [I|I]; [..|destruct I]; injection I as <- <-; reflexivity. }
      eexists _, (("style"%string, Peg.VStr m) :: en). rewrite bullet_shape.
      eapply ok_act with (en' := ("style"%string, Peg.VStr m) :: en) (c1 := c).
      - apply ok_seq. eapply seq_cons; [apply ok_Spaces0; [exact W|now apply head_app]|]. eapply seq_cons; [eapply ok_lab, O|].
        eapply seq_cons; [apply ok_pred with (c' := c)|].
        { intros s0 Es. exists s0. split; [|exact Es]. cbn [run_pred label String.eqb Ascii.eqb Bool.eqb]. do 2 f_equal. now apply Z.leb_le. }
        eapply seq_cons; [apply ok_Spaces; auto|apply seq_nil].
      - eapply act_known; [reflexivity|]. intros s0 Es _. unfold run_akind. apply core_store in Es. destruct Es as [-> _].
        cbn [label String.eqb Ascii.eqb Bool.eqb]. now rewrite Bs.
    Qed.
    Lemma no_UnorderedPrefix : forall ws u b en, blanks ws -> head_not blankb u -> (forall m s z v, item_mark m (Bullet s) -> blank z -> u <> m ++ z :: v) ->
      No_ x_UnorderedListElementPrefix (Pos b (ws ++ u)) en c c.
    Proof.
      intros ws u b en W Hu N. rewrite bullet_shape. apply no_act.
      assert (forall m s v b', item_mark m (Bullet s) -> u = m ++ v -> head_not blankb v /\ No_ x_Spaces (Pos b' v) (("style"%string, Peg.VStr m) :: en) c c) as Q.
      { intros m s v b' M ->. assert (head_not blankb v) as Hv by (destruct v as [|z v]; [exact Logic.I|]; cbn; apply not_true_iff_false; intros Z; apply blankb_spec in Z; now apply (N m s z v)).
        split; [exact Hv|now apply no_Spaces]. }
      assert (forall m b1 v, Ok_ styleE (Pos (rev ws ++ b) u) [] c (Peg.VStr m) (Pos b1 v) [] c ->
         (byte_len m <= 5)%Z -> No_ x_Spaces (Pos b1 v) (("style"%string, Peg.VStr m) :: en) c c ->
         No_ (ESeq [EStar x_Space; ELab "style" styleE; EPred (PLenLe "style" 5); x_Spaces]) (Pos b (ws ++ u)) en c c) as A.
      { intros m b1 v O Lm Nv. eapply (no_seq_c H G [_; _; _]); [|exact Nv].
        eapply seq_cons; [apply ok_Spaces0; [exact W|exact Hu]|]. eapply seq_cons; [eapply ok_lab, O|].
        eapply seq_cons; [apply ok_pred with (c' := c)|apply seq_nil].
        intros s0 Es. exists s0. split; [|exact Es]. cbn [run_pred label String.eqb Ascii.eqb Bool.eqb]. do 2 f_equal. now apply Z.leb_le. }
      destruct u as [|x u].
      { eapply (no_seq_c H G [_]); [eapply seq_cons; [apply ok_Spaces0; [exact W|exact Hu]|apply seq_nil]|].
        apply no_lab, no_act. apply no_alt_c; [apply no_lit_end; discriminate|]. apply no_alt_c; [apply no_plus, no_lit_end; discriminate|apply no_alt_nil]. }
      destruct (N.eqb_spec x 45) as [->|N45].
      { eapply A; [apply ok_dash|vm_compute; discriminate|]. eapply (Q [45%N]); [apply mark_dash|reflexivity]. }
      destruct (span_char 42%N (x :: u)) as (k & u' & Eu & Hd). destruct k as [|k].
      { cbn [repeat app] in Eu. subst u'. cbn in Hd. eapply (no_seq_c H G [_]); [eapply seq_cons; [apply ok_Spaces0; [exact W|exact Hu]|apply seq_nil]|].
        apply no_lab, no_act. apply no_alt_c; [apply no_lit1; intros E; apply N45; exact (eq_sym E)|]. apply no_alt_c; [apply no_plus, no_lit1; intros <-; discriminate|apply no_alt_nil]. }
      rewrite Eu in *.
      assert (5 < S k \/ exists s, In (S k, s) [(1, "1asterisk"); (2, "2asterisks"); (3, "3asterisks"); (4, "4asterisks"); (5, "5asterisks")]%string) as [D|(s & I)].
      { do 5 (destruct k as [|k]; [right; eexists; cbn; eauto 8|]). left. lia. }
      - eapply (no_seq_c H G [_; _]).
        + eapply seq_cons; [apply ok_Spaces0; [exact W|exact Hu]|]. eapply seq_cons; [eapply ok_lab, ok_stars; [lia|exact Hd]|apply seq_nil].
        + apply no_pred. intros s0 Es. exists s0. split; [|exact Es]. cbn [run_pred label String.eqb Ascii.eqb Bool.eqb].
          rewrite byte_len_repeat by reflexivity. do 2 f_equal. apply Z.leb_gt. lia.
      - eapply A; [apply ok_stars; [lia|exact Hd]| |].
        + rewrite byte_len_repeat by reflexivity. cbn in I; repeat destruct I as [I|I]; [..|destruct I]; injection I as I _; lia.
        + eapply (Q _ s); [now apply mark_stars|reflexivity].
    Qed.

    (** * Items *)
    Lemma ok_Content : forall l e t b en, one_line l -> l <> [] -> eol e t -> exists b' en',
      Ok_ x_ListElementContent (Pos b (l ++ e ++ t)) en c (elem (Paragraph [] (raw_lines [l]))) (Pos b' t) en' c.
    Proof.
      intros l e t b en L Nl E. pose proof (eol_at _ _ E) as T.
      assert (P_PegRun.head_not (fun r => Bool.eqb (in_cls H [13; 10]%N [] [] r) (negb true)) (e ++ t)) as Hd.
      { destruct (e ++ t) as [|q u]; [exact Logic.I|]. cbn [P_PegRun.head_not at_eol] in *. rewrite in_eol, T. reflexivity. }
      pose (rl := elem (newRawLine (encode_runes l)) : value (HV H)).
      assert (Star_ (EAct (AHost "return types.NewRawLine(string(c.text))") (EPlus (ECls [13; 10]%N [] [] true))) (Pos b (l ++ e ++ t)) c [rl] (Pos (rev l ++ b) (e ++ t)) c) as S1.
      { eapply (star_more H G); [|apply star_stop].
        - eapply ok_act; [eapply ok_plus; [apply star_cls|]|].
          + intros q I. rewrite in_eol. apply (proj1 (one_line_spec l) L q I).
          + exact Hd.
          + destruct l; [congruence|discriminate].
          + rewrite slice_app. eapply act_known; [reflexivity|]. intros s Es Et. unfold run_akind. apply core_store in Es. destruct Es as [-> _].
            rewrite Et. reflexivity.
        - apply no_act, no_plus. destruct (e ++ t) as [|q u]; [apply no_cls_end|]. apply no_cls. cbn [P_PegRun.head_not at_eol] in *. now rewrite in_eol. }
      destruct (ok_EOL H G e t (rev l ++ b) (("rawLines"%string, VList [rl]) :: en) c E) as (v & b' & O).
      exists b', (("rawLines"%string, VList [rl]) :: en). eapply ok_act.
      - apply ok_seq. eapply seq_cons; [eapply ok_lab, ok_plus; [exact S1|discriminate]|]. eapply seq_cons; [exact O|apply seq_nil].
      - eapply act_known; [reflexivity|]. intros s Es _. unfold run_akind. apply core_store in Es. destruct Es as [-> _].
        cbn [label String.eqb Ascii.eqb Bool.eqb].
        change (VList [rl]) with (VList (map (fun l => elem (newRawLine (encode_runes l))) [l]) : value (hv X)). rewrite vals_lines.
        cbn [newParagraph]. now rewrite end_lines_spec.
    Qed.
    Lemma head_line : forall (f : rune -> bool) x l t, f x = false -> head_not f ((x :: l) ++ t).
    Proof. intros f x l t E. exact E. Qed.
    (** no item starts here *)
    Definition no_marks (u : list rune) : Prop := forall m k z v, item_mark m k -> blank z -> u <> m ++ z :: v.
    Lemma no_OrderedItem : forall ws u b, blanks ws -> head_not blankb u -> no_marks u -> No_ x_OrderedListElement (Pos b (ws ++ u)) [] c c.
    Proof. intros ws u b W Hu N. apply no_act, no_seq1_c, no_lab. apply no_OrderedPrefix; auto. intros m s z v M. now apply (N m (Number s)). Qed.
    Lemma no_UnorderedItem : forall ws u b, blanks ws -> head_not blankb u -> no_marks u -> No_ x_UnorderedListElement (Pos b (ws ++ u)) [] c c.
    Proof. intros ws u b W Hu N. apply no_act, no_seq1_c, no_lab. apply no_UnorderedPrefix; auto. intros m s z v M. now apply (N m (Bullet s)). Qed.
    Lemma no_Callout : forall u b, head_not (N.eqb 60) u -> No_ x_CalloutListElementPrefix (Pos b u) [] c c.
    Proof.
      intros u b Hu. apply no_act, no_seq1_c. destruct u as [|r u]; [apply no_lit_end; discriminate|]. apply no_lit1. intros <-. discriminate.
    Qed.
    (** a bullet is not a number *)
    Lemma bullet_head : forall m s, item_mark m (Bullet s) -> exists m', m = 45%N :: m' \/ m = 42%N :: m'.
    Proof.
      intros m s M. inversion M as [|n s' I| | | | | |]; subst; [exists []; now left|].
      cbn in I; repeat destruct I as [I|I]; [..|destruct I]; injection I as <- _; eexists; right; reflexivity.
    Qed.
    Lemma number_head : forall m s, item_mark m (Number s) -> exists x m', m = x :: m' /\ x <> 45%N /\ x <> 42%N.
    Proof.
      intros m s M. inversion M as [| |n s' I|w Nw F|r Br|r Br|w Nw F|w Nw F]; subst.
      - cbn in I; repeat destruct I as [I|I]; [..|destruct I]; injection I as <- _; eexists _, _; (split; [reflexivity|split; discriminate]).
      - destruct w as [|x w]; [congruence|]. inversion F as [|? ? [Q _] _]; subst. exists x, (w ++ [46%N]). split; [reflexivity|]. lia.
      - exists r, [46%N]. unfold between in Br. split; [reflexivity|]. lia.
      - exists r, [46%N]. unfold between in Br. split; [reflexivity|]. lia.
      - destruct w as [|x w]; [congruence|]. inversion F as [|? ? Q _]; subst. exists x, (w ++ [41%N]). split; [reflexivity|]. cbn in Q. lia.
      - destruct w as [|x w]; [congruence|]. inversion F as [|? ? Q _]; subst. exists x, (w ++ [41%N]). split; [reflexivity|]. cbn in Q. lia.
    Qed.
    Lemma no_Check : forall r t b, r <> 91%N -> No_ x_UnorderedListElementCheckStyle (Pos b (r :: t)) [] c c.
    Proof. intros r t b N. apply no_act, no_seq1_c, no_and_c, no_lit1. intros E. apply N. exact (eq_sym E). Qed.
    Definition item_alts : list expr := [x_OrderedListElement; x_UnorderedListElement; x_CalloutListElement; x_LabeledListElement].
    Lemma ok_Item : forall l k x e t b, item_line l k x -> eol e t -> exists b', forall en,
      Ok_ (EAlt item_alts) (Pos b (l ++ e ++ t)) en c (elem (item_val (k, [x]))) (Pos b' t) en c.
    Proof.
      intros l k x e t b (ws & m & bl & -> & W & M & B & Nb & L & Hx) E.
      assert (head_not blankb (x ++ e ++ t) /\ x <> []) as [Hd Nx].
      { destruct x as [|r x]; [destruct Hx|]. split; [|discriminate]. cbn. apply not_true_iff_false. intros Q. apply blankb_spec in Q. tauto. }
      rewrite <- !app_assoc. destruct k as [s|s].
      - destruct (ok_UnorderedPrefix ws m s bl (x ++ e ++ t) b [] W M B Nb Hd) as (b1 & en1 & O1).
        set (en2 := [("checkstyle"%string, Peg.VNil); ("prefix"%string, Peg.VHost (HPrefix s))] : labels (hv X)).
        destruct (ok_Content x e t b1 [] L Nx E) as (b2 & en3 & O2).
        exists b2. intros en. eapply ok_alt_c.
        { apply no_act, no_seq1_c, no_lab. apply no_OrderedPrefix; [exact W| |].
          - destruct (mark_line m _ M) as (_ & Nm & Hm & _). now apply head_app.
          - intros m' s' z v M' Z E'. destruct (bullet_head m s M) as (m0 & Hm). destruct (number_head m' s' M') as (y & m1 & -> & Hy).
            destruct Hm as [-> | ->]; injection E' as <- _; tauto. }
        eapply ok_alt_here. eapply ok_act with (c1 := c).
        + apply ok_seq. eapply seq_cons; [eapply ok_lab, O1|].
          eapply seq_cons; [eapply ok_lab, ok_opt_none|].
          { destruct x as [|r x]; [congruence|]. cbn [app]. apply no_Check. tauto. }
          eapply seq_cons; [eapply ok_lab, O2|apply seq_nil].
        + eapply act_known; [reflexivity|]. intros s0 Es _. unfold run_akind. apply core_store in Es. destruct Es as [-> _].
          cbn [label String.eqb Ascii.eqb Bool.eqb to_val elem]. reflexivity.
      - destruct (ok_OrderedPrefix ws m s bl (x ++ e ++ t) b [] W M B Nb Hd) as (b1 & en1 & O1).
        destruct (ok_Content x e t b1 [] L Nx E) as (b2 & en3 & O2).
        exists b2. intros en. eapply ok_alt_here. eapply ok_act with (c1 := c).
        + apply ok_seq. eapply seq_cons; [eapply ok_lab, O1|]. eapply seq_cons; [eapply ok_lab, O2|apply seq_nil].
        + eapply act_known; [reflexivity|]. intros s0 Es _. unfold run_akind. apply core_store in Es. destruct Es as [-> _].
          cbn [label String.eqb Ascii.eqb Bool.eqb to_val elem]. reflexivity.
    Qed.
    (** a line without two colons is not a term *)
    Lemma no_Separator : forall l t b en, no_colons l -> at_eol t -> No_ x_LabeledListElementSeparator (Pos b (l ++ t)) en c c.
    Proof.
      intros l t b en N T. apply no_act.
      assert (forall b t en, at_eol t -> No_ (ELab "separator" (EAct AText (EPlus (ELit (R ":") false)))) (Pos b t) en c c) as N0.
      { intros b0 t0 en0 T0. apply no_lab, no_act, no_plus. destruct t0 as [|r t0]; [apply no_lit_end; discriminate|]. apply no_lit1. intros <-. discriminate. }
      destruct l as [|r l]; [apply no_seq1_c, N0; exact T|].
      destruct (N.eqb_spec r 58) as [->|Nr].
      2: { apply no_seq1_c, no_lab, no_act, no_plus. cbn [app]. apply no_lit1. intros E. apply Nr. exact (eq_sym E). }
      eapply (no_seq_c H G [_]); [eapply seq_cons; [|apply seq_nil]|].
      - eapply ok_lab with (en' := []). eapply ok_act.
        + eapply ok_plus; [apply (star_lit1 H G 58%N 1 (l ++ t)); [discriminate|]|discriminate].
          destruct l as [|y l]; cbn [app].
          * destruct t as [|y t]; [exact Logic.I|]. cbn [at_eol head_not] in *. apply N.eqb_neq. intros <-. discriminate.
          * cbn [head_not]. apply N.eqb_neq. intros <-. apply N. exists [], l. reflexivity.
        + change ((58%N :: l) ++ t) with (repeat 58%N 1 ++ l ++ t). rewrite slice_app. apply act_text.
      - apply no_pred. intros s0 Es. exists s0. split; [|exact Es]. reflexivity.
    Qed.
    Lemma no_Term : forall l e t b, one_line l -> no_colons l -> eol e t ->
      No_ x_LabeledListElementTerm (Pos b (l ++ e ++ t)) [] c c \/
      exists v b', Ok_ x_LabeledListElementTerm (Pos b (l ++ e ++ t)) [] c v (Pos b' (e ++ t)) [] c.
    Proof.
      intros l e t b L N E. pose proof (eol_at _ _ E) as T.
      assert (forall b, No_ (ESeq [ENot x_LabeledListElementSeparator; ENot x_EOL; EAny]) (Pos b (e ++ t)) [] c c) as N0.
      { intros b0. destruct (ok_EOL H G e t b0 [] c E) as (v & b' & O).
        eapply (no_seq_c H G [_]); [eapply seq_cons; [apply ok_not_c, (no_Separator []); [|exact T]|apply seq_nil]|eapply no_not_c, O].
        intros (a & d & Q). destruct a; discriminate. }
      assert (forall b, exists vs b', List.length vs = List.length l /\ Star_ (ESeq [ENot x_LabeledListElementSeparator; ENot x_EOL; EAny]) (Pos b (l ++ e ++ t)) c vs (Pos b' (e ++ t)) c) as S1.
      { clear b. induction l as [|r l IH]; intros b.
        - exists [], b. split; [reflexivity|]. apply star_stop, N0.
        - inversion L as [|? ? [R1 R2] L']; subst. destruct (IH L') with (b := r :: b) as (vs & b' & Ln & Q).
          { intros (a & d & ->). apply N. exists (r :: a), d. reflexivity. }
          eexists (_ :: vs), b'. split; [cbn; f_equal; exact Ln|]. eapply star_more; [|exact Q].
          apply ok_seq. eapply seq_cons; [apply ok_not_c, (no_Separator (r :: l)); [exact N|exact T]|].
          eapply seq_cons; [apply ok_not_c, no_EOL; unfold eolb; now rewrite orb_false_iff, !N.eqb_neq|].
          eapply seq_cons; [apply ok_any|apply seq_nil]. }
      destruct (S1 b) as (vs & b' & Ln & Q). destruct l as [|r l].
      - left. apply no_act, no_plus, N0.
      - right. eexists _, b'. eapply ok_act; [eapply ok_plus; [exact Q|destruct vs; [discriminate|discriminate]]|].
        eapply act_known; [reflexivity|]. intros s Es Et. unfold run_akind. apply core_store in Es. destruct Es as [-> _]. rewrite Et. reflexivity.
    Qed.
    Lemma no_TermSeparator : forall l e t b, one_line l -> no_colons l -> eol e t ->
      No_ (ESeq [x_LabeledListElementTerm; x_LabeledListElementSeparator]) (Pos b (l ++ e ++ t)) [] c c.
    Proof.
      intros l e t b L N E. destruct (no_Term l e t b L N E) as [Q|(v & b' & Q)]; [now apply no_seq1_c|].
      eapply (no_seq_c H G [_]); [eapply seq_cons; [exact Q|apply seq_nil]|]. apply (no_Separator []); [|now apply eol_at].
      intros (a & d & Z). destruct a; discriminate.
    Qed.
    Lemma no_Labeled : forall l e t b, one_line l -> no_colons l -> eol e t -> No_ x_LabeledListElement (Pos b (l ++ e ++ t)) [] c c.
    Proof.
      intros l e t b L N E. apply no_act. destruct (no_Term l e t b L N E) as [Q|(v & b' & Q)]; [apply no_seq1_c; now apply no_lab|].
      eapply (no_seq_c H G [_]); [eapply seq_cons; [eapply ok_lab, Q|apply seq_nil]|]. apply no_lab, (no_Separator []); [|now apply eol_at].
      intros (a & d & Z). destruct a; discriminate.
    Qed.
    (** no item *)
    Lemma no_item_marks : forall l e t, no_item l -> eol e t -> exists ws u, l ++ e ++ t = ws ++ u /\ blanks ws /\ head_not blankb u /\ no_marks u.
    Proof.
      intros l e t N E. destruct (span_blanks l) as (ws & l' & -> & W & Hd). exists ws, (l' ++ e ++ t). split; [now rewrite <- app_assoc|]. split; [exact W|]. split.
      - destruct l' as [|r l']; [|exact Hd]. cbn [app]. now apply at_eol_not_blank, eol_at.
      - intros m k z v M Z. eapply no_item_text; eauto. now apply eol_at.
    Qed.
    Lemma no_Items : forall l e t b, one_line l -> no_item l -> no_colons l -> eol e t -> head_not (N.eqb 60) (l ++ e ++ t) ->
      forall en, No_ (EAlt item_alts) (Pos b (l ++ e ++ t)) en c c.
    Proof.
      intros l e t b L N Nc E Hd en. destruct (no_item_marks l e t N E) as (ws & u & Eu & W & Hu & Nm).
      apply no_alt_c; [rewrite Eu; now apply no_OrderedItem|]. apply no_alt_c; [rewrite Eu; now apply no_UnorderedItem|].
      apply no_alt_c; [apply no_act, no_seq1_c, no_lab, no_Callout; exact Hd|]. apply no_alt_c; [now apply no_Labeled|apply no_alt_nil].
    Qed.

    (** * What follows the first item *)
    Lemma head_neq : forall x r t, x <> r -> head_not (N.eqb x) (r :: t).
    Proof. intros x r t N. now apply N.eqb_neq. Qed.
    Lemma no_Blank : forall ws x t b en, blanks ws -> blankb x = false -> eolb x = false -> No_ x_BlankLine (Pos b (ws ++ x :: t)) en c c.
    Proof.
      intros ws x t b en W Bx Ex. apply no_act.
      assert (exists z u, ws ++ x :: t = z :: u) as (z & u & Ez) by (destruct ws; eexists _, _; reflexivity).
      eapply (no_seq_c H G [_; _]); [|apply no_EOL; exact Ex].
      eapply seq_cons; [rewrite Ez; apply ok_NotEOF|]. rewrite <- Ez. eapply seq_cons; [apply ok_Spaces0; [exact W|exact Bx]|apply seq_nil].
    Qed.
    Lemma no_Blank_end : forall b en, No_ x_BlankLine (Pos b []) en c c.
    Proof. intros b en. apply no_act, no_seq1_c, no_NotEOF. Qed.
    Lemma blanks_ok : forall t t', blank_lines t t' -> (forall b, No_ x_BlankLine (Pos b t') [] c c) -> forall b, exists vs b',
      Star_ x_BlankLine (Pos b t) c vs (Pos b' t') c.
    Proof.
      intros t t' Bl N. induction Bl as [t|ws e t t' W Ne E Bl IH]; intros b.
      - exists [], b. apply star_stop, N.
      - destruct (ok_BlankLine X cls low white other ws e t b [] er g st W Ne E) as (b1 & en1 & O). destruct (IH N b1) as (vs & b' & Q).
        eexists (_ :: vs), b'. eapply (star_more H G); [exact O|exact Q].
    Qed.
    (** the beginning of the line of an item *)
    Lemma item_head : forall l k x, item_line l k x -> exists ws y u, l = ws ++ y :: u /\ blanks ws /\ blankb y = false /\ eolb y = false.
    Proof.
      intros l k x (ws & m & bl & -> & W & M & B & Nb & L & Hx). destruct (mark_line m k M) as (Lm & Nm & Hm & _).
      destruct m as [|y m]; [congruence|]. exists ws, y, (m ++ bl ++ x). split; [reflexivity|]. split; [exact W|]. split; [exact Hm|].
      inversion Lm as [|? ? [Y1 Y2] _]; subst. unfold eolb. now rewrite orb_false_iff, !N.eqb_neq.
    Qed.
    Lemma app_not_nil : forall (ws : list rune) y u, ws ++ y :: u <> [].
    Proof. intros [|x ws] y u; discriminate. Qed.
    Lemma ok_NotEOF' : forall t b en, t <> [] -> Ok_ x_NotEOF (Pos b t) en c Peg.VNil (Pos b t) en c.
    Proof. intros [|x t] b en N; [congruence|]. apply ok_NotEOF. Qed.
    Lemma blank_lines_nil : forall t t', blank_lines t t' -> t' <> [] -> t <> [].
    Proof.
      intros t t' Bl. induction Bl as [t|ws e t t' W Ne E Bl IH]; intros N; [exact N|]. rewrite app_assoc. destruct (ws ++ e); [congruence|discriminate].
    Qed.
    Lemma ok_extra_item : forall t0 l k x e t b, blank_lines t0 (l ++ e ++ t) -> item_line l k x -> eol e t -> exists b',
      Ok_ (ERef "ExtraListElement") (Pos b t0) [] c (elem (item_val (k, [x]))) (Pos b' t) [] c.
    Proof.
      intros t0 l k x e t b Bl Il E. destruct (item_head l k x Il) as (ws & y & u & El & W & By & Ey).
      destruct (blanks_ok _ _ Bl) with (b := b) as (vs & b1 & Q).
      { intros b1. rewrite El, <- app_assoc. now apply no_Blank. }
      destruct (ok_Item l k x e t b1 Il E) as (b' & O). exists b'.
      eapply ok_ref; [reflexivity|]. eapply ok_act with (c1 := c) (en' := [("element"%string, elem (item_val (k, [x])))]); [|apply act_label].
      apply ok_seq. eapply seq_cons; [apply ok_NotEOF'|].
      { eapply blank_lines_nil; [exact Bl|]. rewrite El, <- app_assoc. apply app_not_nil. }
      eapply seq_cons; [eapply ok_lab, ok_alt_here|apply seq_nil].
      eapply ok_act with (c1 := c) (en' := [("element"%string, elem (item_val (k, [x])))]); [|apply act_label].
      apply ok_seq. eapply seq_cons; [eapply ok_star, Q|]. eapply seq_cons; [eapply ok_lab, (O [])|apply seq_nil].
    Qed.

    (** the continuation of a list *)
    Definition offsetE : expr := ESeq [EStar x_Space; x_Newline].
    Lemma ok_Newline_e : forall e t b en, eol e t -> e <> [] -> exists v b', Ok_ x_Newline (Pos b (e ++ t)) en c v (Pos b' t) en c.
    Proof.
      intros e t b en [->|[->|[[-> T]|[-> ->]]]] Ne; [..|congruence].
      - do 2 eexists. eapply ok_act; [|apply act_text]. eapply ok_alt_here. apply (ok_lit H G [10%N]).
      - do 2 eexists. eapply ok_act; [|apply act_text]. eapply ok_alt_c; [apply no_lit1; discriminate|].
        eapply ok_alt_here. apply (ok_lit H G [13%N; 10%N]).
      - do 2 eexists. eapply ok_act; [|apply act_text]. eapply ok_alt_c; [apply no_lit1; discriminate|].
        eapply ok_alt_c; [|eapply ok_alt_here; apply (ok_lit H G [13%N])].
        apply no_lit. destruct t as [|y t]; [reflexivity|]. cbn. destruct (N.eqb_spec y 10) as [->|Ny]; [destruct T|]. now destruct (y =? 10)%N eqn:Q; [apply N.eqb_eq in Q|].
    Qed.
    Lemma no_Newline : forall t b en, P_PegRun.head_not eolb t -> No_ x_Newline (Pos b t) en c c.
    Proof.
      intros t b en E. apply no_act. destruct t as [|r t].
      - repeat apply no_alt_c; try (apply no_lit_end; discriminate). apply no_alt_nil.
      - cbn in E. unfold eolb in E. rewrite orb_false_iff, !N.eqb_neq in E. destruct E as [E1 E2].
        repeat apply no_alt_c; try (apply no_lit1; intros <-; tauto). apply no_alt_nil.
    Qed.
    Lemma no_offset : forall ws t b, blanks ws -> head_not blankb t -> head_not eolb t -> No_ offsetE (Pos b (ws ++ t)) [] c c.
    Proof.
      intros ws t b W Hb He. eapply (no_seq_c H G [_]); [eapply seq_cons; [apply ok_Spaces0; [exact W|exact Hb]|apply seq_nil]|]. now apply no_Newline.
    Qed.
    (** where the offset of a continuation ends *)
    Lemma offset_ok : forall t t', blank_lines t t' -> (forall b, No_ offsetE (Pos b t') [] c c) -> forall b, exists vs b' u,
      Star_ offsetE (Pos b t) c vs (Pos b' u) c /\ (u = t' \/ head_not (N.eqb 43) u).
    Proof.
      intros t t' Bl N. induction Bl as [t|ws e t t' W Ne E Bl IH]; intros b.
      - exists [], b, t. split; [apply star_stop, N|auto].
      - assert (e = [] \/ e <> []) as [->|Ee] by (destruct e; [now left|right; discriminate]).
        + assert (t = []) as -> by (destruct E as [E|[E|[[E _]|[_ E]]]]; [discriminate..|exact E]).
          exists [], b, ws. rewrite app_nil_r in *. split.
          * apply star_stop. rewrite <- (app_nil_r ws). now apply no_offset.
          * right. destruct W as [|x ws [->| ->] W]; [congruence|reflexivity..].
        + destruct (ok_Newline_e e t (rev ws ++ b) [] E Ee) as (v & b1 & O). destruct (IH N b1) as (vs & b' & u & Q & D).
          eexists (_ :: vs), b', u. split; [|exact D]. eapply (star_more H G); [|exact Q].
          apply ok_seq. eapply seq_cons; [apply ok_Spaces0; [exact W|now apply at_eol_not_blank, eol_at]|]. eapply seq_cons; [exact O|apply seq_nil].
    Qed.
    Lemma no_plus_sign : forall t b en, head_not (N.eqb 43) t -> No_ (ELit (R "+") false) (Pos b t) en c c.
    Proof. intros [|r t] b en Hd; [apply no_lit_end; discriminate|]. apply no_lit1. intros <-. discriminate. Qed.
    Lemma no_Continuation : forall t b, head_not (N.eqb 43) t -> (forall b, No_ offsetE (Pos b t) [] c c) -> No_ (ERef "ListContinuation") (Pos b t) [] c c.
    Proof.
      intros t b Hd N. eapply no_ref; [reflexivity|]. apply no_act. eapply (no_seq_c H G [_]).
      - eapply seq_cons; [eapply ok_lab, ok_star, star_stop, N|apply seq_nil].
      - now apply no_plus_sign.
    Qed.
    (** the parts of [list_over] *)
    Lemma over_head : forall t, list_over t -> (forall b, No_ offsetE (Pos b t) [] c c) /\ (forall b, No_ x_BlankLine (Pos b t) [] c c).
    Proof.
      intros t [->|(l & e & u & -> & E & L & Ni & Nc & Nd & Hd)].
      - split; intros b; [exact (no_offset [] [] b (Forall_nil _) Logic.I Logic.I)|apply no_Blank_end].
      - destruct l as [|r l]; [destruct Hd|]. destruct Hd as [Hb H60]. inversion L as [|? ? [R1 R2] _]; subst.
        assert (blankb r = false) as Bf by (apply not_true_iff_false; rewrite blankb_spec; exact Hb).
        assert (eolb r = false) as Ef by (unfold eolb; now rewrite orb_false_iff, !N.eqb_neq).
        split; intros b; [apply (no_offset [])|apply (no_Blank [])]; auto; constructor.
    Qed.
    Lemma no_Continuation_blank : forall t t' b, blank_lines t t' -> list_over t' -> No_ (ERef "ListContinuation") (Pos b t) [] c c.
    Proof.
      intros t t' b Bl Ov. destruct (over_head t' Ov) as [No_off _]. destruct (offset_ok t t' Bl No_off b) as (vs & b' & u & Q & D).
      eapply no_ref; [reflexivity|]. apply no_act.
      assert (head_not (N.eqb 43) u \/ exists x l e v, u = 43%N :: (x :: l) ++ e ++ v /\ one_line (x :: l) /\ eol e v /\ forall ws, blanks ws -> x :: l <> ws) as [Hd|(x & l & e & v & -> & L & E & Nb)].
      { destruct D as [->|Hd]; [|now left]. destruct Ov as [->|(l & e & v & -> & E & L & Ni & Nc & Nd & Hd)]; [left; exact Logic.I|].
        destruct l as [|r l]; [destruct Hd|]. destruct (N.eqb_spec r 43) as [->|Nr].
        - inversion L as [|? ? _ L']; subst. destruct l as [|x l]; [exfalso; apply Nd; exists []; split; [constructor|reflexivity]|].
          right. exists x, l, e, v. split; [reflexivity|]. split; [exact L'|]. split; [exact E|]. intros ws W Ew. apply Nd. exists ws. split; [exact W|]. cbn [repeat app]. f_equal. exact Ew.
        - left. apply (head_neq 43). congruence. }
      - eapply (no_seq_c H G [_]); [eapply seq_cons; [eapply ok_lab, ok_star, Q|apply seq_nil]|]. now apply no_plus_sign.
      - destruct (span_blanks (x :: l)) as (ws & l' & El & W & Hd). destruct l' as [|y l']; [exfalso; rewrite app_nil_r in El; exact (Nb ws W El)|].
        rewrite El in *. eapply (no_seq_c H G [_; _; _]).
        + eapply seq_cons; [eapply ok_lab, ok_star, Q|]. eapply seq_cons; [apply (ok_lit H G [43%N])|].
          eapply seq_cons; [rewrite <- app_assoc; apply ok_Spaces0; [exact W|exact Hd]|apply seq_nil].
        + apply no_Newline. apply (proj1 (one_line_spec _) L). rewrite in_app_iff. right. now left.
    Qed.

    (** the lines that end a list *)
    Lemma extra_stop : forall t t' b, blank_lines t t' -> (forall b, No_ x_BlankLine (Pos b t') [] c c) ->
      (forall b en, No_ (EAlt item_alts) (Pos b t') en c c) ->
      No_ (ERef "BlockAttributes") (Pos b t) [] c c -> No_ (ERef "ListContinuation") (Pos b t) [] c c ->
      No_ x_SinglelineComment (Pos b t) [] c c -> No_ x_ListElementParagraphLine (Pos b t) [] c c ->
      No_ (ERef "ExtraListElement") (Pos b t) [] c c.
    Proof.
      intros t t' b Bl Nb Ni N1 N2 N3 N4. eapply no_ref; [reflexivity|]. apply no_act.
      destruct t as [|x t]; [apply no_seq1_c, no_NotEOF|]. eapply (no_seq_c H G [_]); [eapply seq_cons; [apply ok_NotEOF|apply seq_nil]|].
      apply no_lab. destruct (blanks_ok _ _ Bl Nb b) as (vs & b1 & Q).
      apply no_alt_c; [apply no_act; eapply (no_seq_c H G [_]); [eapply seq_cons; [eapply ok_star, Q|apply seq_nil]|apply no_lab, Ni]|].
      apply no_alt_c; [apply no_act, no_seq1_c, no_lab, no_plus; exact N1|].
      apply no_alt_c; [exact N2|]. apply no_alt_c; [exact N3|]. apply no_alt_c; [exact N4|apply no_alt_nil].
    Qed.
    Lemma stop_extra_end : forall b, No_ (ERef "ExtraListElement") (Pos b []) [] c c.
    Proof. intros b. eapply no_ref; [reflexivity|]. apply no_act, no_seq1_c, no_NotEOF. Qed.
    Lemma blank_head : forall ws e t, blanks ws -> ws ++ e <> [] -> eol e t -> exists r u, ws ++ e ++ t = r :: u /\ r <> 91%N /\ r <> 46%N /\ r <> 47%N.
    Proof.
      intros ws e t W Ne E. destruct W as [|r ws Br W].
      - cbn [app] in *. destruct E as [->|[->|[[-> _]|[-> _]]]]; [..|congruence]; eexists _, _; (split; [reflexivity|]; repeat split; discriminate).
      - exists r, (ws ++ e ++ t). split; [reflexivity|]. destruct Br as [->| ->]; repeat split; discriminate.
    Qed.
    Lemma over_items : forall t, list_over t -> forall b en, No_ (EAlt item_alts) (Pos b t) en c c.
    Proof.
      intros t [->|(l & e & u & -> & E & L & Ni & Nc & Nd & Hd)] b en.
      - apply (no_Items [] [] [] b); [constructor| | |right; right; right; auto|exact Logic.I].
        + intros (ws & m & k & z & u & _ & _ & _ & Q). destruct ws; [destruct m|]; discriminate.
        + intros (a & d & Q). destruct a; discriminate.
      - apply no_Items; auto. destruct l as [|r l]; [destruct Hd|]. apply (head_neq 60). intros <-. tauto.
    Qed.
    Lemma stop_extra_blank : forall ws e t t' b, blanks ws -> ws ++ e <> [] -> eol e t -> blank_lines t t' -> list_over t' ->
      No_ (ERef "ExtraListElement") (Pos b (ws ++ e ++ t)) [] c c.
    Proof.
      intros ws e t t' b W Ne E Bl Ov. destruct (over_head t' Ov) as [N1 N2].
      assert (blank_lines (ws ++ e ++ t) t') as Bl' by now apply one_blank_line.
      destruct (ok_BlankLine X cls low white other ws e t b [] er g st W Ne E) as (b1 & en1 & O).
      pose proof (no_Continuation_blank _ _ b Bl' Ov) as NC. destruct (blank_head ws e t W Ne E) as (r & u & Er & R1 & R2 & R3).
      eapply extra_stop; [exact Bl'|exact N2|now apply over_items| |exact NC| |].
      - rewrite Er. now apply no_BlockAttributes.
      - rewrite Er. now apply no_Comment.
      - apply no_act, no_seq1_c. eapply no_not_c, O.
    Qed.
    Lemma list_fence_prefix : forall kind x m, In (kind, x, m) (("comment"%string, 47%N, 4) :: fences) -> forall b,
      forallb (fun e => fails_on G quiet_name 40 e true b (repeat x m))
        [x_BlankLine; ERef "BlockAttributes"; ERef "ListContinuation"; x_SinglelineComment; x_ListContinuationMarker] = true.
    Proof.
      intros kind x m I b. unfold fences in I. cbn [In] in I.
      repeat match type of I with _ \/ _ => destruct I as [I|I] end; try (injection I as <- <- <-); [..|destruct I]; vm_compute; reflexivity.
    Qed.
    Lemma fence_char : forall kind x m, In (kind, x, m) (("comment"%string, 47%N, 4) :: fences) -> 1 <= m /\ x <> 58%N /\ x <> 60%N /\ x <> 10%N /\ x <> 13%N.
    Proof.
      intros kind x m I. unfold fences in I. cbn [In] in I.
      repeat match type of I with _ \/ _ => destruct I as [I|I] end; try (injection I as <- <- <-); [..|destruct I]; repeat split; try discriminate; lia.
    Qed.
    (** the line that starts with none of the marks of a list *)
    Lemma no_line_marks : forall l e t b, one_line l -> no_item l -> no_colons l -> eol e t -> head_not (N.eqb 60) (l ++ e ++ t) ->
      No_ x_OrderedListElementPrefix (Pos b (l ++ e ++ t)) [] c c /\ No_ x_UnorderedListElementPrefix (Pos b (l ++ e ++ t)) [] c c /\
      No_ x_CalloutListElementPrefix (Pos b (l ++ e ++ t)) [] c c /\
      No_ (ESeq [x_LabeledListElementTerm; x_LabeledListElementSeparator]) (Pos b (l ++ e ++ t)) [] c c.
    Proof.
      intros l e t b L N Nc E Hd. destruct (no_item_marks l e t N E) as (ws & u & Eu & W & Hu & Nm). split; [|split; [|split]].
      - rewrite Eu. apply no_OrderedPrefix; auto. intros m s z v M. now apply (Nm m (Number s)).
      - rewrite Eu. apply no_UnorderedPrefix; auto. intros m s z v M. now apply (Nm m (Bullet s)).
      - now apply no_Callout.
      - now apply no_TermSeparator.
    Qed.
    Lemma stop_extra_fence : forall kind x m n ws e t b, In (kind, x, m) (("comment"%string, 47%N, 4) :: fences) -> m <= n -> blanks ws ->
      (n = 3 -> match ws with 9%N :: _ => False | _ => True end) -> eol e t -> no_item (repeat x n ++ ws) ->
      No_ (ERef "ExtraListElement") (Pos b (repeat x n ++ ws ++ e ++ t)) [] c c.
    Proof.
      intros kind x m n ws e t b I L W T E Ni. destruct (fence_char _ _ _ I) as (M & X1 & X2 & X3 & X4).
      destruct (ok_BlockDelimiter X cls low white other U kind x m n ws e t b er g st I L W T E) as (v & b' & en' & O).
      assert (forall b a, In a [x_BlankLine; ERef "BlockAttributes"; ERef "ListContinuation"; x_SinglelineComment; x_ListContinuationMarker] ->
        No_ a (Pos b (repeat x n ++ ws ++ e ++ t)) [] c c) as N.
      { intros b0. pose proof (no_alts X cls low white other U b0 (repeat x m) (repeat x (n - m) ++ ws ++ e ++ t) c _ (list_fence_prefix kind x m I b0)) as N.
        now rewrite <- (repeat_split x m n) in N by exact L. }
      assert (one_line (repeat x n ++ ws)) as Ln.
      { apply Forall_app. split; [apply Forall_forall; intros r Ir; apply repeat_spec in Ir; now subst|].
        eapply Forall_impl; [|exact W]. intros r [->| ->]; split; discriminate. }
      assert (no_colons (repeat x n ++ ws)) as Nc.
      { intros (a & d & Q). assert (In 58%N (repeat x n ++ ws)) as Ic by (rewrite Q, in_app_iff; right; now left).
        apply in_app_iff in Ic. destruct Ic as [Ic|Ic]; [apply repeat_spec in Ic; congruence|].
        unfold blanks in W. rewrite Forall_forall in W. destruct (W _ Ic); discriminate. }
      assert (head_not (N.eqb 60) ((repeat x n ++ ws) ++ e ++ t)) as Hd by (destruct n; [lia|]; apply (head_neq 60); congruence).
      destruct (no_line_marks _ e t b Ln Ni Nc E Hd) as (N1 & N2 & N3 & N4).
      pose proof (fun b => no_Items _ e t b Ln Ni Nc E Hd) as NI. rewrite <- app_assoc in N1, N2, N3, N4. 
      eapply extra_stop; [apply no_blank_line|intros b0; apply N; cbn; tauto| |apply N; cbn; tauto..|].
      - intros b0 en. specialize (NI b0 en). now rewrite <- app_assoc in NI.
      - apply no_act. eapply (no_seq_c H G [_; _; _; _; _; _]); [|eapply no_not_c, O].
        eapply seq_cons; [apply ok_not_c, N; cbn; tauto|]. eapply seq_cons; [apply ok_not_c, N; cbn; tauto|].
        eapply seq_cons; [apply ok_not_c, N1|]. eapply seq_cons; [apply ok_not_c, N2|]. eapply seq_cons; [apply ok_not_c, N3|].
        eapply seq_cons; [apply ok_not_c, N4|apply seq_nil].
    Qed.
    (** a line of text *)
    Lemma ok_extra_line : forall l e t b, list_line white l -> eol e t -> exists b',
      Ok_ (ERef "ExtraListElement") (Pos b (l ++ e ++ t)) [] c (elem (newRawLine (encode_runes l))) (Pos b' t) [] c.
    Proof.
      intros l e t b ((L & V & Hr) & Ni & Nc & H60) E. destruct l as [|r l]; [destruct Hr|].
      assert (head_not (N.eqb 60) ((r :: l) ++ e ++ t)) as Hd.
      { apply (head_neq 60). intros <-. exact H60. }
      destruct (no_line_marks _ e t b L Ni Nc E Hd) as (N1 & N2 & N3 & N4).
      pose proof (no_Items _ e t b L Ni Nc E Hd) as NI.
      pose proof (eol_at _ _ E) as T.
      assert (forall b, No_ x_BlankLine (Pos b ((r :: l) ++ e ++ t)) [] c c) as NB by (intros b0; now apply (no_BlankLine X cls low white other U)).
      assert (forall b, No_ offsetE (Pos b ((r :: l) ++ e ++ t)) [] c c) as NO.
      { intros b0. destruct V as (q & Iq & Wq). destruct (span_blanks (r :: l)) as (ws & l' & El & W & Hb). destruct l' as [|y l'].
        - exfalso. rewrite El, app_nil_r in Iq. unfold blanks in W. rewrite Forall_forall in W. apply W, blankb_spec, (white_blank X cls low white other U) in Iq. congruence.
        - rewrite El, <- app_assoc. apply no_offset; auto. rewrite El in L. apply (proj1 (one_line_spec _) L). rewrite in_app_iff. right. now left. }
      destruct (ok_EOL H G e t (rev (r :: l) ++ b) [("content"%string, Peg.VStr (r :: l))] c E) as (v & b' & O).
      exists b'. eapply ok_ref; [reflexivity|].
      eapply ok_act with (c1 := c) (en' := [("element"%string, elem (newRawLine (encode_runes (r :: l))))]); [|apply act_label].
      apply ok_seq. eapply seq_cons; [apply ok_NotEOF'; discriminate|]. eapply seq_cons; [eapply ok_lab|apply seq_nil].
      eapply ok_alt_c; [apply no_act; eapply (no_seq_c H G [_]); [eapply seq_cons; [eapply ok_star, star_stop, NB|apply seq_nil]|apply no_lab, NI]|].
      eapply ok_alt_c; [apply no_act, no_seq1_c, no_lab, no_plus; cbn [app]; apply no_BlockAttributes; intros ->; apply Hr; cbn; tauto|].
      eapply ok_alt_c; [apply no_Continuation; [apply (head_neq 43); intros <-; apply Hr; cbn; tauto|exact NO]|].
      eapply ok_alt_c; [cbn [app]; apply no_Comment; intros ->; apply Hr; cbn; tauto|].
      eapply ok_alt_here. eapply ok_act with (c1 := c) (en' := [("content"%string, Peg.VStr (r :: l))]).
      - apply ok_seq. eapply seq_cons; [apply ok_not_c, NB|].
        eapply seq_cons; [apply ok_not_c; cbn [app]; apply no_ContMarker; intros ->; apply Hr; cbn; tauto|].
        eapply seq_cons; [apply ok_not_c, N1|]. eapply seq_cons; [apply ok_not_c, N2|]. eapply seq_cons; [apply ok_not_c, N3|].
        eapply seq_cons; [apply ok_not_c, N4|]. eapply seq_cons; [apply ok_not_c; cbn [app]; now apply no_Delimiters|].
        eapply seq_cons.
        { eapply ok_lab. eapply ok_act; [apply ok_plus with (vs := map (fun r => VBytes [r]) (r :: l))|rewrite slice_app; apply act_text].
          - apply star_cls.
            + intros q I. rewrite in_eol. apply (proj1 (one_line_spec _) L q I).
            + destruct (e ++ t) as [|q u]; [exact Logic.I|]. cbn [P_PegRun.head_not at_eol] in *. rewrite in_eol, T. reflexivity.
          - discriminate. }
        eapply seq_cons; [exact O|apply seq_nil].
      - eapply act_known; [reflexivity|]. intros s Es _. unfold run_akind. cbn [label String.eqb Ascii.eqb Bool.eqb].
        apply core_store in Es. destruct Es as [-> _]. reflexivity.
    Qed.

    (** * The elements of the list *)
    Definition item_flat (i : mark * list (list rune)) : list val :=
      match i with (k, x :: ls) => item_val (k, [x]) :: map (fun l => newRawLine (encode_runes l)) ls | _ => [] end.
    Lemma extras_ok : forall t ls items tail, list_more white t ls items tail -> forall b, exists b',
      Star_ (ERef "ExtraListElement") (Pos b t) c (map elem (map (fun l => newRawLine (encode_runes l)) ls ++ flat_map item_flat items)) (Pos b' tail) c.
    Proof.
      intros t ls items tail M. induction M as [|ws e t t' W Ne E Bl Ov|kind x m n ws e t I L W T E Ni|l e t ls items tail Ll E M IH|t0 l k x e t ls items tail Bl Il E M IH]; intros b.
      - exists b. apply star_stop, stop_extra_end.
      - exists b. apply star_stop. eapply stop_extra_blank; eauto.
      - exists b. apply star_stop. eapply stop_extra_fence; eauto.
      - destruct (ok_extra_line l e t b Ll E) as (b1 & O). destruct (IH b1) as (b' & Q). exists b'. exact (star_more H G _ _ _ _ _ _ _ _ _ _ O Q).
      - destruct (ok_extra_item t0 l k x e t b Bl Il E) as (b1 & O). destruct (IH b1) as (b' & Q). exists b'. exact (star_more H G _ _ _ _ _ _ _ _ _ _ O Q).
    Qed.
    Lemma vals_elems : forall vs, vals X (Peg.VList (map elem vs)) = Some vs.
    Proof.
      intros vs. unfold vals. cbn [to_val]. match goal with |- context [option_map VSlice ?x] => replace x with (Some vs) end; [reflexivity|].
      induction vs as [|v vs IH]; [reflexivity|]. cbn [map]. rewrite <- IH. reflexivity.
    Qed.
    Lemma raw_lines_snoc : forall ls a, raw_lines (ls ++ [a]) = map (fun l => RawLine (encode_runes (rstrip l) ++ LF)) ls ++ [RawLine (encode_runes (rstrip a))].
    Proof.
      induction ls as [|l ls IH]; intros a; [reflexivity|]. destruct ls as [|l2 ls]; [reflexivity|].
      change (raw_lines ((l :: l2 :: ls) ++ [a])) with (RawLine (encode_runes (rstrip l) ++ LF) :: raw_lines ((l2 :: ls) ++ [a])). rewrite IH. reflexivity.
    Qed.
    Lemma add_line : forall k ls a l, addElement (item_val (k, ls ++ [a])) (newRawLine (encode_runes l)) = Ok (item_val (k, (ls ++ [a]) ++ [l])).
    Proof.
      intros k ls a l.
      assert (paragraph_add [] (raw_lines (ls ++ [a])) (newRawLine (encode_runes l)) = Ok (Paragraph [] (raw_lines ((ls ++ [a]) ++ [l])))) as Q.
      { unfold paragraph_add. rewrite raw_lines_snoc, rev_app_distr. cbn [rev app]. rewrite rev_involutive, newRawLine_spec, raw_lines_snoc, map_app, <- app_assoc. reflexivity. }
      rewrite newRawLine_spec in *. destruct k as [s|s]; cbn [item_val addElement addToListElement getElements rev app]; rewrite Q; reflexivity.
    Qed.
    Lemma loop_item : forall k ls done r, newListElements_loop None done (item_val (k, ls) :: r) = newListElements_loop None (item_val (k, ls) :: done) r.
    Proof. intros [s|s] ls done r; reflexivity. Qed.
    Lemma loop_lines : forall ls k ls0 a done r, newListElements_loop None (item_val (k, ls0 ++ [a]) :: done) (map (fun l => newRawLine (encode_runes l)) ls ++ r) =
      newListElements_loop None (item_val (k, (ls0 ++ [a]) ++ ls) :: done) r.
    Proof.
      induction ls as [|l ls IH]; intros k ls0 a done r; cbn [map app]; [now rewrite app_nil_r|].
      transitivity (newListElements_loop None (item_val (k, (ls0 ++ [a]) ++ [l]) :: done) (map (fun l => newRawLine (encode_runes l)) ls ++ r)).
      - pose proof (add_line k ls0 a l) as A. rewrite newRawLine_spec in *. cbn [newListElements_loop]. rewrite A. reflexivity.
      - rewrite IH, <- (app_assoc (ls0 ++ [a])). reflexivity.
    Qed.
    Lemma collected : forall t ls items tail, list_more white t ls items tail -> forall k ls0 a done,
      newListElements_loop None (item_val (k, ls0 ++ [a]) :: done) (map (fun l => newRawLine (encode_runes l)) ls ++ flat_map item_flat items) =
      Ok (rev done ++ map item_val ((k, (ls0 ++ [a]) ++ ls) :: items)).
    Proof.
      intros t ls items tail M. induction M as [|ws e t t' W Ne E Bl Ov|kind x m n ws e t I L W T E Ni|l e t ls items tail Ll E M IH|t0 l k x e t ls items tail Bl Il E M IH];
        intros k0 ls0 a done.
      1-3: cbn; now rewrite app_nil_r.
      - change (map (fun l => newRawLine (encode_runes l)) (l :: ls) ++ flat_map item_flat items)
          with (map (fun l => newRawLine (encode_runes l)) [l] ++ (map (fun l => newRawLine (encode_runes l)) ls ++ flat_map item_flat items)).
        rewrite loop_lines, (IH k0 (ls0 ++ [a]) l done), <- (app_assoc (ls0 ++ [a]) [l] ls). reflexivity.
      - pose proof (IH k [] x (item_val (k0, ls0 ++ [a]) :: done)) as Q. cbn [app] in Q.
        cbn [map app flat_map item_flat]. rewrite loop_item, Q, app_nil_r. cbn [rev app map]. now rewrite <- app_assoc.
    Qed.
    Lemma flat_elems : forall vs : list val, flat_map (fun v : value (hv X) => match v with Peg.VList x => x | _ => [v] end) (map elem vs) = map elem vs.
    Proof. induction vs as [|v vs IH]; [reflexivity|]. cbn [map flat_map elem app]. now rewrite IH. Qed.
    Lemma ok_ListElements : forall l k x e t ls items tail b, item_line l k x -> eol e t -> list_more white t ls items tail -> exists b',
      Ok_ (ERef "ListElements") (Pos b (l ++ e ++ t)) [] c (elem (ListElements (map item_val ((k, x :: ls) :: items)))) (Pos b' tail) [] c.
    Proof.
      intros l k x e t ls items tail b Il E M. destruct (ok_Item l k x e t b Il E) as (b1 & O). destruct (extras_ok _ _ _ _ M b1) as (b' & Q). exists b'.
      set (vs := map (fun l => newRawLine (encode_runes l)) ls ++ flat_map item_flat items) in *.
      eapply ok_ref; [reflexivity|].
      eapply ok_act with (c1 := c) (en' := [("extraElements"%string, Peg.VList (map elem vs)); ("firstElement"%string, elem (item_val (k, [x])))]).
      - apply ok_seq. eapply seq_cons; [eapply ok_lab, (O [])|]. eapply seq_cons; [eapply ok_lab|apply seq_nil].
        eapply ok_ref; [reflexivity|]. eapply ok_act with (c1 := c) (en' := [("elements"%string, Peg.VList (map elem vs))]); [eapply ok_lab, ok_star, Q|].
        eapply act_known; [reflexivity|]. intros s Es _. unfold run_akind. apply core_store in Es. destruct Es as [-> _].
        cbn [label String.eqb Ascii.eqb Bool.eqb]. now rewrite flat_elems.
      - eapply act_known; [reflexivity|]. intros s Es _. unfold run_akind. apply core_store in Es. destruct Es as [-> _].
        cbn [label String.eqb Ascii.eqb Bool.eqb]. rewrite vals_elems. cbn [to_val elem].
        unfold newListElements. rewrite loop_item. unfold vs. pose proof (collected _ _ _ _ M k [] x []) as Q'. cbn [app rev] in Q'. rewrite Q'. reflexivity.
    Qed.

    (** * The fragment *)
    Definition list_marks : list (list rune) := [45%N] :: map (repeat 42%N) [1; 2; 3; 4; 5] ++ map (repeat 46%N) [1; 2; 3; 4; 5] ++
      flat_map (fun x => [[x; 46%N]; [x; 41%N]]) (map N.of_nat (seq 48 10 ++ seq 65 26 ++ seq 97 26)).
    Definition list_heads : list (list rune) := filter (fun w => negb (Nat.eqb (List.length w) 2 && existsb (N.eqb 46) w && existsb (N.eqb 9) w)) (flat_map (fun m => [m ++ [32%N]; m ++ [9%N]]) list_marks).
    Definition before_lists : list expr := ERef "BlockAttributes" :: firstn 1 fragment_alts ++ firstn 11 (skipn 3 fragment_alts) ++ firstn 4 (skipn 15 fragment_alts).
    Lemma heads_fail : forall b, forallb (fun w => forallb (fun e => fails_on G quiet_name 40 e true b w) before_lists) list_heads = true.
    Proof. intros b. vm_compute. reflexivity. Qed.
    Lemma in_heads : forall w, (if in_dec (list_eq_dec N.eq_dec) w list_heads then true else false) = true -> In w list_heads.
    Proof. intros w E. destruct (in_dec (list_eq_dec N.eq_dec) w list_heads) as [I|I]; [exact I|discriminate]. Qed.
    (** how the first item begins *)
    Lemma item_begins : forall l k x, item_line l k x -> starts_list l -> exists m z u, l = m ++ z :: u /\ blank z /\
      In (m ++ [z]) list_heads /\ ((exists y, m = [y; 46%N] \/ m = [y; 41%N]) \/ m = [45%N] \/ exists m' q, m = q :: m' /\ (q = 42 \/ q = 46)%N) /\ ~ Forall blank u.
    Proof.
      intros l k x (ws & m & bl & -> & W & M & B & Nb & L & Hx) (_ & St).
      assert (ws = []) as -> .
      { destruct W as [|r ws Br W]; [reflexivity|]. exfalso. cbn [app] in St. destruct (ws ++ m ++ bl ++ x); tauto. }
      cbn [app] in *. destruct B as [|z bl Bz B]; [congruence|]. exists m, z, (bl ++ x).
      assert (~ Forall blank (bl ++ x)) as Nu.
      { intros F. apply Forall_app in F. destruct F as [_ F]. destruct x as [|r x]; [exact Hx|]. inversion F; subst. tauto. }
      split; [reflexivity|]. split; [exact Bz|].
      assert (forall ch e, In e [46; 41]%N -> In ch (map N.of_nat (seq 48 10 ++ seq 65 26 ++ seq 97 26)) -> In ([ch; e] ++ [z]) list_heads) as LH.
      { intros ch e Ie Ic. unfold list_heads. apply filter_In. split.
        - apply in_flat_map. exists [ch; e]. split.
          + unfold list_marks. right. rewrite !in_app_iff. right. right. apply in_flat_map. exists ch. split; [exact Ic|]. cbn in Ie |- *. destruct Ie as [<-|[<-|[]]]; auto.
          + destruct Bz as [->| ->]; cbn; auto.
        - reflexivity. }
      assert (forall a n ch, between (N.of_nat a) (N.of_nat (a + n)) ch -> In ch (map N.of_nat (seq a (S n)))) as SQ.
      { intros a n ch [B1 B2]. apply in_map_iff. exists (N.to_nat ch). split; [lia|]. apply in_seq. lia. }
      assert (forall w e, In e [46; 41]%N -> w <> [] -> (forall ch, In ch w -> between 48%N 57%N ch \/ between 97%N 122%N ch \/ between 65%N 90%N ch) ->
         match (w ++ [e]) ++ z :: bl ++ x with
         | y :: q :: _ => ~ blank y /\ (y = 46%N -> q <> 9%N) /\ (between 48%N 57%N y \/ between 97%N 122%N y \/ between 65%N 90%N y -> q = 46%N \/ q = 41%N)
         | _ => False
         end -> In ((w ++ [e]) ++ [z]) list_heads /\ exists y, w ++ [e] = [y; 46%N] \/ w ++ [e] = [y; 41%N]) as NUM.
      { intros w e Ie Nw Fw Sw. destruct w as [|y w]; [congruence|]. destruct w as [|y2 w].
        - cbn [app] in *. split.
          + apply LH; [exact Ie|]. rewrite !map_app, !in_app_iff. destruct (Fw y ltac:(now left)) as [Q|[Q|Q]]; [left|right; right|right; left].
            * now apply (SQ 48 9). * now apply (SQ 97 25). * now apply (SQ 65 25).
          + exists y. destruct Ie as [<-|[<-|[]]]; auto.
        - exfalso. cbn [app] in Sw. destruct Sw as (_ & _ & Sw). specialize (Sw (Fw y ltac:(now left))). specialize (Fw y2 ltac:(right; now left)).
          unfold between in Fw. lia. }
      inversion M as [|n b' I|n s I|w Nw F|r Br|r Br|w Nw F|w Nw F]; subst.
      - split; [destruct Bz as [->| ->]; apply in_heads; vm_compute; reflexivity|]. split; [right; left; reflexivity|exact Nu].
      - split; [|split; [right; right|exact Nu]]; (cbn in I; repeat destruct I as [I|I]; [..|destruct I]; injection I as <- _).
        1-5: destruct Bz as [->| ->]; apply in_heads; vm_compute; reflexivity. all: eexists _, _; split; [reflexivity|auto].
      - split; [|split; [right; right|exact Nu]]; (cbn in I; repeat destruct I as [I|I]; [..|destruct I]; injection I as <- _).
        1: { destruct Bz as [->| ->]; [apply in_heads; vm_compute; reflexivity|]. exfalso. cbn [repeat app] in St. destruct St as (_ & St & _). now apply St. }
        1-4: destruct Bz as [->| ->]; apply in_heads; vm_compute; reflexivity. all: eexists _, _; split; [reflexivity|auto].
      - destruct (NUM w 46%N) as [Q1 (y & Q2)]; [now left|exact Nw| |exact St|]; [|eauto 6].
        intros ch Ic. rewrite Forall_forall in F. left. now apply F.
      - destruct (NUM [r] 46%N) as [Q1 (y & Q2)]; [now left|discriminate| |exact St|]; [|eauto 6].
        intros ch [<-|[]]. auto.
      - destruct (NUM [r] 46%N) as [Q1 (y & Q2)]; [now left|discriminate| |exact St|]; [|eauto 6].
        intros ch [<-|[]]. auto.
      - destruct (NUM w 41%N) as [Q1 (y & Q2)]; [right; now left|exact Nw| |exact St|]; [|eauto 6].
        intros ch Ic. rewrite Forall_forall in F. specialize (F ch Ic). right. left. unfold between. cbn in F. lia.
      - destruct (NUM w 41%N) as [Q1 (y & Q2)]; [right; now left|exact Nw| |exact St|]; [|eauto 6].
        intros ch Ic. rewrite Forall_forall in F. specialize (F ch Ic). right. right. unfold between. cbn in F. lia.
    Qed.
    (** the alternatives that see more of the line *)
    Lemma no_Macro_item : forall m z u b, ((exists y, m = [y; 46%N] \/ m = [y; 41%N]) \/ m = [45%N] \/ exists m' q, m = q :: m' /\ (q = 42 \/ q = 46)%N) -> blank z ->
      No_ (ERef "UserMacroBlock") (Pos b (m ++ z :: u)) [] c c.
    Proof.
      intros m z u b Hm Bz. eapply no_ref; [reflexivity|]. apply no_act.
      assert (exists y q v, m ++ z :: u = y :: q :: v /\ (((q = 46 \/ q = 41 \/ q = 32 \/ q = 9)%N /\ q <> 58%N) \/ (y = 42 \/ y = 46)%N)) as (y & q & v & Ev & D).
      { destruct Hm as [(y & [->| ->])|[->|(m' & q & -> & Hq)]].
        - exists y, 46%N, (z :: u). split; [reflexivity|left; split; [auto|discriminate]].
        - exists y, 41%N, (z :: u). split; [reflexivity|left; split; [auto|discriminate]].
        - exists 45%N, z, u. split; [reflexivity|]. left. destruct Bz as [->| ->]; (split; [auto|discriminate]).
        - assert (exists q2 v, m' ++ z :: u = q2 :: v) as (q2 & v & Ev) by (destruct m'; eexists _, _; reflexivity).
          exists q, q2, v. cbn [app]. rewrite Ev. auto. }
      rewrite Ev. destruct (in_cls H [95; 45]%N [] ["L"; "N"]%string y) eqn:Cy.
      2: { apply no_seq1_c, no_lab, no_act, no_plus, no_cls. exact Cy. }
      destruct D as [[Dq Nq]|Dy].
      2: { exfalso. unfold in_cls in Cy. cbn [existsb in_class go_host] in Cy. destruct U as (U1 & _).
           destruct Dy as [->| ->]; rewrite (U1 "L"%string _ false), (U1 "N"%string _ false) in Cy by reflexivity; discriminate. }
      assert (in_cls H [95; 45]%N [] ["L"; "N"]%string q = false) as Cq.
      { unfold in_cls. cbn [existsb in_class go_host]. destruct U as (U1 & _).
        destruct Dq as [->|[->|[->| ->]]]; rewrite (U1 "L"%string _ false), (U1 "N"%string _ false) by reflexivity; reflexivity. }
      assert (Ok_ x_UserMacroName (Pos b (y :: q :: v)) [] c (Peg.VStr [y]) (Pos (y :: b) (q :: v)) [] c) as O.
      { eapply ok_act; [apply ok_plus with (vs := map (fun r => VBytes [r]) [y])|change (y :: q :: v) with ([y] ++ q :: v); change (y :: b) with (rev [y] ++ b); rewrite slice_app; apply act_text]; [|discriminate].
        apply (star_cls H G _ _ _ _ [y] (q :: v)); [intros r [<-|[]]; exact Cy|]. cbn [P_PegRun.head_not negb]. now rewrite Cq. }
      assert (forall s : soft gstore (option (list string)), core_of (H := H) s = (er, g, st) ->
        h_pred H "return c.hasUserMacro(name.(string)), nil" [("name"%string, Peg.VStr [y])] s = Some (hasUserMacro g (encode_runes [y]), false, g)) as Pm.
      { intros s Es. apply core_store in Es. destruct Es as [<- _]. reflexivity. }
      destruct (hasUserMacro g (encode_runes [y])).
      - eapply (no_seq_c H G [_; _]).
        + eapply seq_cons; [eapply ok_lab, O|]. eapply seq_cons; [apply ok_pred, pred_host; exact Pm|apply seq_nil].
        + apply no_lit1. intros Q. apply Nq. exact (eq_sym Q).
      - eapply (no_seq_c H G [_]).
        + eapply seq_cons; [eapply ok_lab, O|apply seq_nil].
        + apply no_pred, pred_host. exact Pm.
    Qed.
    Lemma no_Shortcut_item : forall m z u b, ((exists y, m = [y; 46%N] \/ m = [y; 41%N]) \/ m = [45%N] \/ exists m' q, m = q :: m' /\ (q = 42 \/ q = 46)%N) -> blank z ->
      No_ (ERef "ShortcutParagraph") (Pos b (m ++ z :: u)) [] c c.
    Proof.
      intros m z u b Hm Bz. eapply no_ref; [reflexivity|]. apply no_act, no_seq1_c, no_and_c.
      destruct Hm as [Hm|Hm].
      - destruct Hm as (y & Hm). assert (exists q, m = [y; q] /\ in_cls H [46; 41]%N [] [] q = true) as (q & -> & Cq) by (destruct Hm as [->| ->]; eexists; split; reflexivity).
        cbn [app]. destruct (in_cls H [] [] ["L"; "N"]%string y) eqn:Cy; [|apply no_seq1_c, no_cls; exact Cy].
        eapply (no_seq_c H G [_]); [eapply seq_cons; [apply ok_cls; exact Cy|apply seq_nil]|].
        destruct (span_blanks u) as (ws & u' & -> & W & Hu).
        pose proof (ok_Spaces (z :: ws) u' (q :: y :: b) [] (Forall_cons _ Bz W) ltac:(discriminate) Hu) as O.
        eapply no_not_c. apply ok_seq. eapply seq_cons; [apply ok_cls; exact Cq|]. eapply seq_cons; [exact O|apply seq_nil].
      - assert (exists y v, m ++ z :: u = y :: v /\ (y = 45 \/ y = 42 \/ y = 46)%N) as (y & v & -> & D).
        { destruct Hm as [->|(m' & q & -> & Hq)]; eexists _, _; (split; [reflexivity|]); tauto. }
        apply no_seq1_c, no_cls. unfold in_cls. cbn [existsb in_class go_host]. destruct U as (U1 & _).
        destruct D as [->|[->| ->]]; rewrite (U1 "L"%string _ false), (U1 "N"%string _ false) by reflexivity; reflexivity.
    Qed.
    Lemma after_blank : forall x k ws a z d, repeat x k ++ ws = a ++ z :: d -> blanks ws -> blank z -> ~ blank x -> Forall blank d.
    Proof.
      intros x k. induction k as [|k IH]; intros ws a z d E W Bz Nx; cbn [repeat app] in E.
      - subst ws. apply Forall_app in W. destruct W as [_ W]. now inversion W.
      - destruct a as [|y a]; cbn [app] in E; injection E as -> E; [tauto|]. exact (IH ws a z d E W Bz Nx).
    Qed.
    Lemma item_not_delimiter : forall m z u x k, blank z -> ~ Forall blank u -> ~ blank x -> ~ delimiter x k (m ++ z :: u).
    Proof. intros m z u x k Bz Nu Nx (ws & W & E). apply Nu. symmetry in E. exact (after_blank x k ws m z u E W Bz Nx). Qed.
    Lemma starts_dec : forall w l, starts w l \/ ~ starts w l.
    Proof.
      induction w as [|x w IH]; intros l; [left; now exists l|]. destruct l as [|y l]; [right; intros (l' & E); discriminate|].
      destruct (N.eqb_spec x y) as [->|Ne]; [|right; intros (l' & E); cbn in E; injection E as E _; now apply Ne].
      destruct (IH l) as [(l' & ->)|Nw]; [left; now exists l'|right]. intros (l' & E). injection E as E. apply Nw. now exists l'.
    Qed.
    Lemma lits_alt : forall ws l t b, Forall (Forall (fun r => r <> Peg.RuneError /\ eolb r = false)) ws -> at_eol t ->
      No_ (EAlt (map (fun w => ELit w false) ws)) (Pos b (l ++ t)) [] c c \/
      exists w l' v b', In w ws /\ l = w ++ l' /\ Ok_ (EAlt (map (fun w => ELit w false) ws)) (Pos b (l ++ t)) [] c v (Pos b' (l' ++ t)) [] c.
    Proof.
      intros ws l t b F T. induction F as [|w ws Fw F IH]; [left; apply no_alt_nil|]. cbn [map].
      destruct (starts_dec w l) as [(l' & ->)|Ns].
      - right. exists w, l'. do 2 eexists. split; [now left|]. split; [reflexivity|]. rewrite <- app_assoc. eapply ok_alt_here. apply (ok_lit H G w).
      - assert (No_ (ELit w false) (Pos b (l ++ t)) [] c c) as Nw by now apply no_lit_line.
        destruct IH as [Na|(w' & l' & v & b' & I & El & O)]; [left; now apply no_alt_c|].
        right. exists w', l', v, b'. split; [now right|]. split; [exact El|]. eapply ok_alt_c; [exact Nw|exact O].
    Qed.
    Lemma no_Thematic : forall l e t b, one_line l -> eol e t -> ~ (exists w ws, In w thematic_breaks /\ blanks ws /\ l = w ++ ws) ->
      No_ x_ThematicBreak (Pos b (l ++ e ++ t)) [] c c.
    Proof.
      intros l e t b L E Nt. apply no_act. pose proof (eol_at _ _ E) as T.
      destruct (lits_alt thematic_breaks l (e ++ t) b) as [Q|(w & l' & v & b' & I & -> & O)]; [|exact T|apply no_seq1_c; exact Q|].
      - vm_compute. repeat constructor; discriminate.
      - destruct (span_blanks l') as (ws & l2 & -> & W & Hd). destruct l2 as [|y l2].
        { exfalso. apply Nt. exists w, ws. rewrite app_nil_r. auto. }
        eapply (no_seq_c H G [_; _]).
        + eapply seq_cons; [exact O|]. eapply seq_cons; [rewrite <- app_assoc; apply ok_Spaces0; [exact W|exact Hd]|apply seq_nil].
        + apply no_EOL. apply (proj1 (one_line_spec _) L). rewrite !in_app_iff. right. right. now left.
    Qed.
    Lemma item_one_line : forall l k x, item_line l k x -> one_line l.
    Proof.
      intros l k x (ws & m & bl & -> & W & M & B & Nb & L & Hx). destruct (mark_line m k M) as (Lm & _).
      assert (forall v, blanks v -> one_line v) as A by (intros v V; eapply Forall_impl; [|exact V]; intros r [->| ->]; split; discriminate).
      repeat (apply Forall_app; split); [now apply A|exact Lm|now apply A|exact L].
    Qed.
    Lemma list_ok : forall l k x e t ls items tail b, item_line l k x -> starts_list l -> eol e t -> list_more white t ls items tail -> exists b',
      Ok_ (ERef "DocumentFragment") (Pos b (l ++ e ++ t)) [] c (elem (ListElements (map item_val ((k, x :: ls) :: items)))) (Pos b' tail) [] (er, after g, st).
    Proof.
      intros l k x e t ls items tail b Il St E M. destruct (ok_ListElements l k x e t ls items tail b Il E M) as (b' & O). exists b'.
      pose proof (item_one_line l k x Il) as L. destruct (item_begins l k x Il St) as (m & z & u & El & Bz & Ih & Hm & Nu).
      assert (forall a, In a before_lists -> No_ a (Pos b (l ++ e ++ t)) [] c c) as N.
      { rewrite El. replace ((m ++ z :: u) ++ e ++ t) with ((m ++ [z]) ++ u ++ e ++ t) by (rewrite <- !app_assoc; reflexivity).
        apply (no_alts X cls low white other U). pose proof (heads_fail b) as F. rewrite forallb_forall in F. exact (F _ Ih). }
      assert (forall code y n, plain_char y -> ~ blank y -> No_ (delimE code y n) (Pos b (l ++ e ++ t)) [] c c) as ND.
      { intros code y n Py By. apply no_delimE; auto. intros q Lq. rewrite El. now apply item_not_delimiter. }
      assert (exists y v, l ++ e ++ t = y :: v) as (y & v & Ev) by (rewrite El; destruct m; eexists _, _; reflexivity).
      assert (forall a, In a (firstn 21 fragment_alts) -> No_ a (Pos b (l ++ e ++ t)) [] c c) as NA.
      { intros a Ia. change (firstn 21 fragment_alts) with (firstn 1 fragment_alts ++ [ERef "UserMacroBlock"; ERef "ShortcutParagraph"] ++ firstn 11 (skipn 3 fragment_alts) ++
          [x_LiteralBlock] ++ firstn 4 (skipn 15 fragment_alts) ++ [x_SidebarBlock; x_ThematicBreak]) in Ia.
        unfold before_lists in N. rewrite !in_app_iff in Ia. destruct Ia as [Ia|[Ia|[Ia|[Ia|[Ia|Ia]]]]].
        - apply N. right. rewrite !in_app_iff. auto.
        - destruct Ia as [<-|[<-|[]]]; rewrite El, <- app_assoc; cbn [app]; [now apply no_Macro_item|now apply no_Shortcut_item].
        - apply N. right. rewrite !in_app_iff. auto.
        - destruct Ia as [<-|[]]. apply no_act, no_seq1_c, no_lab. apply (ND _ 46%N 4); [split; [|split]; reflexivity|intros [Q|Q]; discriminate].
        - apply N. right. rewrite !in_app_iff. auto.
        - destruct Ia as [<-|[<-|[]]]; [apply no_act, no_seq1_c, no_lab; apply (ND _ 42%N 4); [split; [|split]; reflexivity|intros [Q|Q]; discriminate]|].
          apply no_Thematic; auto. exact (proj1 St). }
      pose proof (N (ERef "BlockAttributes") ltac:(now left)) as NB. rewrite Ev in *.
      eapply (fragment_ok X cls low white other (firstn 21 fragment_alts) (ERef "ListElements") (skipn 22 fragment_alts)); [reflexivity|exact NB|exact NA|exact O|reflexivity].
    Qed.
  End Mark.
End Lists.
