(** C75: single-line comments, thematic breaks and admonitions. *)
From Coq Require Import List String NArith ZArith Bool Ascii Arith Lia.
From Verif Require Import GoBase Utf8 Types Attrs Elements Subs ListCollect Lists Peg PegGrammar PegDoc PegHost PegSym PegBlockSpec P_PegRun P_PegLines P_PegBlocks P_PegFragment P_PegPara P_PegList.
Import ListNotations.
Local Open Scope list_scope.

Section Breaks.
  Variable X : Type.
  Variable cls : string -> rune -> bool.
  Variable low : rune -> rune.
  Variable white : rune -> bool.
  Variable other : string -> labels (hv X) -> soft gstore (option (list string)) -> option (value (hv X) * bool).
  Notation H := (go_host X cls low white other).
  Hypothesis U : unicode_ok H.
  Notation G := the_grammar.
  Notation Ok_ := (Ok_ H G).
  Notation No_ := (No_ H G).
  Notation Star_ := (Star_ H G).
  Notation core := (core H).
  Variables (er : bool) (g : gstore) (st : option (list string)).
  Notation c := ((er, g, st) : core).

  (** * Thematic breaks *)
  Definition lits (ws : list (list rune)) : list expr := map (fun w => ELit w false) ws.
  Lemma break_split : forall w, In w thematic_breaks -> exists es1 es2, lits thematic_breaks = es1 ++ ELit w false :: es2 /\
    forall b, forallb (fun e => fails_on G quiet_name 40 e true b w) es1 = true.
  Proof.
    intros w I. assert (forall n, nth_error thematic_breaks n = Some w -> (forall b, forallb (fun e => fails_on G quiet_name 40 e true b w) (firstn n (lits thematic_breaks)) = true) ->
      exists es1 es2, lits thematic_breaks = es1 ++ ELit w false :: es2 /\ forall b, forallb (fun e => fails_on G quiet_name 40 e true b w) es1 = true) as A.
    { intros n En F. exists (firstn n (lits thematic_breaks)), (skipn (S n) (lits thematic_breaks)). split; [|exact F].
      unfold lits. rewrite firstn_map, skipn_map. apply nth_error_split in En. destruct En as (l1 & l2 & -> & <-).
      rewrite map_app. cbn [map]. f_equal.
      - rewrite firstn_app, Nat.sub_diag, firstn_all, firstn_O, app_nil_r. reflexivity.
      - f_equal. f_equal. rewrite skipn_app, skipn_all2 by lia. replace (S (List.length l1) - List.length l1) with 1 by lia. reflexivity. }
    unfold thematic_breaks in I. cbn [In] in I. repeat match type of I with _ \/ _ => destruct I as [<-|I] end; [..|destruct I].
    - apply (A 0); [reflexivity|vm_compute; reflexivity].
    - apply (A 1); [reflexivity|vm_compute; reflexivity].
    - apply (A 2); [reflexivity|vm_compute; reflexivity].
    - apply (A 3); [reflexivity|vm_compute; reflexivity].
    - apply (A 4); [reflexivity|vm_compute; reflexivity].
    - apply (A 5); [reflexivity|vm_compute; reflexivity].
    - apply (A 6); [reflexivity|vm_compute; reflexivity].
  Qed.
  Lemma ok_Thematic : forall w ws e e' tail b, In w thematic_breaks -> blanks ws -> eol e (e' ++ tail) -> eol e' tail -> exists b',
    Ok_ x_ThematicBreak (Pos b (w ++ ws ++ e ++ e' ++ tail)) [] c (elem ThematicBreak) (Pos b' tail) [] c.
  Proof.
    intros w ws e e' tail b I W E E'. destruct (break_split w I) as (es1 & es2 & Es & F).
    destruct (ok_EOL H G e (e' ++ tail) (rev ws ++ rev w ++ b) [] c E) as (v1 & b1 & O1).
    destruct (ok_EOL H G e' tail b1 [] c E') as (v2 & b2 & O2).
    exists b2. eapply ok_act.
    - apply ok_seq. eapply seq_cons.
      { change (EAlt _) with (EAlt (lits thematic_breaks)). rewrite Es. eapply ok_alt_skip; [|apply (ok_lit H G w)].
        apply (no_alts X cls low white other U). apply F. }
      eapply seq_cons; [apply ok_Spaces0; [exact W|now apply at_eol_not_blank, eol_at]|].
      eapply seq_cons; [exact O1|]. eapply seq_cons; [exact O2|apply seq_nil].
    - eapply act_known; [vm_compute; reflexivity|]. intros s Es' _. unfold run_akind. apply core_store in Es'. destruct Es' as [-> _]. reflexivity.
  Qed.
  Definition before_break : list expr := ERef "BlockAttributes" :: ERef "ImageBlock" :: skipn 2 (firstn 20 fragment_alts).
  Definition break_ends : list (list rune) := [[32%N]; [9%N]; [10%N]; [13%N]].
  Lemma breaks_fail : forall b, forallb (fun w => forallb (fun z => forallb (fun e => fails_on G quiet_name 40 e true b (w ++ z)) before_break) break_ends) thematic_breaks = true.
  Proof. intros b. vm_compute. reflexivity. Qed.
  Lemma breaks_fail_end : forall b, forallb (fun w => forallb (fun e => fails_on G quiet_name 40 e false b w) before_break) thematic_breaks = true.
  Proof. intros b. vm_compute. reflexivity. Qed.
  Definition signs : list (list rune) := [R "'''"; R "***"; R "* * *"].
  Lemma macros_fail : forall b, forallb (fun w => fails_on G quiet_name 40 (ERef "UserMacroBlock") true b w) signs = true.
  Proof. intros b. vm_compute. reflexivity. Qed.
  Lemma break_ok : forall w ws e e' tail b, In w thematic_breaks -> blanks ws -> eol e (e' ++ tail) -> eol e' tail -> exists b',
    Ok_ (ERef "DocumentFragment") (Pos b (w ++ ws ++ e ++ e' ++ tail)) [] c (elem ThematicBreak) (Pos b' tail) [] (er, after g, st).
  Proof.
    intros w ws e e' tail b I W E E'. destruct (ok_Thematic w ws e e' tail b I W E E') as (b' & O). exists b'.
    pose proof (head_low ws e (e' ++ tail) W E) as Hl. set (u := ws ++ e ++ e' ++ tail) in *. clearbody u.
    assert (forall a, In a before_break -> No_ a (Pos b (w ++ u)) [] c c) as N.
    { destruct u as [|r u].
      - intros a Ia. pose proof (breaks_fail_end b) as F. rewrite forallb_forall in F. specialize (F w I). rewrite forallb_forall in F.
        apply (no_prefix X cls low white other U G 40 a false b w []); [now apply F|reflexivity].
      - change (r :: u) with ([r] ++ u). rewrite app_assoc. apply (no_alts X cls low white other U). pose proof (breaks_fail b) as F.
        rewrite forallb_forall in F. specialize (F w I). rewrite forallb_forall in F. apply F.
        unfold lowb, blankb, eolb in Hl. rewrite !orb_true_iff, !N.eqb_eq in Hl. unfold break_ends. cbn [In].
        destruct Hl as [[->| ->]|[->| ->]]; auto. }
    assert (No_ (ERef "UserMacroBlock") (Pos b (w ++ u)) [] c c) as NM.
    { unfold thematic_breaks in I. cbn [In] in I.
      assert (forall w, In w signs -> No_ (ERef "UserMacroBlock") (Pos b (w ++ u)) [] c c) as A.
      { intros v Iv. pose proof (macros_fail b) as F. rewrite forallb_forall in F.
        apply (no_prefix X cls low white other U G 40 _ true b v u); [now apply F|discriminate]. }
      unfold signs in A. cbn [In] in A. repeat match type of I with _ \/ _ => destruct I as [<-|I] end; [..|destruct I]; auto.
      - apply (no_UserMacro_low X cls low white other U 45%N 3 u); [auto|lia|exact Hl].
      - apply (no_UserMacro_low X cls low white other U 45%N 1 (R " - -" ++ u)); [auto|lia|reflexivity].
      - apply (no_UserMacro_low X cls low white other U 95%N 3 u); [auto|lia|exact Hl].
      - apply (no_UserMacro_low X cls low white other U 95%N 1 (R " _ _" ++ u)); [auto|lia|reflexivity]. }
    assert (exists x v, w ++ u = x :: v) as (x & v & Ev).
    { unfold thematic_breaks in I. cbn [In] in I. repeat match type of I with _ \/ _ => destruct I as [<-|I] end; [..|destruct I]; eexists _, _; reflexivity. }
    rewrite Ev in *.
    eapply (fragment_ok X cls low white other (firstn 20 fragment_alts) x_ThematicBreak (skipn 21 fragment_alts)); [reflexivity|apply N; now left| |exact O|reflexivity].
    intros a Ia. change (firstn 20 fragment_alts) with (ERef "ImageBlock" :: ERef "UserMacroBlock" :: skipn 2 (firstn 20 fragment_alts)) in Ia.
    destruct Ia as [<-|[<-|Ia]]; [apply N; right; now left|exact NM|apply N; right; now right].
  Qed.

  (** * Single-line comments *)
  Lemma ok_Remark : forall l e tail b, one_line l -> ~ starts (R "//") l -> eol e tail -> exists b' en',
    Ok_ x_SinglelineComment (Pos b (R "//" ++ l ++ e ++ tail)) [] c (elem (SinglelineComment (encode_runes l))) (Pos b' tail) en' c.
  Proof.
    intros l e tail b L N E. pose proof (eol_at _ _ E) as T.
    destruct (ok_EOL H G e tail (rev l ++ rev (R "//") ++ b) (("content"%string, Peg.VStr l) :: []) c E) as (v & b' & O).
    exists b', [("content"%string, Peg.VStr l)]. eapply ok_act.
    - apply ok_seq. eapply seq_cons; [apply (ok_lit H G (R "//"))|].
      eapply seq_cons; [apply ok_not_c; apply (no_lit_line X cls low white other); [repeat constructor; discriminate|exact T|exact N]|].
      eapply seq_cons; [eapply ok_lab, ok_AnyChars; [exact L|exact T]|]. eapply seq_cons; [exact O|apply seq_nil].
    - eapply act_known; [vm_compute; reflexivity|]. intros s Es _. unfold run_akind. apply core_store in Es. destruct Es as [-> _]. reflexivity.
  Qed.
  Lemma mark_slash : forall m k, item_mark m k -> match m with x :: _ => x <> 47%N | [] => False end.
  Proof.
    assert (forall w (x : rune), w <> [] -> Forall (fun r => r <> 47%N) w -> match w ++ [x] with y :: _ => y <> 47%N | [] => False end) as A.
    { intros [|y w] x Ne F; [congruence|]. inversion F. assumption. }
    intros m k M. destruct M as [|n b0 I|n s I|w Nw F|r B|r B|w Nw F|w Nw F].
    - discriminate.
    - cbn [In] in I. repeat match type of I with _ \/ _ => destruct I as [I|I] end; try (injection I as <- <-); [..|destruct I]; cbn; discriminate.
    - cbn [In] in I. repeat match type of I with _ \/ _ => destruct I as [I|I] end; try (injection I as <- <-); [..|destruct I]; cbn; discriminate.
    - apply A; auto. eapply Forall_impl; [|exact F]. intros r [B1 B2] ->. lia.
    - destruct B as [B1 B2]. cbn. lia.
    - destruct B as [B1 B2]. cbn. lia.
    - apply A; auto. eapply Forall_impl; [|exact F]. intros r Q ->. cbn in Q. repeat destruct Q as [Q|Q]; try discriminate; exact Q.
    - apply A; auto. eapply Forall_impl; [|exact F]. intros r Q ->. cbn in Q. repeat destruct Q as [Q|Q]; try discriminate; exact Q.
  Qed.
  Definition before_remark : list expr := ERef "BlockAttributes" :: firstn 7 fragment_alts ++ firstn 1 (skipn 8 fragment_alts) ++ firstn 11 (skipn 10 fragment_alts) ++ firstn 1 (skipn 22 fragment_alts).
  Lemma remark_ok : forall l e tail b, one_line l -> ~ starts (R "//") l -> no_colons l -> eol e tail ->
    isDocumentHeaderAllowed g = false \/ match tail with 47%N :: _ | 61%N :: _ => False | _ => True end -> exists b',
    Ok_ (ERef "DocumentFragment") (Pos b (R "//" ++ l ++ e ++ tail)) [] c (elem (SinglelineComment (encode_runes l))) (Pos b' tail) [] (er, after g, st).
  Proof.
    intros l e tail b L N Nc E T. destruct (ok_Remark l e tail b L N E) as (b' & en' & O). exists b'.
    assert (forall a, In a before_remark -> No_ a (Pos b (R "//" ++ l ++ e ++ tail)) [] c c) as NA.
    { apply (no_alts X cls low white other U). vm_compute. reflexivity. }
    assert (No_ (ERef "DocumentHeader") (Pos b (R "//" ++ l ++ e ++ tail)) [] c c) as NH.
    { destruct (isDocumentHeaderAllowed g) eqn:Eh; [|now apply no_Header]. destruct T as [T|T]; [discriminate|].
      eapply no_ref; [reflexivity|]. apply no_act. eapply (no_seq_c H G [_; _]).
      - eapply seq_cons; [apply ok_pred, pred_host with (g' := g)|].
        { intros s Es. apply core_store in Es. destruct Es as [<- _]. cbn. unfold go_pred. cbn. rewrite Eh. reflexivity. }
        eapply seq_cons; [apply ok_star|apply seq_nil]. eapply star_more.
        + eapply ok_alt_here, O.
        + apply star_stop, no_slash_alts. destruct tail as [|r tail]; auto. intros ->. exact T.
      - apply no_lab. eapply no_ref; [reflexivity|]. apply no_act, no_seq1_c. destruct tail as [|r tail]; [apply no_lit_end; discriminate|].
        apply no_lit1. intros <-. exact T. }
    assert (one_line (R "//" ++ l)) as Ll by (apply Forall_app; split; [repeat constructor; discriminate|exact L]).
    assert (No_ x_CommentBlock (Pos b (R "//" ++ l ++ e ++ tail)) [] c c) as NC.
    { apply no_act, no_seq1_c. rewrite app_assoc. apply (no_delimE H G _ 47%N 4); auto using plain_slash.
      intros k Lk (ws & W & Ek). apply N. exists (repeat 47%N (k - 4) ++ ws).
      rewrite (repeat_split 47%N 4 k) in Ek by exact Lk. change (repeat 47%N 4) with (R "//" ++ R "//") in Ek. rewrite <- app_assoc in Ek. now apply app_inv_head in Ek. }
    assert (No_ (ERef "ListElements") (Pos b (R "//" ++ l ++ e ++ tail)) [] c c) as NL.
    { eapply no_ref; [reflexivity|]. apply no_act, no_seq1_c, no_lab. rewrite app_assoc. apply (no_Items X cls low white other); auto.
      - intros (ws & m & k & z & u & W & M & Z & Eq). destruct ws as [|y ws].
        + apply mark_slash in M. destruct m as [|x m]; [destruct M|]. cbn [app] in Eq. injection Eq as Eq _. now apply M.
        + inversion W as [|? ? [->| ->] _]; subst; discriminate.
      - intros (a & d & Eq). destruct a as [|a1 [|a2 a]]; try discriminate. apply Nc. cbn in Eq. injection Eq as _ _ Eq. exists a, d. exact Eq.
      - reflexivity. }
    change (R "//" ++ l ++ e ++ tail) with (47%N :: 47%N :: l ++ e ++ tail) in *.
    eapply (fragment_ok X cls low white other (firstn 23 fragment_alts) x_SinglelineComment (skipn 24 fragment_alts)); [reflexivity|apply NA; now left| |exact O|reflexivity].
    intros a Ia. change (firstn 23 fragment_alts) with (firstn 7 fragment_alts ++ [ERef "DocumentHeader"] ++ firstn 1 (skipn 8 fragment_alts) ++ [x_CommentBlock] ++
      firstn 11 (skipn 10 fragment_alts) ++ [ERef "ListElements"] ++ firstn 1 (skipn 22 fragment_alts)) in Ia.
    unfold before_remark in NA. rewrite !in_app_iff in Ia. destruct Ia as [Ia|[[<-|[]]|[Ia|[[<-|[]]|[Ia|[[<-|[]]|Ia]]]]]]; auto; apply NA; right; rewrite !in_app_iff; auto.
  Qed.

  (** * Admonitions *)
  Lemma ok_Kind : forall w k t b, In (w, k) admonitions -> isWithinLiteralParagraph g = false -> exists t',
    encode_runes t' = k /\ Ok_ x_ParagraphStyle (Pos b (w ++ t)) [] c (Peg.VStr t') (Pos (rev w ++ b) t) [("style"%string, Peg.VStr t')] c.
  Proof.
    intros w k t b I Lp.
    unfold admonitions in I. cbn [In] in I.
    assert (forall s : soft gstore (option (list string)), core_of (H := H) s = (er, g, st) ->
      h_pred H "return !c.isWithinLiteralParagraph(), nil" [] s = Some (true, false, g)) as P1.
    { intros s Es. apply core_store in Es. destruct Es as [<- _]. cbn. unfold go_pred. cbn. rewrite Lp. reflexivity. }
    repeat match type of I with _ \/ _ => destruct I as [I|I] end; [..|destruct I]; injection I as <- <-.
    1: exists (R "TIP").
    2: exists (R "NOTE").
    3: exists (R "IMPORTANT").
    4: exists (R "WARNING").
    5: exists (R "CAUTION").
    all: split; [reflexivity|]; eapply ok_act; [apply ok_seq; eapply seq_cons; [apply ok_pred, pred_host; exact P1|]; eapply seq_cons; [|apply seq_nil]; eapply ok_lab|apply act_label].
    all: repeat first [eapply ok_alt_here; eapply ok_act; [apply (ok_lit H G)|]; eapply act_known; [vm_compute; reflexivity|]; intros s Es _; unfold run_akind; apply core_store in Es; destruct Es as [-> _]; reflexivity
      | eapply ok_alt_c; [apply no_act, no_lit1; discriminate|]].
  Qed.
  Lemma admonition_ok : forall w k l e t ls tail b, In (w, k) admonitions -> isWithinLiteralParagraph g = false -> one_line l -> no_colons l -> (exists r, In r l /\ white r = false) ->
    eol e t -> continued white t ls tail -> exists b',
    Ok_ (ERef "DocumentFragment") (Pos b (w ++ l ++ e ++ t)) [] c (elem (Paragraph [(AttrStyle, Types.VStr k)] (raw_lines (l :: ls)))) (Pos b' tail) [] (er, after g, st).
  Proof.
    intros w k l e t ls tail b I Lp L Nc V E C. pose proof (eol_at _ _ E) as T.
    destruct (ok_Kind w k (l ++ e ++ t) b I Lp) as (k' & Ek & O0).
    destruct (ok_ParaLine X cls low white other l e t (rev w ++ b) [] er g st L V E) as (b1 & en1 & O1).
    destruct (others_ok X cls low white other U t ls tail C b1 er g st) as (b' & O2). exists b'.
    assert (paragraphMap (aaddall [] [(AttrStyle, Types.VStr k)]) = [(AttrStyle, Types.VStr k)]) as Pm.
    { unfold admonitions in I. cbn [In] in I. repeat match type of I with _ \/ _ => destruct I as [I|I] end; [..|destruct I]; injection I as _ <-; reflexivity. }
    assert (no_colons (w ++ l)) as Nw.
    { unfold admonitions in I. cbn [In] in I. intros (a & d & Eq).
      repeat match type of I with _ \/ _ => destruct I as [I|I] end; [..|destruct I]; injection I as <- _; cbn in Eq;
        repeat (destruct a as [|? a]; [discriminate|cbn in Eq; injection Eq as _ Eq]); apply Nc; exists a, d; exact Eq. }
    assert (exists en2, Ok_ (ERef "ShortcutParagraph") (Pos b (w ++ l ++ e ++ t)) [] c (elem (Paragraph [(AttrStyle, Types.VStr k)] (raw_lines (l :: ls)))) (Pos b' tail) en2 c) as (en2 & O).
    {
      assert (forall x y v, known_class "L" x = Some true -> in_cls H [46; 41]%N [] [] y = false -> w = x :: y :: v ->
            exists bb, Ok_ (EAnd (ESeq [ECls [] [] ["L"; "N"]%string false; ENot (ESeq [ECls [46; 41]%N [] [] false; x_Spaces])])) (Pos b (w ++ l ++ e ++ t)) [] c bb (Pos b (w ++ l ++ e ++ t)) [] c) as A.
          { intros x y v Kx Ny ->. eexists. eapply ok_and_c, ok_seq. cbn [app]. eapply seq_cons; [apply ok_cls|].
            - destruct U as (U1 & _). apply U1 in Kx. cbn in Kx. unfold in_cls. cbn [existsb orb in_class go_host]. now rewrite Kx.
            - eapply seq_cons; [apply ok_not_c, no_seq1_c, no_cls; exact Ny|apply seq_nil]. }
          assert (exists x y v, w = x :: y :: v /\ known_class "L" x = Some true /\ in_cls H [46; 41]%N [] [] y = false) as (x & y & v & Ew & Kx & Ny).
          { unfold admonitions in I. cbn [In] in I. repeat match type of I with _ \/ _ => destruct I as [I|I] end; [..|destruct I]; injection I as <- _; eexists _, _, _; (split; [reflexivity|split; reflexivity]). }
      destruct (A x y v Kx Ny Ew) as (bb & Oa).
      exists []. eapply ok_ref; [reflexivity|]. eapply ok_act.
      - apply ok_seq. eapply seq_cons.
        { exact Oa. }
        eapply seq_cons; [eapply ok_lab, ok_opt_some; exact O0|].
        eapply seq_cons; [eapply ok_lab; exact O1|].
        eapply seq_cons; [apply ok_pred with (c' := (er, g, st)), pred_host|].
        { intros s Es. apply core_store in Es. destruct Es as [<- _]. change (h_pred H) with (go_pred X cls white). unfold go_pred.
          replace (assoc (known_preds cls white) _) with (Some QNotTerm) by reflexivity. unfold run_pkind.
          cbn [label String.eqb Ascii.eqb Bool.eqb]. rewrite newRawLine_spec. unfold elem. cbn [label String.eqb Ascii.eqb Bool.eqb].
          destruct (no_colons_term l Nc) as [-> ->]. reflexivity. }
        eapply seq_cons; [eapply ok_lab, ok_star, O2|apply seq_nil].
      - eapply act_known; [vm_compute; reflexivity|]. intros s Es _. apply core_store in Es. destruct Es as [<- _]. unfold run_akind.
        cbn [label String.eqb Ascii.eqb Bool.eqb]. rewrite vals_lines. cbn [to_val elem]. cbn [newParagraph]. rewrite Ek.
        change (newRawLine (encode_runes l) :: map (fun l => newRawLine (encode_runes l)) ls) with (map (fun l => newRawLine (encode_runes l)) (l :: ls)).
        rewrite end_lines_spec, Pm. reflexivity. }
    assert (exists x v, w ++ l ++ e ++ t = x :: v) as (x & v & Ev).
    { unfold admonitions in I. cbn [In] in I. repeat match type of I with _ \/ _ => destruct I as [I|I] end; [..|destruct I]; injection I as <- _; eexists _, _; reflexivity. }
    assert (No_ (ERef "BlockAttributes") (Pos b (w ++ l ++ e ++ t)) [] c c) as NB.
    { apply (no_prefix X cls low white other U G 40 _ true b w); [|discriminate]. unfold admonitions in I. cbn [In] in I.
      repeat match type of I with _ \/ _ => destruct I as [I|I] end; [..|destruct I]; injection I as <- _; vm_compute; reflexivity. }
    pose proof (no_Image X cls low white other (w ++ l) (e ++ t) b c Nw T) as NI. pose proof (no_Macro X cls low white other U (w ++ l) (e ++ t) b er g st Nw T) as NM.
    rewrite <- !app_assoc in NI, NM. rewrite Ev in *.
    eapply (fragment_ok X cls low white other [ERef "ImageBlock"; ERef "UserMacroBlock"] (ERef "ShortcutParagraph") (skipn 3 fragment_alts));
      [reflexivity|exact NB| |exact O|reflexivity].
    intros a [<-|[<-|[]]]; [exact NI|exact NM].
  Qed.
End Breaks.
