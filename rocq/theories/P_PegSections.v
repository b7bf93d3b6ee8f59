(** The parsing of titles and of documents with sections (for C71). *)
From Coq Require Import List String NArith ZArith Bool Ascii Arith Lia.
From Verif Require Import GoBase GoLemmas Utf8 Types Attrs Elements Merge MergeLemmas Subs Peg PegGrammar PegDoc PegHost PegSym PegBlockSpec PegInlineSpec ConvertSpec SectionDocSpec
  P_PegTerm P_PegParse P_PegRun P_PegLines P_PegBlocks P_PegFragment P_PegPara P_PegDocs P_PegInline P_PegDodge P_PegNormal.
Import ListNotations.
Local Open Scope list_scope.

Lemma trim_right_sp : forall a k, trim_right_char " " (a ++ encode_runes (repeat 32%N k))%string = trim_right_char " " a.
Proof.
  assert (forall k, trim_right_char " " (encode_runes (repeat 32%N k)) = ""%string) as E.
  { induction k as [|k IH]; [reflexivity|]. change (encode_runes (repeat 32%N (S k))) with (String " " (encode_runes (repeat 32%N k))). cbn [trim_right_char]. now rewrite IH. }
  intros a k. induction a as [|c a IH]; [apply E|]. cbn [append trim_right_char]. now rewrite IH.
Qed.
Lemma trim_right_none : forall a c, c <> " "%char -> trim_right_char " " (a ++ String c "")%string = (a ++ String c "")%string.
Proof.
  intros a c N. induction a as [|x a IH].
  - cbn [append trim_right_char]. apply Ascii.eqb_neq in N. now rewrite N.
  - cbn [append trim_right_char]. rewrite IH. destruct a; reflexivity.
Qed.
Lemma title_trim : forall t k, title t -> trim_right_char " " (encode_runes (t ++ repeat 32%N k)) = encode_runes t /\ encode_runes t <> ""%string.
Proof.
  intros t k (_ & Ne & _ & La). rewrite encode_runes_app, trim_right_sp.
  destruct t as [|r0 t0] eqn:Et using rev_ind; [congruence|]. clear IHt0. rewrite rev_app_distr in La. cbn [rev app next_is] in La.
  assert (blankb r0 = false) as B.
  { unfold blankb. apply orb_false_iff. split; apply N.eqb_neq; intros ->; discriminate La. }
  destruct (encode_last r0 B) as (a & c & E & N). rewrite encode_runes_app, encode_one, E, <- GoLemmas.sapp_assoc. split.
  - apply trim_right_none. intros ->. discriminate N.
  - now destruct (encode_runes t0 ++ a)%string.
Qed.
Lemma tight_plain : forall l q, tight q (map Char l).
Proof. induction l as [|r l IH]; intros q; cbn; auto. Qed.
Lemma grouped_chars : forall l run, grouped run (map Char l) = text_of (run ++ l).
Proof. induction l as [|r l IH]; intros run; cbn [map grouped]; [now rewrite app_nil_r|]. now rewrite IH, <- app_assoc. Qed.

Section Sections.
  Variable X : Type.
  Variable cls : string -> rune -> bool.
  Variable low : rune -> rune.
  Variable white : rune -> bool.
  Variable other : string -> labels (hv X) -> soft gstore (option (list string)) -> option (value (hv X) * bool).
  Notation H := (go_host X cls low white other).
  Hypothesis U : unicode_ok H.
  Notation G := the_grammar.
  Notation Ok_ := (Ok_ H G).
  Notation No_ := (No_ H G).
  Notation Star_ := (Star_ H G).
  Notation Seq_ := (Seq_ H G).
  Notation alnum := (alnum cls).
  Notation letter := (cls "L"). Notation num := (cls "N").
  Definition title_alts : list expr :=
    match g_SectionTitleElement with EAct _ (ESeq [_; ELab _ (EAlt l)]) => l | _ => [] end.

  Section Er.
  Variable er : bool.
  Section At.
  Variable g : gstore.
  Notation hs := (Some headerSubstitutions).
  Notation c := ((er, g, hs) : core H).
  Lemma tpred_sub : forall code f en, assoc (known_preds cls white) code = Some (QSub f) -> pred_at H (PHost code) en c (f g hs) c.
  Proof.
    intros code f en E. apply pred_host with (g' := g). intros s Es. apply core_store in Es. destruct Es as [<- E2].
    change (h_pred H) with (go_pred X cls white). unfold go_pred. rewrite E. cbn [run_pkind]. now rewrite E2.
  Qed.
  Lemma teither : forall code f e en p, assoc (known_preds cls white) code = Some (QSub f) -> No_ e p en c c -> No_ (ESeq [EPred (PHost code); e]) p en c c.
  Proof.
    intros code f e en p E N. pose proof (tpred_sub code f en E) as Q. destruct (f g hs).
    - eapply (no_seq_c H G [_] _ []); [econstructor; [apply ok_pred; exact Q|constructor]|exact N].
    - apply no_seq1_c, no_pred, Q.
  Qed.
  Lemma talt_at : forall k e p (c c' : core H) v p' en', nth_error title_alts k = Some e -> (forall x, In x (firstn k title_alts) -> No_ x p [] c c) -> Ok_ e p [] c v p' en' c' ->
    Ok_ (EAlt title_alts) p [] c v p' [] c'.
  Proof.
    intros k e p c0 c' v p' en' E F O. destruct (nth_error_split _ _ E) as (l1 & l2 & El & Lk). rewrite El.
    eapply ok_alt_skip; [|exact O]. rewrite El in F. rewrite firstn_app, Lk, Nat.sub_diag, <- Lk, firstn_all in F. cbn [firstn] in F. rewrite app_nil_r in F. exact F.
  Qed.
  Lemma tno_alt_all : forall l p en, (forall x, In x l -> No_ x p [] c c) -> No_ (EAlt l) p en c c.
  Proof.
    induction l as [|e l IH]; intros p en F; [apply no_alt_nil|]. apply no_alt_c; [apply F; now left|]. apply IH. intros x I. apply F. now right.
  Qed.
  Lemma tno_begins : forall w t b en, forallb (fun x => negb (N.eqb x Peg.RuneError)) w = true -> begins w t = false -> No_ (ELit w false) (Pos b t) en c c.
  Proof.
    intros w t b en F E. apply no_lit. destruct (lit_from H w false (Pos b t)) eqn:L; auto. apply lit_split in L; auto. destruct L as (u & ->).
    assert (begins w (w ++ u) = true) as B by (apply begins_spec; eauto). congruence.
  Qed.
  Lemma tno_Replacement : forall t b, forallb (fun s => negb (begins (R s) t)) sym_lits = true -> No_ (ERef "Replacement") (Pos b t) [] c c.
  Proof.
    intros t b F. assert (forall s en, In s sym_lits -> No_ (ELit (R s) false) (Pos b t) en c c) as N.
    { intros s en I. apply tno_begins; [|rewrite forallb_forall in F; specialize (F _ I); now destruct (begins (R s) t)].
      cbn in I. repeat (destruct I as [<-|I]; [reflexivity|]). destruct I. }
    clear F. assert (forall s e l, In s sym_lits -> No_ (EAct e (ESeq (ELit (R s) false :: l))) (Pos b t) [] c c) as N2 by (intros; now apply no_act, no_seq1_c, N).
    eapply no_ref; [reflexivity|]. apply no_act. eapply teither; [reflexivity|]. apply no_lab. eapply no_ref; [reflexivity|].
    apply tno_alt_all. intros e I. cbn [In g_Symbol] in I.
    repeat (destruct I as [<-|I]; [|]); try (now destruct I).
    - apply (N2 "\"%string). cbn. tauto.
    - eapply no_ref; [reflexivity|]. apply tno_alt_all. intros e I. cbn [In] in I. repeat (destruct I as [<-|I]); try (now destruct I).
      + apply (N2 "`"""%string). cbn. tauto.
      + apply (N2 """`"%string). cbn. tauto.
      + apply (N2 "`'"%string). cbn. tauto.
      + apply (N2 "'`"%string). cbn. tauto.
    - apply no_act, (N "(C)"%string). cbn. tauto.
    - apply no_act, (N "(TM)"%string). cbn. tauto.
    - apply no_act, (N "(R)"%string). cbn. tauto.
    - apply no_act, (N "..."%string). cbn. tauto.
    - apply (N2 "--"%string). cbn. tauto.
    - apply (N2 "--"%string). cbn. tauto.
    - apply no_act, (N "->"%string). cbn. tauto.
    - apply no_act, (N "<-"%string). cbn. tauto.
    - apply no_act, (N "=>"%string). cbn. tauto.
    - apply no_act, (N "<="%string). cbn. tauto.
  Qed.
  Lemma tok_Word : forall w t b, w <> [] -> (forall r, In r w -> alnum r = true) -> P_PegRun.head_not alnum t ->
    (forall u, t = 58%N :: u -> isInlineMacro g hs (encode_runes w) = false) -> (forall u, t = 64%N :: u -> P_PegRun.head_not alnum u) ->
    exists en', Ok_ x_InlineText (Pos b (w ++ t)) [] c (elem (StringElement (encode_runes w))) (Pos (rev w ++ b) t) en' c.
  Proof.
    intros w t b Ne A Ht Hm He. set (en1 := [("text"%string, VStr w)] : labels (hv X)). exists en1.
    eapply ok_act with (c1 := c) (en' := en1 : labels (HV H)).
    - eapply (ok_seq_text X cls low white other) with (en0 := [] : labels (HV H)) (p1 := Pos (rev w ++ b) t) (p2 := Pos (rev w ++ b) t).
      + eapply ok_plus; [eapply star_cls|destruct w; [congruence|discriminate]].
        * intros x Ix. etransitivity; [apply in_alnum|]. now apply A.
        * destruct t; [exact Logic.I|]. cbn in Ht |- *. change (Bool.eqb (in_cls H [] [] ["L"; "N"]%string r) true = false). rewrite in_alnum. now rewrite Ht.
      + intros s Es Et. rewrite slice_app in *.
        assert (exists s', runs H G (ESeq [ELit (R ":") false; EPred (PHost "return c.isInlineMacro(string(c.text)), nil")]) (Pos (rev w ++ b) t) [] s (RFail (Pos (rev w ++ b) t) s') /\ core_of s' = c) as (s' & (n & Rn) & Es').
        { change (R ":") with [58%N]. assert ((exists u, t = 58%N :: u) \/ forall u, t <> 58%N :: u) as [(u & ->)|N58].
          { destruct t as [|x t]; [right; discriminate|]. destruct (N.eq_dec x 58) as [->|Nx]; [left; eexists; reflexivity|right; congruence]. }
          - exists (back s s). split; [|rewrite core_back, Es; apply kback_id]. exists 2. cbn [eval seq_from]. unfold lit_from, peek, advance. cbn [rest before].
            cbn [N.eqb Pos.eqb]. unfold run_pred. change (h_pred H) with (go_pred X cls white). unfold go_pred.
            assert (assoc (known_preds cls white) "return c.isInlineMacro(string(c.text)), nil" = Some (QText isInlineMacro)) as -> by reflexivity.
            destruct s as [ct cp ce cg cs]. cbn [c_text] in Et. subst ct. apply core_store in Es. cbn [c_store c_state] in Es. destruct Es as [-> ->].
            cbn [run_pkind c_store c_state c_text]. rewrite (Hm u eq_refl). cbn. now rewrite orb_false_r.
          - assert (No_ (ESeq [ELit [58%N] false; EPred (PHost "return c.isInlineMacro(string(c.text)), nil")]) (Pos (rev w ++ b) t) [] c c) as N0; [|exact (N0 s Es)].
            apply no_seq1_c. destruct t as [|x t]; [apply no_lit_end; discriminate|]. apply no_lit1. intros EQ. apply (N58 t). f_equal. now symmetry. }
        exists (back s s'). split; [exists (S n); cbn [eval]; now rewrite Rn|]. rewrite core_back, Es, Es'. apply kback_id.
      + econstructor; [|constructor]. apply ok_not_c. change (R "@") with [64%N].
        assert ((exists u, t = 64%N :: u) \/ forall u, t <> 64%N :: u) as [(u & ->)|N64].
        { destruct t as [|x t]; [right; discriminate|]. destruct (N.eq_dec x 64) as [->|Nx]; [left; eexists; reflexivity|right; congruence]. }
        * eapply (no_seq_c H G [ELit [64%N] false] _ []); [econstructor; [apply (ok_lit H G [64%N] u)|constructor]|].
          specialize (He u eq_refl). destruct u as [|x u]; [apply no_cls_end|]. apply no_cls. etransitivity; [apply in_alnum|exact He].
        * apply no_seq1_c. destruct t as [|x t]; [apply no_lit_end; discriminate|]. apply no_lit1. intros EQ. apply (N64 t). f_equal. now symmetry.
    - rewrite slice_app. eapply act_known; [reflexivity|]. intros s Es Et. unfold run_akind. rewrite Et. apply core_store in Es. now destruct Es as [-> _].
  Qed.
  Ltac tpre b l t := apply (no_prefix X cls low white other U G 40 _ true b l t c); [vm_compute; reflexivity|discriminate].
  Ltac teach I := cbn [firstn title_alts g_SectionTitleElement In] in I; repeat (destruct I as [<-|I]; [|]); try (now destruct I).
  Lemma telem_blanks : forall w t b, w <> [] -> (forall r, In r w -> blankb r = true) -> P_PegRun.head_not blankb t ->
    Ok_ (EAlt title_alts) (Pos b (w ++ t)) [] c (VStr w) (Pos (rev w ++ b) t) [] c.
  Proof.
    intros w t b Ne A Ht. eapply (talt_at 1); [reflexivity| |].
    - intros e I. teach I. destruct w as [|r w]; [congruence|]. cbn [app]. assert (blankb r = true) as B by (apply A; now left).
      unfold blankb in B. apply orb_true_iff in B. rewrite !N.eqb_eq in B. destruct B as [->| ->]; [tpre b [32%N] (w ++ t)|tpre b [9%N] (w ++ t)].
    - eapply ok_act with (c1 := c); [eapply ok_plus; [eapply star_cls|]|].
      + intros x Ix. etransitivity; [apply in_blank|]. now apply A.
      + destruct t; [exact Logic.I|]. cbn in Ht |- *. change (Bool.eqb (in_cls H [9%N; 32%N] [] [] r) true = false). rewrite in_blank. now rewrite Ht.
      + destruct w; [congruence|discriminate].
      + rewrite slice_app. apply act_text.
  Qed.
  Lemma tok_punct : forall r t b, In r [46; 44; 59; 63; 41; 33; 47; 58; 34; 39; 64; 61; 45]%N -> exists en', Ok_ x_Punctuation (Pos b (r :: t)) [] c (VStr [r]) (Pos (r :: b) t) en' c.
  Proof.
    intros r t b I. eexists. eapply ok_act with (c1 := c); [eapply ok_alt_here, ok_cls|rewrite slice_cons; apply act_text].
    cbn [negb]. unfold in_cls. cbn [existsb]. rewrite !orb_false_r. cbn [In] in I. repeat (destruct I as [<-|I]; [reflexivity|]). destruct I.
  Qed.
  Lemma tfive : forall r t b, In r [46; 61; 45; 40]%N -> forallb (fun s => negb (begins (R s) (r :: t))) sym_lits = true ->
    forall e, In e (firstn 5 title_alts) -> No_ e (Pos b (r :: t)) [] c c.
  Proof.
    intros r t b Ir F e I.
    teach I; try (now apply tno_Replacement); cbn [In] in Ir; repeat (destruct Ir as [<-|Ir]; [|]); try (now destruct Ir);
      match goal with |- context [Pos b (?r :: t)] => tpre b [r] t end.
  Qed.
  Lemma telem_char : forall r t b, title_char r t = true -> Ok_ (EAlt title_alts) (Pos b (r :: t)) [] c (VStr [r]) (Pos (r :: b) t) [] c.
  Proof.
    intros r t b Q. unfold title_char in Q. rewrite !orb_true_iff in Q. destruct Q as [[[[Q|Q]|Q]|Q]|Q].
    - apply existsb_exists in Q. destruct Q as (x & Ix & E). apply N.eqb_eq in E. subst x. 
      assert (r = 93%N \/ In r [44; 59; 63; 33; 47; 41; 58; 64]%N) as [->|Ir].
      { cbn in Ix. repeat (destruct Ix as [<-|Ix]; [cbn; auto 20|]). destruct Ix. }
      + eapply (talt_at 5 _ _ c c _ _ []); [reflexivity| |].
        * intros e I. teach I; tpre b [93%N] t.
        * eapply ok_act with (c1 := c); [|rewrite slice_cons; apply act_text]. apply ok_alt_c; [tpre b [93%N] t|]. apply ok_alt_c; [tpre b [93%N] t|].
          eapply ok_alt_here. apply (ok_lit H G [93%N]).
      + destruct (tok_punct r t b) as (en' & O). { cbn in Ir |- *. intuition auto 20. }
        eapply (talt_at 5); [reflexivity| |exact O]. intros e I. cbn [In] in Ir.
        repeat (destruct Ir as [<-|Ir]; [|]); try (now destruct Ir); teach I; match goal with |- context [Pos b (?r :: t)] => tpre b [r] t end.
    - apply andb_prop in Q. destruct Q as [E Q]. apply N.eqb_eq in E. subst r. destruct (tok_punct 46%N t b) as (en' & O); [cbn; tauto|].
      eapply (talt_at 5); [reflexivity| |exact O]. apply tfive; [cbn; tauto|]. cbn. cbn in Q. now rewrite Q.
    - apply andb_prop in Q. destruct Q as [E Q2]. apply andb_prop in E. destruct E as [E Q]. apply N.eqb_eq in E. subst r. destruct (tok_punct 45%N t b) as (en' & O); [cbn; tauto|].
      eapply (talt_at 5); [reflexivity| |exact O]. apply tfive; [cbn; tauto|]. cbn. cbn in Q, Q2. now rewrite Q, Q2.
    - apply andb_prop in Q. destruct Q as [E Q]. apply N.eqb_eq in E. subst r. destruct (tok_punct 61%N t b) as (en' & O); [cbn; tauto|].
      eapply (talt_at 5); [reflexivity| |exact O]. apply tfive; [cbn; tauto|]. cbn. cbn in Q. now rewrite Q.
    - apply andb_prop in Q. destruct Q as [E Q]. apply N.eqb_eq in E. subst r. cbn [forallb] in Q. rewrite !andb_true_iff in Q. destruct Q as (Q1 & Q2 & Q3 & Q4 & _).
      eapply (talt_at 5 _ _ c c _ _ []); [reflexivity| |].
      + apply tfive; [cbn; tauto|]. cbn. cbn in Q2, Q3, Q4. now rewrite Q2, Q3, Q4.
      + eapply ok_act with (c1 := c); [|rewrite slice_cons; apply act_text]. repeat (apply ok_alt_c; [tpre b [40%N] t|]). eapply ok_alt_here.
        apply ok_seq. econstructor; [apply (ok_lit H G [40%N])|]. econstructor; [|constructor]. apply ok_not_c. cbn [rev app]. apply tno_begins; [reflexivity|].
        now destruct (begins (R "(") t).
  Qed.
  Lemma tbody_at : forall w t b v, w <> [] -> match w with r :: _ => eolb r = false | [] => True end ->
    match v with Peg.VStr _ | Peg.VHost _ => True | _ => False end ->
    Ok_ (EAlt title_alts) (Pos b (w ++ t)) [] c v (Pos (rev w ++ b) t) [] c ->
    exists g', Ok_ (ERef "SectionTitleElement") (Pos b (w ++ t)) [] c v (Pos (rev w ++ b) t) [] (er, g', hs) /\
      isDocumentHeaderAllowed g' = isDocumentHeaderAllowed g /\ (st_within g', st_battrs g') = (st_within g, st_battrs g) /\ st_macros g' = st_macros g.
  Proof.
    intros w t b v Nw Ew Sv O. exists (set_suffix g (last_byte w)). split; [|repeat split].
    eapply ok_ref; [reflexivity|].
    eapply ok_act with (c1 := c) (en' := [("element"%string, v)] : labels (hv X)).
    - apply ok_seq. eapply seq_cons with (v := VNil) (p1 := Pos b (w ++ t)) (en1 := [] : labels (hv X)) (c1 := c).
      + apply ok_not_c. destruct w as [|r w]; [congruence|]. now apply no_EOL.
      + econstructor; [eapply ok_lab; exact O|constructor].
    - replace v with (updated H (label [("element"%string, v)] "element") Peg.VNil : value (hv X)) at 2 by (destruct v; try now destruct Sv).
      apply act_then. intros s Es Et. change (h_act H) with (go_act X white other). unfold go_act.
      assert (assoc known_acts "c.trackElement(element)" = Some KTrack) as -> by reflexivity.
      rewrite slice_app in Et. destruct s as [ct cp ce cg cs]. cbn [c_text] in Et. subst ct.
      apply core_store in Es. destruct Es as [Es _]. cbn [c_store] in Es. subst cg. cbn [run_akind c_text c_store]. destruct (last_byte_some w Nw) as (n & ->). reflexivity.
  Qed.
  End At.
  Notation hs := (Some headerSubstitutions).
  Definition same_store (g g' : gstore) : Prop :=
    isDocumentHeaderAllowed g' = isDocumentHeaderAllowed g /\ (st_within g', st_battrs g') = (st_within g, st_battrs g) /\ st_macros g' = st_macros g.
  Lemma eolb_alnum : forall r, eolb r = true -> alnum r = false.
  Proof.
    intros r E. unfold eolb in E. apply orb_true_iff in E. rewrite !N.eqb_eq in E. destruct E as [->| ->]; (rewrite (ascii_alnum X cls low white other U) by lia; reflexivity).
  Qed.
  Lemma eol_head : forall e tail, eol e tail -> P_PegRun.head_not alnum (e ++ tail).
  Proof. intros e tail El. apply eol_at in El. destruct (e ++ tail) as [|r u]; [exact Logic.I|]. cbn [at_eol] in El. cbn. now apply eolb_alnum. Qed.
  Lemma begins_eol : forall w t u, forallb (fun r => negb (eolb r)) w = true -> at_eol u -> begins w (t ++ u) = begins w t.
  Proof.
    induction w as [|x w IH]; intros t u F A; [destruct t, u; reflexivity|]. cbn [forallb] in F. apply andb_prop in F. destruct F as [Fx F].
    destruct t as [|y t].
    - destruct u as [|z u]; [reflexivity|]. cbn [at_eol] in A. cbn [app begins]. destruct (N.eqb_spec x z) as [->|_]; [|reflexivity]. rewrite A in Fx. discriminate Fx.
    - cbn [app begins]. now rewrite IH.
  Qed.
  Lemma title_char_eol : forall r t u, at_eol u -> title_char r (t ++ u) = title_char r t.
  Proof.
    intros r t u A. unfold title_char. cbn [forallb]. now rewrite !(begins_eol _ t u) by (reflexivity || exact A).
  Qed.
  Lemma title_star : forall user line, title_text letter num (macro_name user) line -> forall e tail b g, eol e tail -> st_macros g = user ->
    exists vs b' g', gives_v X vs (map Char line) /\ (line <> [] -> vs <> []) /\ same_store g g' /\
      Star_ (ERef "SectionTitleElement") (Pos b (line ++ e ++ tail)) (er, g, hs) vs (Pos b' (e ++ tail)) (er, g', hs).
  Proof.
    intros user line Pl. induction Pl as [|w t Nw A Ht Hm He Pl IH|w t Nw A Ht Pl IH|r t Qc Pl IH]; intros e tail b g El Hu.
    - exists [], b, g. split; [constructor|]. split; [congruence|]. split; [repeat split|]. apply star_stop. eapply no_ref; [reflexivity|]. apply no_act, no_seq1_c.
      destruct (ok_EOL H G e tail b [] (er, g, hs) El) as (v & b' & O). eapply no_not_c, O.
    - rewrite Forall_forall in A. rewrite <- app_assoc.
      assert (P_PegRun.head_not alnum (t ++ e ++ tail)) as Ha.
      { destruct t as [|r t]; [|exact Ht]. cbn [app]. now apply eol_head. }
      edestruct (tok_Word g w (t ++ e ++ tail) b) as (en' & O); auto.
      { intros u Eu. unfold isInlineMacro. apply andb_false_iff. right.
        destruct t as [|r t]; [|cbn in Eu; injection Eu as -> _; rewrite <- Hu in Hm; exact (Hm eq_refl)].
        cbn in Eu. apply eol_at in El. rewrite Eu in El. discriminate El. }
      { intros u Eu. destruct t as [|r t].
        - cbn in Eu. apply eol_at in El. rewrite Eu in El. discriminate El.
        - cbn in Eu. injection Eu as -> <-. specialize (He t eq_refl). destruct t as [|r t]; [|exact He]. cbn [app]. now apply eol_head. }
      destruct (tbody_at g w (t ++ e ++ tail) b (elem (StringElement (encode_runes w)))) as (g1 & O1 & S1); auto.
      { destruct w as [|r w]; [exact Logic.I|]. specialize (A r (or_introl eq_refl)). change (alnum r = true) in A. destruct (eolb r) eqn:Er; [|reflexivity].
        rewrite (eolb_alnum r Er) in A. discriminate A. }
      { exact Logic.I. }
      { eapply ok_alt_here. exact O. }
      destruct S1 as (S1 & S2 & S3).
      destruct (IH e tail (rev w ++ b) g1 El) as (vs & b' & g' & Gv & _ & (T1 & T2 & T3) & Q); [congruence|].
      exists (elem (StringElement (encode_runes w)) :: vs), b', g'. rewrite map_app. split; [apply gv_cons; [now apply car_elem|exact Gv]|]. split; [discriminate|]. split; [repeat split; congruence|].
      eapply star_more; [exact O1|exact Q].
    - rewrite <- app_assoc.
      destruct (tbody_at g w (t ++ e ++ tail) b (VStr w)) as (g1 & O1 & S1); auto.
      { destruct w as [|r w]; [exact Logic.I|]. inversion A as [|? ? B _]. destruct B as [->| ->]; reflexivity. }
      { apply telem_blanks; auto.
        - intros r Ir. apply blankb_spec. unfold blanks in A. rewrite Forall_forall in A. now apply A.
        - destruct t as [|r t]; cbn [app].
          + apply eol_at in El. destruct (e ++ tail) as [|r u]; [exact Logic.I|]. cbn [at_eol] in El. cbn. unfold eolb in El. apply orb_true_iff in El. rewrite !N.eqb_eq in El. destruct El as [->| ->]; reflexivity.
          + cbn. destruct (blankb r) eqn:E; auto. apply blankb_spec in E. exfalso. apply (Ht r); auto. cbn. apply N.eqb_refl. }
      destruct S1 as (S1 & S2 & S3).
      destruct (IH e tail (rev w ++ b) g1 El) as (vs & b' & g' & Gv & _ & (T1 & T2 & T3) & Q); [congruence|].
      exists (Peg.VStr w :: vs), b', g'. rewrite map_app. split; [apply gv_cons; [now apply car_str|exact Gv]|]. split; [discriminate|]. split; [repeat split; congruence|].
      eapply star_more; [exact O1|exact Q].
    - pose proof (title_char_eol r t (e ++ tail) (eol_at _ _ El)) as Qt. rewrite Qc in Qt.
      destruct (tbody_at g [r] (t ++ e ++ tail) b (VStr [r])) as (g1 & O1 & S1); [discriminate| |exact Logic.I|apply telem_char; exact Qt|].
      { destruct (eolb r) eqn:Er; [|reflexivity]. unfold eolb in Er. apply orb_true_iff in Er. rewrite !N.eqb_eq in Er. destruct Er as [->| ->]; discriminate Qc. }
      destruct S1 as (S1 & S2 & S3).
      destruct (IH e tail (r :: b) g1 El) as (vs & b' & g' & Gv & _ & (T1 & T2 & T3) & Q); [congruence|].
      exists (Peg.VStr [r] :: vs), b', g'. split; [apply (gv_cons X _ [Char r]); [now apply (car_str X [r])|exact Gv]|]. split; [discriminate|]. split; [repeat split; congruence|].
      eapply star_more; [exact O1|exact Q].
  Qed.

  (** a title, and the section that it starts *)
  Lemma ok_SectionTitle : forall user t k e tail b st g, title t -> title_text letter num (macro_name user) (t ++ repeat 32%N k) -> eol e tail -> st_macros g = user ->
    exists b' g', same_store g g' /\
      Ok_ (ERef "SectionTitle") (Pos b (t ++ repeat 32%N k ++ e ++ tail)) [] (er, g, st) (Peg.VList [elem (StringElement (encode_runes (t ++ repeat 32%N k)))]) (Pos b' (e ++ tail)) [] (er, g', hs).
  Proof.
    intros user t k e tail b st g Ti Tt El Hu. destruct (title_star user _ Tt e tail b g El Hu) as (vs & b' & g' & Gv & Nv & Ss & Q).
    assert (t ++ repeat 32%N k <> []) as Ne. { destruct Ti as (_ & Ne & _). destruct t; [congruence|discriminate]. }
    rewrite <- app_assoc in Q. destruct (gives_vals X _ _ Gv) as (l & El2 & Fl & Nl).
    exists b', g'. split; [exact Ss|]. eapply ok_ref; [reflexivity|]. eapply ok_act with (en' := [("elements"%string, Peg.VList vs)] : labels (hv X)) (c1 := (er, g', hs)).
    - apply ok_seq. eapply seq_cons with (p1 := Pos b (t ++ repeat 32%N k ++ e ++ tail)).
      + apply ok_state with (g' := g) (t' := hs). intros s Es. apply core_store in Es. destruct Es as [<- _]. reflexivity.
      + econstructor; [eapply ok_lab; apply ok_plus; [exact Q|now apply Nv]|constructor].
    - eapply act_known; [reflexivity|]. intros s Es Et. unfold run_akind. cbn [label String.eqb Ascii.eqb Bool.eqb].
      rewrite El2. apply core_store in Es. destruct Es as [-> _]. do 4 f_equal. rewrite (newInlineElements_gives _ _ Fl); [|now apply Nl, Nv|apply tight_plain].
      rewrite grouped_chars. cbn [app]. destruct (t ++ repeat 32%N k); [congruence|]. reflexivity.
  Qed.
  Lemma ok_Section : forall user level ws t k e tail b st g, 1 <= level <= 5 -> ws <> [] -> blanks ws -> title t ->
    title_text letter num (macro_name user) (t ++ repeat 32%N k) -> eol e tail -> st_macros g = user -> isWithinDelimitedBlock g = false ->
    exists en b' g', same_store g g' /\
      Ok_ (ERef "Section") (Pos b (repeat 61%N (S level) ++ ws ++ t ++ repeat 32%N k ++ e ++ tail)) [] (er, g, st)
        (elem (Section (Z.of_nat level) [] (Some [StringElement (encode_runes t)]) [])) (Pos b' tail) en (er, g', hs).
  Proof.
    intros user level ws t k e tail b st g L Nw W Ti Tt El Hu Hw.
    destruct (ok_SectionTitle user t k e tail (rev ws ++ repeat 61%N (S level) ++ b) st g Ti Tt El Hu) as (b1 & g1 & Ss & O1).
    destruct (ok_EOL H G e tail b1 ([("title"%string, Peg.VList [elem (StringElement (encode_runes (t ++ repeat 32%N k)))]); ("level"%string, Peg.VInt (Z.of_nat level))] : labels (hv X)) (er, g1, hs) El) as (ve & b2 & O2).
    set (u := t ++ repeat 32%N k ++ e ++ tail) in *.
    assert (P_PegRun.head_not blankb u) as Hd.
    { destruct Ti as (_ & Ne & Fs & _). destruct t as [|r t]; [congruence|]. cbn in Fs |- *. unfold blankb. apply orb_false_iff. split; apply N.eqb_neq; intros ->; discriminate Fs. }
    set (lev := Z.of_nat level).
    exists [], b2, g1. split; [exact Ss|]. eapply ok_ref; [reflexivity|].
    eapply ok_act with (c1 := (er, g1, hs)) (en' := [("title"%string, Peg.VList [elem (StringElement (encode_runes (t ++ repeat 32%N k)))]); ("level"%string, Peg.VInt lev)] : labels (hv X)).
    - apply ok_seq. eapply seq_cons with (p1 := Pos b (repeat 61%N (S level) ++ ws ++ u)).
      { apply ok_pred, pred_host with (g' := g). intros s Es. apply core_store in Es. destruct Es as [<- _]. change (h_pred H) with (go_pred X cls white). unfold go_pred.
        assert (assoc (known_preds cls white) "return !c.isWithinDelimitedBlock(), nil" = Some (QFlag (fun g => negb (isWithinDelimitedBlock g)))) as -> by reflexivity.
        cbn [run_pkind]. now rewrite Hw. }
      eapply seq_cons with (p1 := Pos (repeat 61%N (S level) ++ b) (ws ++ u)) (c1 := (er, g, st)) (en1 := [("level"%string, Peg.VInt lev)] : labels (hv X)).
      { eapply ok_lab. eapply ok_act with (c1 := (er, g, st)) (en' := [] : labels (hv X)).
        - apply ok_plus with (vs := repeat (VBytes [61%N]) (S level)); [|discriminate].
          apply star_lit1; [discriminate|]. destruct ws as [|r ws]; [congruence|]. inversion W as [|? ? [->| ->] _]; reflexivity.
        - rewrite slice_app. intros s Es Et. exists s. split; [|exact Es]. cbn [run_act]. rewrite Et, byte_len_repeat by reflexivity.
          do 3 f_equal. unfold lev. f_equal. lia. }
      eapply seq_cons with (p1 := Pos (repeat 61%N (S level) ++ b) (ws ++ u)).
      { apply ok_pred with (c' := (er, g, st)). intros s Es. exists s. split; [|exact Es]. cbn [run_pred label String.eqb Ascii.eqb Bool.eqb].
        assert (lev <=? 5 = true)%Z as -> by (apply Z.leb_le; unfold lev; lia). reflexivity. }
      eapply seq_cons with (p1 := Pos (rev ws ++ repeat 61%N (S level) ++ b) u).
      { eapply ok_act; [|rewrite slice_app; apply act_text].
        apply ok_plus with (vs := map (fun r => VBytes [r]) ws); [|destruct ws; [congruence|discriminate]]. apply star_cls.
        - intros r Ir. rewrite in_blank. apply blankb_spec. unfold blanks in W. rewrite Forall_forall in W. apply W, Ir.
        - destruct u as [|r u]; [exact Logic.I|]. cbn [P_PegRun.head_not] in *. rewrite in_blank. now rewrite Hd. }
      eapply seq_cons with (p1 := Pos b1 (e ++ tail)) (c1 := (er, g1, hs)); [eapply ok_lab; exact O1|].
      eapply seq_cons; [|apply seq_nil]. exact O2.
    - eapply act_known; [reflexivity|]. intros s Es Et. unfold run_akind. cbn [label String.eqb Ascii.eqb Bool.eqb].
      change (vals X (Peg.VList [elem (StringElement (encode_runes (t ++ repeat 32%N k)))])) with (Some [StringElement (encode_runes (t ++ repeat 32%N k))]).
      cbn [rev app]. apply core_store in Es. destruct Es as [-> _]. destruct (title_trim t k Ti) as [T1 T2].
      unfold TrimTrailingSpaces. cbn [rev app]. rewrite T1. apply String.eqb_neq in T2. rewrite T2. reflexivity.
  Qed.
  (** the element at the beginning of the rest of the document *)
  Lemma fragment_section : forall es1 e es2 b x t g st v p' en1 g2 st2,
    fragment_alts = es1 ++ e :: es2 ->
    No_ (ERef "BlockAttributes") (Pos b (x :: t)) [] (er, g, st) (er, g, st) ->
    (forall a, In a es1 -> No_ a (Pos b (x :: t)) [] (er, g, st) (er, g, st)) ->
    Ok_ e (Pos b (x :: t)) [] (er, g, st) (elem v) p' en1 (er, g2, st2) ->
    keeps_header X (elem v) = Some false ->
    Ok_ (ERef "DocumentFragment") (Pos b (x :: t)) [] (er, g, st) (elem v) p' [] (er, after g2, st2).
  Proof.
    intros es1 e es2 b x t g st v p' en1 g2 st2 Ef NB N O K. eapply ok_ref; [reflexivity|].
    eapply ok_act.
    - apply ok_seq. eapply seq_cons; [apply ok_NotEOF|].
      eapply seq_cons; [eapply ok_lab, ok_opt_none, NB|].
      eapply seq_cons; [apply ok_state with (g' := g) (t' := st)|].
      { intros s Es. apply core_store in Es. destruct Es as [<- <-]. reflexivity. }
      eapply seq_cons; [eapply ok_lab, ok_opt_some|].
      { change (EAlt _) with (EAlt fragment_alts). rewrite Ef. eapply ok_alt_skip; [exact N|exact O]. }
      eapply seq_cons; [apply ok_pred with (c' := (er, g2, st2))|apply seq_nil].
      intros s Es. exists s. split; [reflexivity|exact Es].
    - change (elem v : value (HV H)) with (updated H (elem v) VNil). apply act_then with (l := "element"%string).
      intros s Es _. apply core_store in Es. destruct Es as [Es _].
      change (h_act H) with (go_act X white other). unfold go_act.
      replace (assoc known_acts _) with (Some KFragment) by reflexivity. unfold run_akind.
      unfold elem in *. cbn [label String.eqb Ascii.eqb Bool.eqb updated]. rewrite K, Es. reflexivity.
  Qed.
  Lemma heading_ok : forall user level ws t k e tail b st g, 1 <= level <= 5 -> ws <> [] -> blanks ws -> title t ->
    title_text letter num (macro_name user) (t ++ repeat 32%N k) -> eol e tail -> st_macros g = user -> isWithinDelimitedBlock g = false ->
    exists b' g', Ok_ (ERef "DocumentFragment") (Pos b (repeat 61%N (S level) ++ ws ++ t ++ repeat 32%N k ++ e ++ tail)) [] (er, g, st)
        (elem (Section (Z.of_nat level) [] (Some [StringElement (encode_runes t)]) [])) (Pos b' tail) [] (er, g', hs)
      /\ isDocumentHeaderAllowed g' = false /\ (st_within g', st_battrs g') = (st_within g, st_battrs g) /\ st_macros g' = st_macros g.
  Proof.
    intros user level ws t k e tail b st g L Nw W Ti Tt El Hu Hw.
    destruct (ok_Section user level ws t k e tail b st g L Nw W Ti Tt El Hu Hw) as (en & b' & g1 & (S1 & S2 & S3) & O).
    exists b', (after g1). split; [|split; [reflexivity|split; [exact S2|exact S3]]].
    set (u := ws ++ t ++ repeat 32%N k ++ e ++ tail) in *.
    pose proof (repeat_split 61%N 2 (S level) u ltac:(lia)) as Eu. cbn [repeat] in Eu. change ([61%N; 61%N] ++ repeat 61%N (S level - 2) ++ u) with (61%N :: 61%N :: repeat 61%N (S level - 2) ++ u) in Eu.
    match type of O with P_PegRun.Ok_ _ _ _ (Pos _ ?x) _ _ _ _ _ _ => assert (x = 61%N :: 61%N :: repeat 61%N (S level - 2) ++ u) as Ex by exact Eu end. rewrite Ex in O |- *.
    eapply (fragment_section (firstn 8 fragment_alts) (ERef "Section") (skipn 9 fragment_alts)); [reflexivity| | |exact O|reflexivity].
    - apply (no_prefix X cls low white other U G 40 _ true b [61%N; 61%N]); [vm_compute; reflexivity|discriminate].
    - apply (no_alts X cls low white other U b [61%N; 61%N]). vm_compute. reflexivity.
  Qed.
  End Er.
  Definition part_val (p : part) : val :=
    match p with Block v => v | Heading level t => Section (Z.of_nat level) [] (Some [StringElement (encode_runes t)]) [] end.
  Lemma manuscript_run : forall user header text ps, manuscript letter num white (macro_name user) header text ps -> forall b s, p_errs s = false ->
    isDocumentHeaderAllowed (c_store s) = header -> isWithinDelimitedBlock (c_store s) = false -> st_macros (c_store s) = user -> isWithinLiteralParagraph (c_store s) = false ->
    exists n fs q, fragments H n (Pos b text) s = Some (fs, Finished, q) /\ map f_element fs = map (fun p => elem (part_val p)) ps.
  Proof.
    intros user header text ps D. induction D as [header|header text v tail ps Ne P D IH|header level ws t k e tail ps L Nw W Ti Tt El D IH]; intros b s Es Hs Hw Hu Hp.
    - exists 1, [], (Pos b []). split; reflexivity.
    - destruct (piece_ok X cls low white other U header text v tail b false (c_store s) (c_state s) Hs (fun _ => Hp) P) as (b' & g' & O & Hg' & Wg' & Mg' & Lg').
      destruct (O s) as (s' & (n1 & R) & Es'); [destruct s as [mp mt er0 gs0 ct0]; cbn in Es; subst er0; reflexivity|].
      assert (p_errs s' = false /\ c_store s' = g') as [E1 E2] by (split; [exact (f_equal (fun c => fst (fst c)) Es')|exact (f_equal (fun c => snd (fst c)) Es')]).
      destruct (IH b' s' E1) as (n2 & fs & q & F & M).
      { refine (eq_trans (f_equal isDocumentHeaderAllowed E2) Hg'). }
      { refine (eq_trans (f_equal isWithinDelimitedBlock E2) _). unfold isWithinDelimitedBlock in *. now rewrite Wg'. }
      { refine (eq_trans (f_equal st_macros E2) (eq_trans Mg' Hu)). }
      { refine (eq_trans (f_equal isWithinLiteralParagraph E2) _). now rewrite Lg'. }
      exists (S (Nat.max n1 n2)), (@Frag H (List.length b) (List.length b') (@elem X v) :: fs), q.
      split; [|cbn [map]; now rewrite M]. eapply (fragments_step H); eauto. discriminate.
    - destruct (heading_ok false user level ws t k e tail b (c_state s) (c_store s) L Nw W Ti Tt El Hu Hw) as (b' & g' & O & Hg' & Wg' & Mg'). injection Wg' as Wg' Bg'.
      destruct (O s) as (s' & (n1 & R) & Es'); [destruct s as [mp mt er0 gs0 ct0]; cbn in Es; subst er0; reflexivity|].
      assert (p_errs s' = false /\ c_store s' = g') as [E1 E2] by (split; [exact (f_equal (fun c => fst (fst c)) Es')|exact (f_equal (fun c => snd (fst c)) Es')]).
      destruct (IH b' s' E1) as (n2 & fs & q & F & M).
      { refine (eq_trans (f_equal isDocumentHeaderAllowed E2) Hg'). }
      { refine (eq_trans (f_equal isWithinDelimitedBlock E2) _). unfold isWithinDelimitedBlock in *. now rewrite Wg'. }
      { refine (eq_trans (f_equal st_macros E2) (eq_trans Mg' Hu)). }
      { refine (eq_trans (f_equal isWithinLiteralParagraph E2) _). unfold isWithinLiteralParagraph in *. now rewrite Bg'. }
      exists (S (Nat.max n1 n2)), (@Frag H (List.length b) (List.length b') (@elem X (part_val (Heading level t))) :: fs), q.
      split; [|cbn [map]; now rewrite M]. eapply (fragments_step H); eauto; [discriminate|discriminate].
  Qed.
End Sections.
