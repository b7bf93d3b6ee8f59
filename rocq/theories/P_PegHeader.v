(** The parsing of the header of a document (for C72). *)
From Coq Require Import List String NArith ZArith Bool Ascii Arith Lia.
From Verif Require Import GoBase GoLemmas Utf8 Types Attrs Elements Merge MergeLemmas Subs Peg PegGrammar PegDoc PegHost PegSym PegBlockSpec PegInlineSpec ConvertSpec SectionDocSpec TitledSpec
  P_PegTerm P_PegParse P_PegRun P_PegLines P_PegBlocks P_PegFragment P_PegPara P_PegDocs P_PegInline P_PegDodge P_PegNormal P_PegSections.
Import ListNotations.
Local Open Scope list_scope.

Section Header.
  Variable X : Type.
  Variable cls : string -> rune -> bool.
  Variable low : rune -> rune.
  Variable white : rune -> bool.
  Variable other : string -> labels (hv X) -> soft gstore (option (list string)) -> option (value (hv X) * bool).
  Notation H := (go_host X cls low white other).
  Hypothesis U : unicode_ok H.
  Notation G := the_grammar.
  Notation Ok_ := (Ok_ H G).
  Notation No_ := (No_ H G).
  Notation Star_ := (Star_ H G).
  Notation Seq_ := (Seq_ H G).
  Notation letter := (cls "L"). Notation num := (cls "N").
  Notation hs := (Some headerSubstitutions).
  Definition comments : expr := EAlt [x_SinglelineComment; x_CommentBlock].
  Definition extras : expr := EAlt [ERef "AttributeDeclaration"; x_AttributeReset; x_AttributeReset_2; x_SinglelineComment; x_CommentBlock].
  Lemma begins_app : forall w t, begins w t = true -> exists u, t = w ++ u.
  Proof.
    induction w as [|x w IH]; intros t B; [now exists t|]. destruct t as [|y t]; [discriminate B|]. cbn [begins] in B.
    apply andb_true_iff in B. destruct B as [Q B]. apply N.eqb_eq in Q. subst y. destruct (IH t B) as (u & ->). now exists u.
  Qed.
  Lemma no_more : forall x, In x [comments; x_DocumentAuthorsAndRevision; extras] -> forall tail b c,
    tail = [] \/ begins [10%N] tail = true \/ begins [13%N; 10%N] tail = true -> No_ x (Pos b tail) [] c c.
  Proof.
    intros x I tail b c [->|[B|B]].
    - change (@nil rune) with ([] ++ @nil rune)%list at 1. apply (no_prefix X cls low white other U G 40 _ false b [] []); [|reflexivity].
      cbn [In] in I. destruct I as [<-|[<-|[<-|[]]]]; vm_compute; reflexivity.
    - apply begins_app in B. destruct B as (u & ->). apply (no_prefix X cls low white other U G 40 _ true b [10%N] u); [|discriminate].
      cbn [In] in I. destruct I as [<-|[<-|[<-|[]]]]; vm_compute; reflexivity.
    - apply begins_app in B. destruct B as (u & ->). apply (no_prefix X cls low white other U G 40 _ true b [13%N; 10%N] u); [|discriminate].
      cbn [In] in I. destruct I as [<-|[<-|[<-|[]]]]; vm_compute; reflexivity.
  Qed.
  Definition header_val (t : list rune) : val := DocumentHeader (Some [StringElement (encode_runes t)]) [] [].
  Lemma ok_DocumentTitle : forall er user ws t k e tail b st g, ws <> [] -> blanks ws -> title t ->
    title_text letter num (macro_name user) (t ++ repeat 32%N k) -> eol e tail -> st_macros g = user ->
    exists b' g', same_store g g' /\
      Ok_ (ERef "DocumentTitle") (Pos b (61%N :: ws ++ t ++ repeat 32%N k ++ e ++ tail)) [] (er, g, st)
        (Peg.VList [elem (StringElement (encode_runes (t ++ repeat 32%N k)))]) (Pos b' tail) [] (er, g', hs).
  Proof.
    intros er user ws t k e tail b st g Nw W Ti Tt El Hu.
    destruct (ok_SectionTitle X cls low white other U er user t k e tail (rev ws ++ 61%N :: b) st g Ti Tt El Hu) as (b1 & g1 & Ss & O1).
    destruct (ok_EOL H G e tail b1 ([("title"%string, Peg.VList [elem (StringElement (encode_runes (t ++ repeat 32%N k)))])] : labels (hv X)) (er, g1, hs) El) as (ve & b2 & O2).
    set (u := t ++ repeat 32%N k ++ e ++ tail) in *.
    assert (P_PegRun.head_not blankb u) as Hd.
    { destruct Ti as (_ & Ne & Fs & _). destruct t as [|r t]; [congruence|]. cbn in Fs |- *. unfold blankb. apply orb_false_iff. split; apply N.eqb_neq; intros ->; discriminate Fs. }
    exists b2, g1. split; [exact Ss|]. eapply ok_ref; [reflexivity|].
    eapply ok_act with (c1 := (er, g1, hs)) (en' := [("title"%string, Peg.VList [elem (StringElement (encode_runes (t ++ repeat 32%N k)))])] : labels (hv X)).
    - apply ok_seq. eapply seq_cons with (p1 := Pos (61%N :: b) (ws ++ u)) (en1 := [] : labels (hv X)) (c1 := (er, g, st)).
      { apply (ok_lit H G [61%N] (ws ++ u) b). }
      eapply seq_cons with (p1 := Pos (rev ws ++ 61%N :: b) u).
      { eapply ok_act; [|rewrite slice_app; apply act_text].
        apply ok_plus with (vs := map (fun r => VBytes [r]) ws); [|destruct ws; [congruence|discriminate]]. apply star_cls.
        - intros r Ir. rewrite in_blank. apply blankb_spec. unfold blanks in W. rewrite Forall_forall in W. apply W, Ir.
        - destruct u as [|r u]; [exact Logic.I|]. cbn [P_PegRun.head_not] in *. rewrite in_blank. now rewrite Hd. }
      eapply seq_cons with (p1 := Pos b1 (e ++ tail)) (c1 := (er, g1, hs)); [eapply ok_lab; exact O1|].
      eapply seq_cons; [|apply seq_nil]. exact O2.
    - intros s Es Et. exists s. split; [reflexivity|exact Es].
  Qed.
  Lemma header_fragment : forall er user ws t k e tail b st g, ws <> [] -> blanks ws -> title t ->
    title_text letter num (macro_name user) (t ++ repeat 32%N k) -> eol e tail ->
    tail = [] \/ begins [10%N] tail = true \/ begins [13%N; 10%N] tail = true ->
    st_macros g = user -> isDocumentHeaderAllowed g = true ->
    exists b' g', Ok_ (ERef "DocumentFragment") (Pos b (61%N :: ws ++ t ++ repeat 32%N k ++ e ++ tail)) [] (er, g, st)
        (elem (header_val t)) (Pos b' tail) [] (er, g', hs)
      /\ isDocumentHeaderAllowed g' = false /\ (st_within g', st_battrs g') = (st_within g, st_battrs g) /\ st_macros g' = st_macros g.
  Proof.
    intros er user ws t k e tail b st g Nw W Ti Tt El Tl Hu Ha.
    destruct (ok_DocumentTitle er user ws t k e tail b st g Nw W Ti Tt El Hu) as (b1 & g1 & (S1 & S2 & S3) & O).
    exists b1, (after g1). split; [|split; [reflexivity|split; [exact S2|exact S3]]].
    pose (tv := Peg.VList [elem (StringElement (encode_runes (t ++ repeat 32%N k)))] : value (hv X)).
    eapply (fragment_section X cls low white other er (firstn 7 fragment_alts) (ERef "DocumentHeader") (skipn 8 fragment_alts)); [reflexivity| | | |reflexivity].
    - apply (no_prefix X cls low white other U G 40 _ true b [61%N]); [vm_compute; reflexivity|discriminate].
    - destruct ws as [|w ws]; [congruence|]. assert (w = 32%N \/ w = 9%N) as [->| ->] by (inversion W; assumption).
      + apply (no_alts X cls low white other U b [61%N; 32%N]). vm_compute. reflexivity.
      + apply (no_alts X cls low white other U b [61%N; 9%N]). vm_compute. reflexivity.
    - eapply ok_ref; [reflexivity|].
      eapply ok_act with (c1 := (er, g1, hs)) (en' := [("extraElements"%string, Peg.VList []); ("authorsAndRevision"%string, Peg.VNil); ("title"%string, tv)] : labels (hv X)).
      + apply ok_seq. eapply seq_cons with (p1 := Pos b (61%N :: ws ++ t ++ repeat 32%N k ++ e ++ tail)).
        { apply ok_pred, pred_host with (g' := g). intros s Es. apply core_store in Es. destruct Es as [<- _]. change (h_pred H) with (go_pred X cls white). unfold go_pred.
          assert (assoc (known_preds cls white) "return c.isDocumentHeaderAllowed(), nil" = Some (QFlag isDocumentHeaderAllowed)) as -> by reflexivity.
          cbn [run_pkind]. now rewrite Ha. }
        eapply seq_cons with (p1 := Pos b (61%N :: ws ++ t ++ repeat 32%N k ++ e ++ tail)).
        { apply ok_star, star_stop. apply (no_prefix X cls low white other U G 40 comments true b [61%N]); [vm_compute; reflexivity|discriminate]. }
        eapply seq_cons with (p1 := Pos b1 tail) (c1 := (er, g1, hs)); [eapply ok_lab; exact O|].
        eapply seq_cons with (p1 := Pos b1 tail); [apply ok_star, star_stop, (no_more comments); [cbn; tauto|exact Tl]|].
        eapply seq_cons with (p1 := Pos b1 tail); [eapply ok_lab, ok_opt_none, (no_more x_DocumentAuthorsAndRevision); [cbn; tauto|exact Tl]|].
        eapply seq_cons with (p1 := Pos b1 tail); [eapply ok_lab, ok_star, star_stop, (no_more extras); [cbn; tauto|exact Tl]|apply seq_nil].
      + eapply act_known; [reflexivity|]. intros s Es Et. unfold run_akind. cbn [label String.eqb Ascii.eqb Bool.eqb].
        apply core_store in Es. destruct Es as [-> _]. destruct (title_trim t k Ti) as [T1 T2]. apply String.eqb_neq in T2.
        change (vals X tv) with (Some [StringElement (encode_runes (t ++ repeat 32%N k))]). cbn [vals]. unfold TrimTrailingSpaces. cbn [rev app]. rewrite T1, T2. reflexivity.
  Qed.
  Lemma titled_run : forall user text t ps, titled letter num white (macro_name user) text t ps -> forall b s, p_errs s = false ->
    isDocumentHeaderAllowed (c_store s) = true -> isWithinDelimitedBlock (c_store s) = false -> st_macros (c_store s) = user -> isWithinLiteralParagraph (c_store s) = false ->
    exists n fs q, fragments H n (Pos b text) s = Some (fs, Finished, q) /\ map f_element fs = elem (header_val t) :: map (fun p => elem (part_val p)) ps.
  Proof.
    intros user text t ps D b s Es Hs Hw Hu Hp. destruct D as [ws t k e tail ps Nw W Ti Tt El Tl D].
    destruct (header_fragment false user ws t k e tail b (c_state s) (c_store s) Nw W Ti Tt El Tl Hu Hs) as (b' & g' & O & Hg' & Wg' & Mg'). injection Wg' as Wg' Bg'.
    destruct (O s) as (s' & (n1 & R) & Es'); [destruct s as [mp mt er0 gs0 ct0]; cbn in Es; subst er0; reflexivity|].
    assert (p_errs s' = false /\ c_store s' = g') as [E1 E2] by (split; [exact (f_equal (fun c => fst (fst c)) Es')|exact (f_equal (fun c => snd (fst c)) Es')]).
    destruct (manuscript_run X cls low white other U user false tail ps D b' s' E1) as (n2 & fs & q & F & M).
    { refine (eq_trans (f_equal isDocumentHeaderAllowed E2) Hg'). }
    { refine (eq_trans (f_equal isWithinDelimitedBlock E2) _). unfold isWithinDelimitedBlock in *. now rewrite Wg'. }
    { refine (eq_trans (f_equal st_macros E2) (eq_trans Mg' Hu)). }
    { refine (eq_trans (f_equal isWithinLiteralParagraph E2) _). unfold isWithinLiteralParagraph in *. now rewrite Bg'. }
    exists (S (Nat.max n1 n2)), (@Frag H (List.length b) (List.length b') (@elem X (header_val t)) :: fs), q.
    split; [|cbn [map]; now rewrite M]. eapply (fragments_step H); eauto; discriminate.
  Qed.
End Header.
