(** C70: from the source to the text that is parsed: the lines that are no directive are kept, conditional
    regions are chosen by the attributes declared so far. *)
From Coq Require Import List String NArith ZArith Bool Ascii Arith Lia.
From Verif Require Import GoBase GoLemmas Utf8 Utf8Lemmas Types Attrs Context Elements Subs Cond Include Preprocess Config Validator Render Peg PegGrammar PegHost PegSym PegBlockSpec
  CtxLemmas PegInlineSpec ConvertSpec SourceSpec P_PegTerm P_PegRun P_PegLines P_PegBlocks P_PegFragment P_PegPara P_PegDocs P_PegInline Convert P_Convert ConvertSource.
Import ListNotations.
Local Open Scope list_scope.

Definition raw_alts : list expr :=
  match g_DocumentRawLine with EAct _ (ESeq [ELab _ (EAlt l); _]) => l | _ => [] end.

Section Lines.
  Variable X : Type.
  Variable cls : string -> rune -> bool.
  Variable low : rune -> rune.
  Variable white : rune -> bool.
  Variable other : string -> labels (hv X) -> soft gstore (option (list string)) -> option (value (hv X) * bool).
  Notation H := (go_host X cls low white other).
  Hypothesis U : unicode_ok H.
  Variable raw_of : X -> option rawelt.
  Notation G := the_grammar.
  Notation Ok_ := (P_PegRun.Ok_ H G).
  Notation No_ := (P_PegRun.No_ H G).
  Notation Seq_ := (P_PegRun.Seq_ H G).
  Notation core := (P_PegRun.core H).
  Notation rawLine := (rawLine X cls low white other raw_of).

  (** a rule that reads the whole line *)
  Lemma rawLine_ok : forall es1 e es2 line v en b user secs within r,
    let c := (false, raw_store user secs within, None) : core in
    characters line -> raw_alts = es1 ++ e :: es2 ->
    (forall x, In x es1 -> No_ x (Pos [] line) [] c c) ->
    Ok_ e (Pos [] line) [] c v (Pos b []) en c -> raw_element X raw_of v = r ->
    exists n0, forall n, n0 <= n -> rawLine n user secs within (encode_runes line) = r.
  Proof.
    intros es1 e es2 line v en b user secs within r c V Er N O <-.
    assert (Ok_ (ERef "DocumentRawLine") (Pos [] line) [] c v (Pos b []) [] c) as A.
    { eapply ok_ref; [reflexivity|]. eapply ok_act with (c1 := c) (en' := [("element"%string, v)]); [|apply act_label].
      apply ok_seq. eapply seq_cons; [|eapply seq_cons; [apply ok_EOF|apply seq_nil]].
      eapply ok_lab. change (EAlt _) with (EAlt raw_alts). rewrite Er. eapply ok_alt_skip; eauto. }
    destruct (A (Soft [] [] false (raw_store user secs within) None) eq_refl) as (s' & (n0 & R) & Ec).
    exists n0. intros n L. unfold ConvertSource.rawLine. rewrite runes_encode_all by exact V.
    assert (Peg.parse H G n "DocumentRawLine" line (raw_store user secs within) = Some (ROk v (Pos b []) [] s')) as -> by exact (eval_mono H G n0 n L _ _ _ _ _ R).
    unfold core_of in Ec. injection Ec as Ee _ _. cbv beta iota. assert (@p_errs (HS H) (HT H) s' = false) as Ee' by exact Ee. now rewrite Ee'.
  Qed.

  Lemma not_listed : forall (l : list N) r, ~ In r l -> existsb (N.eqb r) l = false.
  Proof. intros l r N. apply not_true_iff_false. intros E. apply existsb_exists in E. destruct E as (x & I & E). apply N.eqb_eq in E. now subst. Qed.
  Lemma in_chars : forall l r, in_cls H l [] [] r = existsb (N.eqb r) l.
  Proof. intros l r. unfold in_cls. cbn [existsb]. now rewrite !orb_false_r. Qed.
  (** [^...]+ *)
  Lemma ok_until : forall l w x t b en c, w <> [] -> Forall (fun r => ~ In r l) w -> In x l ->
    Ok_ (EAct AText (EPlus (ECls l [] [] true))) (Pos b (w ++ x :: t)) en c (VStr w) (Pos (rev w ++ b) (x :: t)) en c.
  Proof.
    intros l w x t b en c Nw F I. eapply ok_act with (c1 := c).
    - eapply ok_plus; [apply star_cls|].
      + intros r Ir. rewrite in_chars. cbn [negb]. apply not_listed. rewrite Forall_forall in F. now apply F.
      + cbn [head_not]. rewrite in_chars. replace (existsb (N.eqb x) l) with true; [reflexivity|].
        symmetry. apply existsb_exists. exists x. split; [exact I|apply N.eqb_refl].
      + destruct w; [now destruct Nw|discriminate].
    - rewrite slice_app. apply act_text.
  Qed.
  Lemma no_until : forall l x t b en c, In x l -> No_ (EAct AText (EPlus (ECls l [] [] true))) (Pos b (x :: t)) en c c.
  Proof. intros l x t b en c I. apply no_act, no_plus, no_cls. rewrite in_chars. apply existsb_exists. exists x. split; [exact I|apply N.eqb_refl]. Qed.

  Definition strV (w : list rune) : value (HV H) := VStr w.
  Definition attrV (w : list rune) : value (HV H) := match w with [] => VNil | _ => VStr w end.
  Lemma ok_attr : forall w t b en c, Forall (fun r => ~ In r [13; 10; 93]%N) w ->
    Ok_ (EOpt x_ConditionalInclusionAttribute) (Pos b (w ++ 93%N :: t)) en c (attrV w) (Pos (rev w ++ b) (93%N :: t)) en c.
  Proof.
    intros w t b en c F. destruct w as [|r w]; cbn [attrV].
    - apply ok_opt_none, no_until. cbn; tauto.
    - eapply ok_opt_some. apply ok_until; [discriminate|exact F|cbn; tauto].
  Qed.
  (** what follows the name *)
  Lemma brackets_seq : forall content ws b en c, Forall (fun r => ~ In r [13; 10; 93]%N) content -> blanks ws ->
    Seq_ [ELit (R "[") false; ELab "attr" (EOpt x_ConditionalInclusionAttribute); ELit (R "]") false; EStar x_Space; x_EOF]
      (Pos b (R "[" ++ content ++ R "]" ++ ws)) en c
      [VBytes (R "["); attrV content; VBytes (R "]"); VList (map (fun r => VStr [r]) ws); VNil]
      (Pos (rev ws ++ 93%N :: rev content ++ 91%N :: b) []) (("attr"%string, attrV content) :: en) c.
  Proof.
    intros content ws b en c F W. eapply seq_cons; [apply ok_lit|].
    eapply seq_cons; [eapply ok_lab, ok_attr, F|].
    eapply seq_cons; [apply (ok_lit H G [93%N])|]. cbn [rev app].
    eapply seq_cons; [|eapply seq_cons; [apply ok_EOF|apply seq_nil]].
    rewrite <- (app_nil_r ws) at 1. apply ok_Spaces0; [exact W|exact Logic.I].
  Qed.
  Lemma label_attr : forall w en, (match label (("attr"%string, attrV w) :: en) "attr" with Peg.VStr u => encode_runes u | _ => ""%string end) = encode_runes w.
  Proof. intros [|r w] en; reflexivity. Qed.

  Lemma characters_app : forall a b, characters (a ++ b) <-> characters a /\ characters b.
  Proof. intros a b. apply Forall_app. Qed.
  Lemma characters_blanks : forall ws, blanks ws -> characters ws.
  Proof. intros ws W. unfold characters. eapply Forall_impl; [|exact W]. intros r [-> | ->]; reflexivity. Qed.
  Lemma characters_R : forall s, forallb (fun c => N_of_ascii c <? 128)%N (list_ascii_of_string s) = true -> characters (R s).
  Proof.
    induction s as [|c s IH]; cbn [R list_ascii_of_string forallb]; intros E; [constructor|]. apply andb_true_iff in E. destruct E as [E1 E2].
    constructor; [|now apply IH]. apply N.ltb_lt in E1. unfold valid_rune. apply orb_true_iff. left. apply N.ltb_lt. lia.
  Qed.
  Lemma directive_chars : forall word name content ws, forallb (fun c => N_of_ascii c <? 128)%N (list_ascii_of_string word) = true ->
    characters name -> characters content -> blanks ws -> characters (R word ++ name ++ R "[" ++ content ++ R "]" ++ ws).
  Proof.
    intros word name content ws A B C D. repeat (apply characters_app; split); auto using characters_R, characters_blanks.
  Qed.

  Lemma read_condition : forall d name content l user secs within, condition d name content l ->
    exists n0, forall n, n0 <= n -> rawLine n user secs within l =
      Some (RCond (if d then Ifdef (encode_runes name) (encode_runes content) else Ifndef (encode_runes name) (encode_runes content))).
  Proof.
    intros d name content l user secs within C.
    destruct C as [name content l (Nn & Vn & Fn) (Vc & Fc) (ws & W & ->)|name content l (Nn & Vn & Fn) (Vc & Fc) (ws & W & ->)].
    - eapply (rawLine_ok (firstn 4 raw_alts) x_Ifdef (skipn 5 raw_alts)); [now apply directive_chars|reflexivity| | |].
      + intros x I. assert (forallb (fun e => fails_on G quiet_name 40 e true [] (R "ifdef::")) (firstn 4 raw_alts) = true) as F by (vm_compute; reflexivity).
        rewrite forallb_forall in F. eapply no_prefix; [exact U|now apply F|discriminate].
      + eapply ok_act with (c1 := (false, raw_store user secs within, None)).
        * apply ok_seq. eapply seq_cons; [apply ok_lit|]. eapply seq_cons; [eapply ok_lab, ok_until; [exact Nn|exact Fn|cbn; tauto]|].
          apply brackets_seq; assumption.
        * eapply act_known; [reflexivity|]. intros s Es _. unfold run_akind. rewrite label_attr. cbn [label String.eqb Ascii.eqb Bool.eqb].
          apply core_store in Es. destruct Es as [-> _]. reflexivity.
      + reflexivity.
    - eapply (rawLine_ok (firstn 5 raw_alts) x_Ifndef (skipn 6 raw_alts)); [now apply directive_chars|reflexivity| | |].
      + intros x I. assert (forallb (fun e => fails_on G quiet_name 40 e true [] (R "ifndef::")) (firstn 5 raw_alts) = true) as F by (vm_compute; reflexivity).
        rewrite forallb_forall in F. eapply no_prefix; [exact U|now apply F|discriminate].
      + eapply ok_act with (c1 := (false, raw_store user secs within, None)).
        * apply ok_seq. eapply seq_cons; [apply ok_lit|]. eapply seq_cons; [eapply ok_lab, ok_until; [exact Nn|exact Fn|cbn; tauto]|].
          apply brackets_seq; assumption.
        * eapply act_known; [reflexivity|]. intros s Es _. unfold run_akind. rewrite label_attr. cbn [label String.eqb Ascii.eqb Bool.eqb].
          apply core_store in Es. destruct Es as [-> _]. reflexivity.
      + reflexivity.
  Qed.
  Lemma read_end : forall l user secs within, end_of_condition l -> exists n0, forall n, n0 <= n -> rawLine n user secs within l = Some REnd.
  Proof.
    intros l user secs within (name & content & Nm & (Vc & Fc) & ws & W & ->).
    assert (characters name) as Vn by (destruct Nm as [->|Nm]; [constructor|apply Nm]).
    eapply (rawLine_ok (firstn 7 raw_alts) x_EndIf (skipn 8 raw_alts)); [now apply directive_chars|reflexivity| | |].
    - intros x I. assert (forallb (fun e => fails_on G quiet_name 40 e true [] (R "endif::")) (firstn 7 raw_alts) = true) as F by (vm_compute; reflexivity).
      rewrite forallb_forall in F. eapply no_prefix; [exact U|now apply F|discriminate].
    - eapply ok_act with (c1 := (false, raw_store user secs within, None)) (en' := [("attr"%string, attrV content); ("name"%string, attrV name)]).
      * apply ok_seq. eapply seq_cons; [apply ok_lit|]. eapply seq_cons with (p1 := Pos (rev name ++ rev (R "endif::") ++ []) (R "[" ++ content ++ R "]" ++ ws)); [|apply brackets_seq; assumption].
        eapply ok_lab with (en' := []).
        destruct Nm as [->|(Nn & _ & Fn)]; [apply ok_opt_none, no_until; cbn; tauto|].
        destruct name as [|r w]; [now destruct Nn|]. eapply ok_opt_some. apply (ok_until [13; 10; 32; 91]%N (r :: w) 91%N); [exact Nn|exact Fn|cbn; tauto].
      * eapply act_known; [reflexivity|]. intros s Es _. unfold run_akind.
        apply core_store in Es. destruct Es as [-> _]. reflexivity.
    - reflexivity.
  Qed.

  (** ** declarations *)
  Lemma in_named : forall k r, in_cls H [k] [] ["L"; "N"]%string r = (word_char (cls "L") (cls "N") r || N.eqb r k).
  Proof. intros k r. unfold in_cls, word_char. cbn [existsb in_class go_host]. rewrite !orb_false_r. apply orb_comm. Qed.
  Lemma no_word : forall r, In r [33; 58]%N -> word_char (cls "L") (cls "N") r = false.
  Proof.
    intros r I. destruct U as [U1 _]. unfold word_char. apply orb_false_iff.
    split; [apply (U1 "L"%string)|apply (U1 "N"%string)]; cbn in I; destruct I as [<-|[<-|[]]]; reflexivity.
  Qed.
  Lemma ok_Name : forall w x t b en c, attribute_name (cls "L") (cls "N") w -> In x [33; 58]%N ->
    Ok_ x_AttributeName (Pos b (w ++ x :: t)) en c (VStr w) (Pos (rev w ++ b) (x :: t)) en c.
  Proof.
    intros w x t b en c (_ & r & w' & -> & Fr & Fw) I. eapply ok_act with (c1 := c) (en' := en).
    - cbn [rev]. rewrite <- app_assoc. apply ok_seq. cbn [app]. eapply seq_cons; [apply ok_cls|].
      { rewrite in_named. destruct Fr as [->| ->]; [reflexivity|]. rewrite N.eqb_refl. apply orb_true_r. }
      eapply seq_cons; [apply ok_star, star_cls|apply seq_nil].
      + intros y Iy. rewrite in_named. rewrite Forall_forall in Fw. destruct (Fw _ Iy) as [->| ->]; [reflexivity|]. rewrite N.eqb_refl. apply orb_true_r.
      + cbn [head_not]. rewrite in_named, no_word by exact I. cbn in I. destruct I as [<-|[<-|[]]]; reflexivity.
    - rewrite slice_app. apply act_text.
  Qed.
  Lemma pred_any : forall code f en er g t, assoc (known_preds cls white) code = Some (QSub f) ->
    pred_at H (PHost code) en (er, g, t) (f g t) (er, g, t).
  Proof.
    intros code f en er g t E. apply pred_host with (g' := g). intros s Es. apply core_store in Es. destruct Es as [<- <-].
    change (h_pred H) with (go_pred X cls white). unfold go_pred. rewrite E. reflexivity.
  Qed.
  Lemma no_guarded : forall code f e l p en er g t, assoc (known_preds cls white) code = Some (QSub f) ->
    No_ e p en (er, g, t) (er, g, t) -> No_ (ESeq (EPred (PHost code) :: e :: l)) p en (er, g, t) (er, g, t).
  Proof.
    intros code f e l p en er g t A N. pose proof (pred_any code f en er g t A) as Q. destruct (f g t).
    - eapply (no_seq_c H G [_]); [eapply seq_cons; [apply ok_pred; exact Q|apply seq_nil]|exact N].
    - apply no_seq1_c, no_pred. exact Q.
  Qed.
  Lemma no_lit_absent : forall w x t b en c, In x w -> ~ In x t -> forallb (fun x => negb (N.eqb x Peg.RuneError)) w = true -> No_ (ELit w false) (Pos b t) en c c.
  Proof.
    intros w x t b en c I N F. apply no_lit. destruct (lit_from H w false (Pos b t)) eqn:E; auto.
    apply lit_split in E; [|exact F]. destruct E as (t' & ->). destruct N. apply in_or_app. now left.
  Qed.
  Lemma no_Passthroughs : forall t b er g st, ~ In 43%N t -> ~ In 91%N t -> No_ (ERef "InlinePassthrough") (Pos b t) [] (er, g, st) (er, g, st).
  Proof.
    intros t b er g st N1 N2. eapply no_ref; [reflexivity|]. apply no_act. eapply no_guarded; [reflexivity|]. apply no_lab.
    apply no_alt_c; [|apply no_alt_c; [|apply no_alt_c; [|apply no_alt_nil]]].
    - apply no_act, no_seq1_c. eapply (no_lit_absent _ 43%N); [cbn; tauto|exact N1|reflexivity].
    - apply no_act, no_seq1_c. eapply (no_lit_absent _ 43%N); [cbn; tauto|exact N1|reflexivity].
    - eapply no_ref; [reflexivity|]. apply no_alt_c; [|apply no_alt_c; [|apply no_alt_nil]];
        apply no_act, no_seq1_c; (eapply (no_lit_absent _ 91%N); [cbn; tauto|exact N2|reflexivity]).
  Qed.

  (** the value: words and spaces *)
  Definition value_chars (v : list rune) : Prop :=
    Forall (fun r => ~ In r [10; 13; 38; 43; 60; 62; 91; 92; 123]%N) v /\ (forall u r, v = u ++ [r] -> ~ blank r).
  Lemma value_tail : forall w v, value_chars (w ++ v) -> value_chars v.
  Proof.
    intros w v [F L]. apply Forall_app in F. split; [apply F|]. intros u r ->. apply (L (w ++ u) r). now rewrite app_assoc.
  Qed.
  Lemma span_not : forall (f : rune -> bool) l, exists u v, l = u ++ v /\ (forall r, In r u -> f r = false) /\ (v = [] \/ exists x t, v = x :: t /\ f x = true).
  Proof.
    induction l as [|x l (u & v & -> & A & B)].
    - exists [], []. repeat split; auto. intros r [].
    - destruct (f x) eqn:E.
      + exists [], (x :: u ++ v). repeat split; [intros r []|right; eauto].
      + exists (x :: u), v. repeat split; auto. intros r [<-|I]; auto.
  Qed.
  Lemma not_at_end : forall v b er g st, v <> [] -> value_chars v ->
    Ok_ (ENot (ESeq [EOpt (ELit (R "\") false); EStar x_Space; x_EOL])) (Pos b v) [] (er, g, st) VNil (Pos b v) [] (er, g, st).
  Proof.
    intros v b er g st Nv (F & L). apply ok_not_c.
    destruct (span_blanks v) as (ws & v' & -> & W & Hn).
    destruct v' as [|x t].
    - exfalso. rewrite app_nil_r in *. destruct ws as [|r ws] using rev_ind; [now apply Nv|]. apply (L ws r eq_refl). apply Forall_app in W. destruct W as [_ W]. now inversion W.
    - assert (~ In x [10; 13; 38; 43; 60; 62; 91; 92; 123]%N) as Fx by (apply Forall_app in F; destruct F as [_ F]; now inversion F).
      eapply (no_seq_c H G [_; _]).
      + eapply seq_cons; [apply ok_opt_none|eapply seq_cons; [apply ok_Spaces0; [exact W|exact Hn]|apply seq_nil]].
        destruct ws as [|y ws]; cbn [app]; apply no_lit1.
        * intros <-. apply Fx. cbn; tauto.
        * intros <-. inversion W as [|? ? [E|E] _]; discriminate.
      + apply no_EOL. unfold eolb. destruct (N.eqb_spec x 13) as [->|]; [destruct Fx; cbn; tauto|]. destruct (N.eqb_spec x 10) as [->|]; [destruct Fx; cbn; tauto|]. reflexivity.
  Qed.
  Lemma no_Element_end : forall b er g st, No_ (ERef "AttributeDeclarationValueElement") (Pos b []) [] (er, g, st) (er, g, st).
  Proof.
    intros b er g st. eapply no_ref; [reflexivity|]. apply no_act, no_seq1_c. eapply no_not_c. apply ok_seq.
    eapply seq_cons; [apply ok_opt_none, no_lit_end; discriminate|].
    eapply seq_cons; [apply (ok_Spaces0 H G [] []); [constructor|exact Logic.I]|].
    eapply seq_cons; [|apply seq_nil]. apply ok_alt_c; [|eapply ok_alt_here, ok_EOF].
    apply no_act, no_alt_c; [|apply no_alt_c; [|apply no_alt_c; [|apply no_alt_nil]]]; apply no_lit_end; discriminate.
  Qed.
  Lemma vals_cons : forall (v : value (hv X)) vs a l, to_val X v = Some a -> vals X (VList vs) = Some l -> vals X (VList (v :: vs)) = Some (a :: l).
  Proof.
    intros v vs a l E Q. unfold vals in *. cbn [to_val] in *. rewrite E.
    match type of Q with context [option_map VSlice ?o] => destruct o end; [|discriminate]. cbn [option_map] in *. now injection Q as ->.
  Qed.
  Lemma value_star : forall n v b er g st, List.length v <= n -> value_chars v ->
    exists vs l, Star_ H G (ERef "AttributeDeclarationValueElement") (Pos b v) (er, g, st) vs (Pos (rev v ++ b) []) (er, g, st) /\ vals X (VList vs) = Some l.
  Proof.
    induction n as [|n IH]; intros v b er g st Lv V.
    { destruct v; [|cbn in Lv; lia]. exists [], []. split; [apply star_stop, no_Element_end|reflexivity]. }
    destruct (span_not (N.eqb 32%N) v) as (w & v' & -> & Fw & Hv').
    destruct w as [|r w].
    - cbn [app] in *. destruct Hv' as [->|(x & t & -> & Ex)].
      + exists [], []. split; [apply star_stop, no_Element_end|reflexivity].
      + apply N.eqb_eq in Ex. subst x.
        destruct (IH t (32%N :: b) er g st) as (vs & l & S & Q); [cbn in Lv; lia|now apply (value_tail [32%N])|].
        exists (VStr [32%N] :: vs), (Types.VStr (encode_runes [32%N]) :: l). split.
        * cbn [rev]. rewrite <- app_assoc. cbn [app]. eapply star_more; [|exact S]. eapply ok_ref; [reflexivity|].
          eapply ok_act with (c1 := (er, g, st)) (en' := [("element"%string, VStr [32%N])]); [|apply act_label].
          apply ok_seq. eapply seq_cons; [apply not_at_end; [discriminate|exact V]|]. eapply seq_cons; [|apply seq_nil]. eapply ok_lab.
          destruct V as [F _].
          apply ok_alt_c; [apply no_Passthroughs; intros I; rewrite Forall_forall in F; apply (F _ I); cbn; tauto|].
          apply ok_alt_c; [apply no_act, no_plus, no_cls; reflexivity|].
          apply ok_alt_c.
          { apply no_act. eapply no_guarded; [reflexivity|]. apply no_lab, no_act, no_cls. reflexivity. }
          eapply ok_alt_here. eapply ok_act with (c1 := (er, g, st)); [apply ok_cls; reflexivity|]. rewrite slice_cons. apply act_text.
        * now apply vals_cons.
    - destruct (IH v' (rev (r :: w) ++ b) er g st) as (vs & l & S & Q); [rewrite app_length in Lv; cbn in Lv; lia|now apply (value_tail (r :: w))|].
      exists (elem (StringElement (encode_runes (r :: w))) :: vs), (StringElement (encode_runes (r :: w)) :: l). split.
      + rewrite rev_app_distr, <- app_assoc. eapply star_more; [|exact S]. eapply ok_ref; [reflexivity|].
        eapply ok_act with (c1 := (er, g, st)) (en' := [("element"%string, elem (StringElement (encode_runes (r :: w))))]); [|apply act_label].
        apply ok_seq. eapply seq_cons; [apply not_at_end; [discriminate|exact V]|]. eapply seq_cons; [|apply seq_nil]. eapply ok_lab.
        destruct V as [F _].
        apply ok_alt_c; [apply no_Passthroughs; intros I; rewrite Forall_forall in F; apply (F _ I); cbn; tauto|].
        eapply ok_alt_here. eapply ok_act with (c1 := (er, g, st)).
        * eapply ok_plus; [apply star_cls|destruct w; discriminate].
          -- intros y Iy. rewrite in_chars. cbn [negb]. apply not_listed. apply Forall_app in F. destruct F as [F _]. rewrite Forall_forall in F.
             specialize (F _ Iy). specialize (Fw _ Iy). cbn [In] in *. intros I.
             repeat (destruct I as [<-|I]; [solve [tauto | discriminate]|]). exact I.
          -- destruct Hv' as [->|(x & t & -> & Ex)]; [exact Logic.I|]. apply N.eqb_eq in Ex. subst x. reflexivity.
        * rewrite slice_app. eapply act_known; [reflexivity|]. intros s Es Et. unfold run_akind. rewrite Et. apply core_store in Es. destruct Es as [-> _]. reflexivity.
      + now apply vals_cons.
  Qed.
  Lemma ok_EOL_end : forall b en c, Ok_ x_EOL (Pos b []) en c VNil (Pos b []) en c.
  Proof.
    intros b en c. apply ok_alt_c; [|eapply ok_alt_here, ok_EOF].
    apply no_act, no_alt_c; [|apply no_alt_c; [|apply no_alt_c; [|apply no_alt_nil]]]; apply no_lit_end; discriminate.
  Qed.
  Lemma ok_Value : forall v b en er g st, value_chars v ->
    exists x, Ok_ (ERef "AttributeDeclarationValue") (Pos b v) en (er, g, st) (elem x) (Pos (rev v ++ b) []) en (er, g, st).
  Proof.
    intros v b en er g st V. destruct (value_star _ v b er g st (le_n _) V) as (vs & l & S & Q).
    exists (reduceTrim white (VSlice (l ++ []))). eapply ok_ref; [reflexivity|].
    eapply ok_act with (c1 := (er, g, st)) (en' := [("otherElements"%string, VList []); ("elements"%string, VList vs)]).
    - apply ok_seq. eapply seq_cons with (p1 := Pos (rev v ++ b) []).
      + eapply ok_lab with (en' := []). eapply ok_ref; [reflexivity|].
        eapply ok_act with (c1 := (er, g, st)) (en' := [("elements"%string, VList vs)]); [eapply ok_lab with (en' := []), ok_star, S|].
        eapply act_known; [reflexivity|]. intros s Es _. unfold run_akind. apply core_store in Es. destruct Es as [-> _]. reflexivity.
      + eapply seq_cons; [|apply seq_nil]. eapply ok_lab with (en' := []), ok_star, star_stop.
        apply no_act, no_seq1_c, no_lit_end. discriminate.
    - eapply act_known; [reflexivity|]. intros s Es _. unfold run_akind. apply core_store in Es. destruct Es as [-> _].
      cbn [label String.eqb Ascii.eqb Bool.eqb]. rewrite Q. reflexivity.
  Qed.
  Lemma attribute_name_chars : forall name, attribute_name (cls "L") (cls "N") name -> characters name.
  Proof. intros name (V & _). exact V. Qed.
  Lemma read_declaration : forall name l user secs within, declaration (cls "L") (cls "N") name l ->
    exists n0 x, forall n, n0 <= n -> rawLine n user secs within l = Some (RDecl (encode_runes name) x).
  Proof.
    intros name l user secs within (Nm & D). pose proof (attribute_name_chars _ Nm) as Vn. set (c := (false, raw_store user secs within, None) : core).
    assert (exists t x b, l = encode_runes (R ":" ++ name ++ R ":" ++ t) /\ characters t /\
      Ok_ (EOpt (EAct (ALabel "value") (ESeq [x_Spaces; ELab "value" (ERef "AttributeDeclarationValue")]))) (Pos (58%N :: rev name ++ [58%N]) t) [] c x (Pos b []) [] c /\
      exists x', to_val X x = Some x') as (t & x & b & -> & Vt & O & x' & Ex).
    { destruct D as [->|(ws & v & Nw & W & (Vv & Fv & Lv & Hv) & ->)].
      - exists [], VNil, (58%N :: rev name ++ [58%N]). rewrite app_nil_r. repeat split; [constructor| |eexists; reflexivity].
        apply ok_opt_none, no_act, no_seq1_c, no_act, no_plus, no_cls_end.
      - destruct (ok_Value v (rev ws ++ 58%N :: rev name ++ [58%N]) [] false (raw_store user secs within) None) as (x & O); [now split|].
        exists (ws ++ v), (elem x), (rev v ++ rev ws ++ 58%N :: rev name ++ [58%N]). repeat split; [|eapply ok_opt_some|eexists; reflexivity].
        + apply characters_app. split; auto using characters_blanks.
        + eapply ok_act with (c1 := c) (en' := [("value"%string, elem x)]); [|apply act_label]. apply ok_seq.
          eapply seq_cons; [|eapply seq_cons; [eapply ok_lab, O|apply seq_nil]].
          eapply ok_act with (c1 := c); [|rewrite slice_app; apply act_text]. eapply ok_plus; [apply star_cls|destruct ws; [now destruct Nw|discriminate]].
          * intros r I. rewrite in_blank. cbn [negb]. apply blankb_spec. unfold blanks in W. rewrite Forall_forall in W. now apply W.
          * destruct v as [|y v]; [exact Logic.I|]. cbn [head_not]. rewrite in_blank. apply not_true_iff_false. intros E. apply eqb_prop in E. cbn [negb] in E. apply blankb_spec in E. contradiction. }
    cut (exists n0, forall n, n0 <= n -> rawLine n user secs within (encode_runes (R ":" ++ name ++ R ":" ++ t)) = Some (RDecl (encode_runes name) (reduceTrim white x'))).
    { intros (n0 & Q). now exists n0, (reduceTrim white x'). }
    eapply (rawLine_ok [] (ERef "AttributeDeclaration") (skipn 1 raw_alts)); [|reflexivity|intros y []| |].
    - repeat (apply characters_app; split); auto using characters_R.
    - eapply ok_ref; [reflexivity|]. eapply ok_act with (c1 := c) (en' := [("value"%string, x); ("name"%string, VStr name)]).
      + apply ok_seq. eapply seq_cons; [apply ok_lit|]. eapply seq_cons; [eapply ok_lab, ok_Name; [exact Nm|cbn; tauto]|].
        eapply seq_cons; [apply (ok_lit H G [58%N])|]. cbn [rev app].
        eapply seq_cons; [eapply ok_lab; exact O|]. eapply seq_cons; [apply ok_EOL_end|apply seq_nil].
      + eapply act_known; [reflexivity|]. intros s Es _. unfold run_akind. apply core_store in Es. destruct Es as [-> _].
        cbn [label String.eqb Ascii.eqb Bool.eqb]. rewrite Ex. reflexivity.
    - reflexivity.
  Qed.
  Lemma read_reset : forall name l user secs within, reset (cls "L") (cls "N") name l ->
    exists n0, forall n, n0 <= n -> rawLine n user secs within l = Some (RReset (encode_runes name)).
  Proof.
    intros name l user secs within (Nm & ws & W & D). pose proof (attribute_name_chars _ Nm) as Vn. set (c := (false, raw_store user secs within, None) : core).
    assert (forall b en, Seq_ [EStar x_Space; x_EOL] (Pos b ws) en c [VList (map (fun r => VStr [r]) ws); VNil] (Pos (rev ws ++ b) []) en c) as End.
    { intros b en. eapply seq_cons; [|eapply seq_cons; [apply ok_EOL_end|apply seq_nil]].
      rewrite <- (app_nil_r ws) at 1. apply ok_Spaces0; [exact W|exact Logic.I]. }
    destruct D as [-> | ->].
    - eapply (rawLine_ok (firstn 1 raw_alts) x_AttributeReset (skipn 2 raw_alts)); [|reflexivity| | |].
      + repeat (apply characters_app; split); auto using characters_R, characters_blanks.
      + intros x I. assert (forallb (fun e => fails_on G quiet_name 40 e true [] (R ":!")) (firstn 1 raw_alts) = true) as F by (vm_compute; reflexivity).
        rewrite forallb_forall in F. eapply no_prefix; [exact U|now apply F|discriminate].
      + eapply ok_act with (c1 := c) (en' := [("name"%string, VStr name)]).
        * apply ok_seq. eapply seq_cons; [apply ok_lit|]. eapply seq_cons; [eapply ok_lab, ok_Name; [exact Nm|cbn; tauto]|].
          eapply seq_cons; [apply (ok_lit H G [58%N])|]. apply End.
        * eapply act_known; [reflexivity|]. intros s Es _. unfold run_akind. apply core_store in Es. destruct Es as [-> _]. reflexivity.
      + reflexivity.
    - eapply (rawLine_ok (firstn 2 raw_alts) x_AttributeReset_2 (skipn 3 raw_alts)); [|reflexivity| | |].
      + repeat (apply characters_app; split); auto using characters_R, characters_blanks.
      + intros x I. cbn [raw_alts firstn g_DocumentRawLine In] in I. destruct I as [<-|[<-|[]]].
        * eapply no_ref; [reflexivity|]. apply no_act. eapply (no_seq_c H G [_; _]).
          -- eapply seq_cons; [apply ok_lit|]. eapply seq_cons; [eapply ok_lab, ok_Name; [exact Nm|cbn; tauto]|apply seq_nil].
          -- apply no_lit1. discriminate.
        * apply no_act, no_seq1_c. destruct Nm as (_ & r & w' & -> & Fr & _). assert (r <> 33%N) as Nr.
          { intros ->. destruct Fr as [Fr|Fr]; [|discriminate]. rewrite no_word in Fr by (cbn; tauto). discriminate. }
          apply no_lit. destruct (lit_from H (R ":!") false _) eqn:E; auto. apply lit_split in E; [|reflexivity]. destruct E as (t' & E).
          cbn in E. injection E as E _. contradiction.
      + eapply ok_act with (c1 := c) (en' := [("name"%string, VStr name)]).
        * apply ok_seq. eapply seq_cons; [apply ok_lit|]. eapply seq_cons; [eapply ok_lab, ok_Name; [exact Nm|cbn; tauto]|].
          eapply seq_cons; [apply (ok_lit H G [33%N; 58%N])|]. apply End.
        * eapply act_known; [reflexivity|]. intros s Es _. unfold run_akind. apply core_store in Es. destruct Es as [-> _]. reflexivity.
      + reflexivity.
  Qed.

  (** ** the other lines *)
  Notation ev := (eval H G).
  Definition gives (Q : value (HV H) -> Prop) (e : expr) : Prop :=
    forall n p en s v p' en' s', ev n e p en s = Some (ROk v p' en' s') -> Q v.
  Definition is_delim (v : value (HV H)) : Prop := exists k z a, v = Peg.VHost (HDelim k z a).
  Lemma gives_alt : forall Q l, Forall (gives Q) l -> gives Q (EAlt l).
  Proof.
    intros Q l F n p en s v p' en' s' E. destruct n as [|n]; [discriminate|]. cbn [eval] in E. revert p s E.
    induction F as [|e l Fe F IH]; intros p s E; cbn [alt_from] in E; [discriminate|].
    destruct (ev n e p [] s) as [[v1 p1 en1 s1|p1 s1|]|] eqn:E1; try discriminate.
    - injection E as <- <- <- <-. eapply Fe, E1.
    - eapply IH, E.
  Qed.
  Lemma gives_act : forall (Q : value (HV H) -> Prop) code k e, assoc known_acts code = Some k ->
    (forall en s, match run_akind X white k en s with Some (Some (v, _, _)) => Q v | Some None => True | None => False end) -> gives Q (EAct (AHost code) e).
  Proof.
    intros Q code k e K F n p en s v p' en' s' E. destruct n as [|n]; [discriminate|]. cbn [eval] in E.
    destruct (ev n e p en s) as [[v1 p1 en1 s1|p1 s1|]|]; try discriminate.
    cbn [run_act] in E. change (h_act H) with (go_act X white other) in E. unfold go_act in E. rewrite K in E.
    match type of E with context [run_akind X white k ?a ?b] => specialize (F a b); destruct (run_akind X white k a b) as [[[[w er] g]|]|] end; [|discriminate|tauto].
    injection E as <- <- <- <-. exact F.
  Qed.
  Lemma delim_act : forall code k e, assoc known_acts code = Some k -> (exists kind, k = KDelim kind) \/ k = KMdDelim -> gives is_delim (EAct (AHost code) e).
  Proof.
    intros code k e K D. eapply gives_act; [exact K|]. intros en s. destruct D as [(kind & ->)| ->]; cbn [run_akind].
    - destruct (label en "delimiter"); cbn; auto. unfold is_delim. eauto.
    - destruct (label en "language"); cbn; auto. unfold is_delim. eauto.
  Qed.
  Lemma delim_given : gives is_delim x_BlockDelimiter.
  Proof.
    intros n p en s v p' en' s' E. destruct n as [|n]; [discriminate|]. unfold x_BlockDelimiter in E. cbn [eval] in E.
    destruct (ev n _ p en s) as [[v1 p1 en1 s1|p1 s1|]|] eqn:E1; try discriminate.
    cbn [run_act] in E. injection E as <- <- <- <-.
    destruct n as [|n]; [discriminate|]. cbn [eval seq_from] in E1.
    destruct (ev n (ENot _) p en s) as [[v2 p2 en2 s2|p2 s2|]|] eqn:E2; try discriminate.
    destruct (ev n (ELab _ _) p2 en2 s2) as [[v3 p3 en3 s3|p3 s3|]|] eqn:E3; try discriminate.
    injection E1 as <- <- <- <-. destruct n as [|n]; [discriminate|]. cbn [eval] in E3.
    destruct (ev n (EAlt _) p2 [] s2) as [[v4 p4 en4 s4|p4 s4|]|] eqn:E4; try discriminate.
    injection E3 as <- <- <- <-. cbn [label String.eqb Ascii.eqb Bool.eqb]. eapply gives_alt; [|exact E4].
    repeat (constructor; [eapply delim_act; [reflexivity|eauto]|]). constructor.
  Qed.
  (** expressions that leave the store as it is *)
  Fixpoint still (e : expr) : bool :=
    match e with
    | ELit _ _ | ECls _ _ _ _ | EAny => true
    | ESeq l | EAlt l => forallb still l
    | EStar x | EPlus x | EOpt x | EAnd x | ENot x | ELab _ x => still x
    | EAct a x => still x && match a with
                             | AText | ALabel _ => true
                             | AHost code => match assoc known_acts code with Some (KDelim _ | KMdDelim) => true | _ => false end
                             | _ => false
                             end
    | _ => false
    end.
  Definition store_kept (s : soft (HS H) (HT H)) (r : option (res H)) : Prop :=
    match r with Some (ROk _ _ _ s') | Some (RFail _ s') => c_store s' = c_store s | _ => True end.
  Lemma still_kept : forall n e p en s, still e = true -> store_kept s (ev n e p en s).
  Proof.
    induction n as [|n IH]; intros e p en s St; [exact Logic.I|].
    assert (forall l (s0 : soft (HS H) (HT H)), forallb still l = true -> forall p0 p en s acc, c_store s = c_store s0 -> store_kept s0 (seq_from H (ev n) l p0 s0 p en s acc)) as Q1.
    { intros l s0 Fl. induction l as [|x l IHl]; intros p0 p1 en1 s1 acc E1; [exact E1|]. cbn [forallb] in Fl. apply andb_prop in Fl. destruct Fl as [Fx Fl].
      cbn [seq_from]. specialize (IH x p1 en1 s1 Fx). destruct (ev n x p1 en1 s1) as [[v2 p2 en2 s2|p2 s2|]|]; cbn [store_kept] in *; auto.
      - apply IHl; auto. exact (eq_trans IH E1).
      - exact (eq_trans IH E1). }
    assert (forall l, forallb still l = true -> forall p en s, store_kept s (alt_from H (ev n) l p en s)) as Q2.
    { intros l Fl. induction l as [|x l IHl]; intros p1 en1 s1; [reflexivity|]. cbn [forallb] in Fl. apply andb_prop in Fl. destruct Fl as [Fx Fl].
      cbn [alt_from]. specialize (IH x p1 [] s1 Fx). destruct (ev n x p1 [] s1) as [[v2 p2 en2 s2|p2 s2|]|]; cbn [store_kept] in *; auto.
      specialize (IHl Fl p2 en1 (back s1 s2)). unfold store_kept in *. destruct (alt_from H (ev n) l p2 en1 (back s1 s2)) as [[]|]; auto; exact (eq_trans IHl IH). }
    assert (forall x, still x = true -> forall (s0 : soft (HS H) (HT H)) m b p en s acc, c_store s = c_store s0 -> store_kept s0 (star_from H (ev n) m x b p en s acc)) as Q3.
    { intros x Fx s0. induction m as [|m IHm]; intros b p1 en1 s1 acc E1; [exact Logic.I|]. cbn [star_from].
      specialize (IH x p1 [] s1 Fx). destruct (ev n x p1 [] s1) as [[v2 p2 en2 s2|p2 s2|]|]; cbn [store_kept] in *; auto.
      - apply IHm. exact (eq_trans IH E1).
      - destruct acc, b; cbn [store_kept]; exact (eq_trans IH E1). }
    destruct e; cbn [still] in St; try discriminate; cbn [eval].
    - match goal with |- context [lit_from H ?a ?b ?c] => destruct (lit_from H a b c) end; reflexivity.
    - destruct (at_eof p); [reflexivity|]. destruct (Bool.eqb _ _); reflexivity.
    - destruct (at_eof p); reflexivity.
    - now apply Q1.
    - now apply Q2.
    - now apply Q3.
    - now apply Q3.
    - specialize (IH e p [] s St). destruct (ev n e p [] s) as [[]|]; auto.
    - specialize (IH e p [] s St). destruct (ev n e p [] s) as [[]|]; auto.
    - specialize (IH e p [] s St). destruct (ev n e p [] s) as [[]|]; auto.
    - apply andb_prop in St. destruct St as [St Sa]. specialize (IH e p en s St). destruct (ev n e p en s) as [[v2 p2 en2 s2|p2 s2|]|]; auto.
      destruct a; try discriminate; cbn [run_act store_kept] in *; auto.
      change (h_act H) with (go_act X white other). unfold go_act. destruct (assoc known_acts code) as [k|]; [|discriminate]. cbn [store_kept] in IH.
      destruct k; try discriminate; cbn [run_akind].
      + match goal with |- context [match ?x with Peg.VStr _ => _ | _ => _ end] => destruct x end; first [exact Logic.I | exact IH].
      + match goal with |- context [match ?x with Peg.VStr _ => _ | _ => _ end] => destruct x end; first [exact Logic.I | exact IH].
    - specialize (IH e p [] s St). destruct (ev n e p [] s) as [[]|]; auto.
  Qed.
  Lemma alt_skip : forall n es1 es2 p en c s r, (forall x, In x es1 -> No_ x p [] c c) -> core_of s = c -> alt_from H (ev n) (es1 ++ es2) p en s = Some r ->
    exists s1, core_of s1 = c /\ alt_from H (ev n) es2 p en s1 = Some r.
  Proof.
    induction es1 as [|e es1 IH]; intros es2 p en c s r N C E; [eauto|]. cbn [app alt_from] in E.
    destruct (ev n e p [] s) as [r1|] eqn:E1; [|discriminate].
    destruct (N e (or_introl eq_refl) s C) as (s1 & R1 & C1).
    assert (r1 = RFail p s1) as -> by (eapply runs_fun; [exists n; exact E1|exact R1]).
    apply (IH es2 p en c (back s s1) r); [|rewrite core_back, C, C1; apply kback_id|exact E]. intros x I. apply N. now right.
  Qed.
  Lemma other_line : forall n user within line,
    (forall x, In x (firstn 8 raw_alts) -> No_ x (Pos [] (runes line)) [] (false, raw_store user false within, None) (false, raw_store user false within, None)) ->
    match rawLine n user false within line with None => True | Some (RDelim _ _) => True | _ => False end.
  Proof.
    intros n user within line N. unfold ConvertSource.rawLine, parse.
    set (s := Soft _ _ _ _ _). assert (core_of s = (false, raw_store user false within, None)) as Cs by reflexivity. clearbody s.
    destruct (ev n (ERef _) (Pos [] (runes line)) [] s) as [[v p en s'|p s'|]|] eqn:E; auto.
    assert (is_delim v) as (k & z & a & ->).
    { destruct n as [|n]; [discriminate|]. cbn [eval] in E. change (rule_of G "DocumentRawLine") with (Some g_DocumentRawLine) in E. cbv beta iota in E.
      destruct (ev n g_DocumentRawLine _ [] s) as [[v1 p1 en1 s1|p1 s1|]|] eqn:E1; try discriminate. injection E as <- <- <- <-.
      destruct n as [|n]; [discriminate|]. unfold g_DocumentRawLine in E1. cbn [eval] in E1.
      destruct (ev n (ESeq _) _ [] s) as [[v2 p2 en2 s2|p2 s2|]|] eqn:E2; try discriminate. cbn [run_act] in E1. injection E1 as <- <- <- <-.
      destruct n as [|n]; [discriminate|]. cbn [eval seq_from] in E2.
      destruct (ev n (ELab _ _) _ [] s) as [[v3 p3 en3 s3|p3 s3|]|] eqn:E3; try discriminate.
      destruct (ev n x_EOF p3 en3 s3) as [[v4 p4 en4 s4|p4 s4|]|] eqn:E4; try discriminate. injection E2 as <- <- <- <-.
      assert (en4 = en3) as ->.
      { destruct n as [|n]; [discriminate|]. unfold x_EOF in E4. cbn [eval] in E4. destruct (ev n EAny p3 [] s3) as [[v5 p5 en5 s5|p5 s5|]|]; try discriminate. now injection E4 as <- <- <- <-. }
      destruct n as [|n]; [discriminate|]. cbn [eval] in E3.
      destruct (ev n (EAlt _) _ [] s) as [[v5 p5 en5 s5|p5 s5|]|] eqn:E5; try discriminate. injection E3 as <- <- <- <-.
      cbn [label String.eqb Ascii.eqb Bool.eqb].
      destruct n as [|n]; [discriminate|]. cbn [eval] in E5. change (alt_from H (ev n) _ ?p ?en ?st) with (alt_from H (ev n) (firstn 8 raw_alts ++ [x_BlockDelimiter; x_RawSection]) p en st) in E5.
      destruct (alt_skip n _ _ _ _ _ _ _ N Cs E5) as (s6 & C6 & E6). cbn [alt_from] in E6.
      destruct (ev n x_BlockDelimiter _ [] s6) as [[v7 p7 en7 s7|p7 s7|]|] eqn:E7; try discriminate.
      - injection E6 as <- <- <- <-. eapply delim_given, E7.
      - exfalso. destruct (ev n x_RawSection _ [] _) as [[v8 p8 en8 s8|p8 s8|]|] eqn:E8; try discriminate. clear E6.
        pose proof (still_kept n x_BlockDelimiter (Pos [] (runes line)) [] s6 eq_refl) as K. rewrite E7 in K. cbn [store_kept] in K.
        assert (c_store (back s6 s7) = raw_store user false within) as K'.
        { transitivity (c_store s6); [exact K|]. unfold core_of in C6. now injection C6. }
        assert (No_ x_RawSection p7 [] (core_of (back s6 s7)) (core_of (back s6 s7))) as Nr.
        { apply no_act, no_seq1_c, no_pred. unfold core_of. apply pred_host with (g' := c_store (back s6 s7)). intros s0 E0. apply core_store in E0. destruct E0 as [E0 _].
          refine (eq_trans (f_equal (fun g : gstore => Some (isSectionEnabled g, false, g)) E0) _).
          refine (f_equal (fun b => Some (b, false, _)) _). exact (f_equal isSectionEnabled K'). }
        destruct (Nr _ eq_refl) as (s9 & R9 & _). pose proof (runs_fun H G _ _ _ _ _ _ (ex_intro _ n E8) R9). discriminate. }
    now destruct (p_errs s').
  Qed.
  Lemma decode_low : forall c s r w, decode_rune (String c s) = (r, w) -> (r < 128)%N -> N_of_ascii c = r /\ w = 1.
  Proof.
    intros c s r w E L. unfold decode_rune in E.
    destruct (N_of_ascii c <? 128)%N eqn:E0; [now injection E as <- <-|]. apply N.ltb_ge in E0. exfalso. cbv zeta in E.
    destruct (N_of_ascii c =? 224)%N eqn:E1; destruct (N_of_ascii c =? 240)%N eqn:E2; destruct (N_of_ascii c =? 237)%N eqn:E3; destruct (N_of_ascii c =? 244)%N eqn:E4;
    repeat match type of E with
           | (if ?b then _ else _) = _ => destruct b eqn:?
           | (match ?x with EmptyString => _ | String _ _ => _ end) = _ => destruct x
           end; injection E as <- <-; unfold RuneError in L; try (now apply N.ltb_lt in L);
      repeat match goal with H : (_ && _)%bool = true |- _ => apply andb_prop in H; destruct H end;
      repeat match goal with H : (_ <=? _)%N = true |- _ => apply N.leb_le in H | H : (_ =? _)%N = true |- _ => apply N.eqb_eq in H | H : (_ =? _)%N = false |- _ => apply N.eqb_neq in H end; try lia.
  Qed.
  Lemma runes_prefix : forall w s t, forallb (fun c => N_of_ascii c <? 128)%N (list_ascii_of_string w) = true -> runes s = R w ++ t -> exists u, s = (w ++ u)%string.
  Proof.
    induction w as [|c w IH]; intros s t F E; [exists s; reflexivity|].
    cbn [list_ascii_of_string forallb] in F. apply andb_prop in F. destruct F as [F1 F]. apply N.ltb_lt in F1.
    destruct s as [|c' s]; [discriminate|]. unfold runes in E. cbn [runes_from] in E. destruct (decode_rune (String c' s)) as [r k] eqn:D.
    cbn [R app] in E. injection E as Er E. subst r. destruct (decode_low _ _ _ _ D F1) as [Ec ->]. cbn [Nat.sub] in E.
    destruct (IH s t F E) as (u & ->). exists u. assert (c' = c) as -> by (now rewrite <- (ascii_N_embedding c'), Ec, ascii_N_embedding). reflexivity.
  Qed.
  Lemma plain_raw : forall l n user within, plain_line l ->
    match rawLine n user false within l with None => True | Some (RDelim _ _) => True | _ => False end.
  Proof.
    intros l n user within P. apply other_line.
    assert (forall w z b en c, In w directive_words -> forallb (fun c => N_of_ascii c <? 128)%N (list_ascii_of_string (w ++ z)) = true -> No_ (ELit (R (w ++ z)%string) false) (Pos b (runes l)) en c c) as NL.
    { intros w z b en c I F. apply no_lit. destruct (lit_from H (R (w ++ z)%string) false _) eqn:E; auto. apply lit_split in E.
      - destruct E as (t & E). apply runes_prefix in E; [|exact F]. destruct E as (u & ->). exfalso. apply (P w (z ++ u)%string I). now rewrite GoLemmas.sapp_assoc.
      - clear - F. induction (w ++ z)%string as [|a s IH]; [reflexivity|]. cbn [list_ascii_of_string forallb R] in *. apply andb_prop in F. destruct F as [F1 F2].
        apply andb_true_iff. split; [|now apply IH]. apply N.ltb_lt in F1. apply negb_true_iff, N.eqb_neq. unfold Peg.RuneError. lia. }
    intros x I. cbn [raw_alts firstn g_DocumentRawLine In] in I.
    destruct I as [<-|[<-|[<-|[<-|[<-|[<-|[<-|[<-|[]]]]]]]]].
    - eapply no_ref; [reflexivity|]. apply no_act, no_seq1_c. apply (NL ":" "")%string; [cbn; tauto|reflexivity].
    - apply no_act, no_seq1_c. apply (NL ":" "!")%string; [cbn; tauto|reflexivity].
    - apply no_act, no_seq1_c. apply (NL ":" "")%string; [cbn; tauto|reflexivity].
    - eapply no_ref; [reflexivity|]. apply no_act, no_seq1_c, no_lab, no_act, no_seq1_c. apply (NL "include::" "")%string; [cbn; tauto|reflexivity].
    - apply no_act, no_seq1_c. apply (NL "ifdef::" "")%string; [cbn; tauto|reflexivity].
    - apply no_act, no_seq1_c. apply (NL "ifndef::" "")%string; [cbn; tauto|reflexivity].
    - apply no_act, no_seq1_c. apply (NL "ifeval::" "[")%string; [cbn; tauto|reflexivity].
    - apply no_act, no_seq1_c. apply (NL "endif::" "")%string; [cbn; tauto|reflexivity].
  Qed.
End Lines.

(** ** the lines of the source *)
Lemma no_lf_cons : forall c l, no_lf (String c l) -> c <> chr 10 /\ no_lf l.
Proof.
  intros c l N. split.
  - intros ->. now apply (N ""%string l).
  - intros a b ->. now apply (N (String c a) b).
Qed.
Lemma split_line : forall l s, no_lf l -> split_char (chr 10) (l ++ LF ++ s) = l :: split_char (chr 10) s.
Proof.
  induction l as [|c l IH]; intros s N; [reflexivity|]. apply no_lf_cons in N. destruct N as [Nc N].
  cbn [append split_char]. destruct (Ascii.eqb_spec c (chr 10)) as [->|]; [now destruct Nc|]. now rewrite IH.
Qed.
Lemma split_last : forall l, no_lf l -> split_char (chr 10) l = [l].
Proof.
  induction l as [|c l IH]; intros N; [reflexivity|]. apply no_lf_cons in N. destruct N as [Nc N].
  cbn [split_char]. destruct (Ascii.eqb_spec c (chr 10)) as [->|]; [now destruct Nc|]. now rewrite IH.
Qed.
Lemma no_lf_CR : forall l, no_lf l -> no_lf (l ++ CR).
Proof.
  induction l as [|c l IH]; intros N a b E.
  - destruct a as [|x a]; [discriminate|]. cbn in E. injection E as _ E. destruct a; discriminate.
  - apply no_lf_cons in N. destruct N as [Nc N]. destruct a as [|x a]; cbn in E; injection E as Ex E; [now destruct Nc|]. exact (IH N a b E).
Qed.
Lemma dropCR_line : forall l e, ~ ends_with l CR -> e = ""%string \/ e = CR -> dropCR (l ++ e) = l.
Proof.
  intros l e N [-> | ->]; unfold dropCR.
  - rewrite sapp_nil. unfold trim_suffix. destruct (has_suffix l (String (chr 13) "")) eqn:E; [|reflexivity]. apply has_suffix_iff in E. now destruct N.
  - apply trim_suffix_app.
Qed.
Lemma short_line : forall l e, a_line l -> e = ""%string \/ e = CR -> too_long (l ++ e) = false.
Proof.
  intros l e (_ & _ & L) E. unfold too_long. apply N.leb_gt. assert (String.length (l ++ e) <= S (String.length l)) by (rewrite slength_app; destruct E as [-> | ->]; cbn; lia). lia.
Qed.
Lemma scan_source : forall s ls, source_lines s ls -> fst (scan s) = ls.
Proof.
  intros s ls Q. unfold scan. induction Q as [|l e A E Ne|l e s ls A E Q IH]; [reflexivity| |].
  - assert (no_lf (l ++ e)) as N by (destruct A as [N _]; destruct E as [-> | ->]; [now rewrite sapp_nil|now apply no_lf_CR]).
    unfold Include.raw_lines. rewrite split_last by exact N. cbn [drop_last_empty]. destruct (String.eqb_spec (l ++ e) ""%string) as [|_]; [contradiction|].
    cbn [scan_loop]. rewrite short_line by assumption. cbn [fst]. now rewrite dropCR_line by (apply A || exact E).
  - assert (exists e', (e' = ""%string \/ e' = CR) /\ (l ++ e ++ s = (l ++ e') ++ LF ++ s)%string) as (e' & E' & ->).
    { destruct E as [-> | ->]; [exists ""%string; rewrite sapp_nil; auto|exists CR]. split; auto. now rewrite !GoLemmas.sapp_assoc. }
    assert (no_lf (l ++ e')) as N by (destruct A as [N _]; destruct E' as [-> | ->]; [now rewrite sapp_nil|now apply no_lf_CR]).
    unfold Include.raw_lines in *. rewrite split_line by exact N. pose proof (split_char_nonempty (chr 10) s) as NE. destruct (split_char (chr 10) s) as [|x xs] eqn:Es; [now destruct NE|].
    change (drop_last_empty ((l ++ e')%string :: x :: xs)) with ((l ++ e')%string :: drop_last_empty (x :: xs)). cbn [scan_loop]. rewrite short_line by assumption.
    destruct (scan_loop (drop_last_empty (x :: xs))) as [a z]. cbn [fst] in *. subst a. now rewrite dropCR_line by (apply A || exact E').
Qed.

(** ** the loop over the lines *)
Lemma encode_some : forall w, w <> [] -> encode_runes w <> ""%string.
Proof.
  intros [|r w] N; [now destruct N|]. rewrite encode_runes_cons. unfold encode_rune.
  repeat match goal with |- context [if ?b then _ else _] => destruct b end; discriminate.
Qed.
Lemma cEval_push : forall c v, cEval (cPush c v) = cEval c && v.
Proof. intros c v. unfold cEval, cPush. rewrite forallb_app. cbn [forallb]. now rewrite andb_true_r. Qed.
Lemma cPop_push : forall c v, cPop (cPush c v) = c.
Proof. intros c v. unfold cPop, cPush. apply removelast_last. Qed.
Lemma enabled_bWrite : forall b s, b_enabled (bWrite b s) = b_enabled b.
Proof. intros b s. unfold bWrite. now destruct (b_enabled b) eqn:E. Qed.
Lemma enabled_all : forall out b, b_enabled (fold_left bWrite out b) = b_enabled b.
Proof. induction out as [|s out IH]; intros b; [reflexivity|]. cbn [fold_left]. now rewrite IH, enabled_bWrite. Qed.
Lemma disabled_all : forall out b, b_enabled b = false -> fold_left bWrite out b = b.
Proof. induction out as [|s out IH]; intros b E; [reflexivity|]. cbn [fold_left]. unfold bWrite at 2. rewrite E. now apply IH. Qed.
Lemma bEnable_id : forall b, bEnable b (b_enabled b) = b.
Proof. intros [x y z]. reflexivity. Qed.
Lemma written_more : forall out x i, i = true -> b_buf (fold_left bWrite out (mkB x i true)) = (x ++ sconcat (map (fun s => LF ++ s)%string out))%string.
Proof.
  induction out as [|s out IH]; intros x i ->; cbn [fold_left map sconcat b_buf]; [now rewrite sapp_nil|].
  unfold bWrite at 2. cbn [b_enabled b_buf b_insertLF]. rewrite IH by reflexivity. rewrite !GoLemmas.sapp_assoc. reflexivity.
Qed.
Lemma concat_LF : forall out s, String.concat LF (s :: out) = (s ++ sconcat (map (fun s => LF ++ s)%string out))%string.
Proof.
  induction out as [|x out IH]; intros s; [cbn; now rewrite sapp_nil|]. change (String.concat LF (s :: x :: out)) with (s ++ LF ++ String.concat LF (x :: out))%string.
  rewrite IH. cbn [map sconcat]. reflexivity.
Qed.
Lemma written_all : forall out, b_buf (fold_left bWrite out (mkB "" false true)) = String.concat LF out.
Proof.
  intros [|s out]; [reflexivity|]. cbn [fold_left]. unfold bWrite at 2. cbn [b_enabled b_buf b_insertLF]. rewrite written_more by reflexivity. now rewrite concat_LF.
Qed.
Lemma chosen_same : forall letter number given d ls out d', chosen letter number given d ls out d' -> Forall (fun x => forall u, x <> (":" ++ u)%string) ls -> d' = d.
Proof.
  intros letter number given d ls out d' Q. induction Q as [d|d l ls out d' Pl Q IH|d name l ls out d' D Q IH|d name l ls out d' D Q IH|d b name content l ls out d' C Nc Hd Q IH
    |d b name content l ls out d' C Nc Hd Q IH|d b name l body e out1 d1 ls out d' C Hd Q1 IH1 En Q IH|d b name l body e out1 d1 ls out d' C Hd Q1 IH1 Fb En Q IH]; intros F; auto; inversion F as [|? ? Fl Fs]; subst; auto.
  - exfalso. destruct D as (_ & [->|(ws & v & _ & _ & _ & ->)]); eapply Fl; rewrite encode_runes_app; reflexivity.
  - exfalso. destruct D as (_ & ws & _ & [-> | ->]); [|eapply Fl; rewrite encode_runes_app; reflexivity]. apply (Fl ("!" ++ encode_runes (name ++ R ":" ++ ws))%string). rewrite encode_runes_app. reflexivity.
  - apply Forall_app in Fs. destruct Fs as [F1 F2]. inversion F2; subst. rewrite IH by assumption. now apply IH1.
  - apply Forall_app in Fs. destruct Fs as [F1 F2]. inversion F2; subst. now apply IH.
Qed.

Section Loop.
  Variable X : Type.
  Variable cls : string -> rune -> bool.
  Variable low : rune -> rune.
  Variable white : rune -> bool.
  Variable other : string -> labels (hv X) -> soft gstore (option (list string)) -> option (value (hv X) * bool).
  Hypothesis U : unicode_ok (go_host X cls low white other).
  Variable raw_of : X -> option rawelt.
  Variable fileLine : string -> option (list lineitem).
  Variable parseLineRanges : string -> option (list linerange).
  Variable parseTagRanges : string -> option (list tagrange).
  Variable target : ctxattrs -> val -> result string.
  Variable joinPath : string -> string -> string.
  Variable dirOf : string -> string.
  Variable absPath : string -> string -> string.
  Variable isAsciidoc : string -> bool.
  Variable dirOK : string -> bool.
  Variable readFile : string -> option string.
  Variable user : list string.
  Variable a0 : attributes.
  Notation rawLine := (rawLine X cls low white other raw_of).
  Notation the_loop n := (loop (rawLine n user) fileLine parseLineRanges parseTagRanges target joinPath dirOf absPath isAsciidoc dirOK readFile).

  Definition state_of (ctx : pctx) (d : list string) : Prop :=
    p_secs ctx = false /\ p_offs ctx = [] /\ immutableAttrs (p_attrs ctx) = a0 /\ forall k, In k (mkeys (docAttrs (p_attrs ctx))) <-> In k d.
  Lemma last_assoc_some : forall V (l : list (string * V)) k, In k (mkeys l) -> exists v, last_assoc l k = Some v.
  Proof.
    intros V l k. induction l as [|[k' v] l IH]; intros I; [destruct I|]. cbn [last_assoc].
    destruct (last_assoc l k) as [w|] eqn:E; [eauto|]. destruct I as [I|I]; [|destruct (IH I); discriminate].
    cbn in I. subst k'. rewrite String.eqb_refl. eauto.
  Qed.
  Lemma declared : forall ctx d k, state_of ctx d -> mhas (callAttributes (p_attrs ctx)) k = true <-> In k (map fst a0 ++ d).
  Proof.
    intros ctx d k (_ & _ & Ea & Ed). unfold mhas. rewrite mget_callAttributes, Ea, in_app_iff, <- Ed. split.
    - intros Q. destruct (in_dec string_dec k (mkeys a0)) as [I|N]; [now left|]. right.
      destruct (in_dec string_dec k (mkeys (docAttrs (p_attrs ctx)))) as [I'|N']; auto. now rewrite !last_assoc_None in Q by assumption.
    - intros [I|I].
      + destruct (last_assoc_some _ a0 k I) as (v & ->). reflexivity.
      + destruct (last_assoc a0 k); [reflexivity|]. destruct (last_assoc_some _ _ k I) as (v & ->). reflexivity.
  Qed.
  Lemma keys_mset : forall V (m : gomap V) k v k', In k' (mkeys (mset m k v)) <-> k' = k \/ In k' (mkeys m).
  Proof.
    intros V m k v k'. destruct (in_dec string_dec k' (mkeys (mset m k v))) as [I|N].
    - split; [intros _|tauto]. destruct (string_dec k' k) as [|Nk]; auto. right. destruct (mget (mset m k v) k') as [x|] eqn:E; [|apply mget_None in E; contradiction].
      rewrite mget_mset_neq in E by congruence. apply mget_In in E. apply (in_map fst) in E. exact E.
    - split; [contradiction|]. intros D. exfalso. apply mget_None in N. destruct D as [->|I]; [rewrite mget_mset_eq in N; discriminate|].
      destruct (string_dec k k') as [->|Nk]; [rewrite mget_mset_eq in N; discriminate|]. rewrite mget_mset_neq in N by assumption. apply mget_None in N. contradiction.
  Qed.
  Lemma keys_mdel : forall V (m : gomap V) k k', In k' (mkeys (mdel m k)) <-> k' <> k /\ In k' (mkeys m).
  Proof.
    intros V m k k'. induction m as [|[k2 v2] m IH]; cbn [mdel mkeys map fst In]; [tauto|].
    destruct (String.eqb_spec k k2) as [->|N]; cbn [mkeys map fst In]; unfold mkeys in *; rewrite IH; intuition congruence.
  Qed.
  Lemma set_state : forall ctx d k v, state_of ctx d ->
    state_of (mkP (p_file ctx) (cset (p_attrs ctx) k v) (p_offs ctx) (p_secs ctx) (p_within ctx)) (k :: d).
  Proof.
    intros ctx d k v (A & B & C & D). repeat split; auto; cbn [p_attrs cset docAttrs]; rewrite keys_mset; cbn [In]; intros [Q|Q]; auto; right; now apply D.
  Qed.
  Lemma unset_state : forall ctx d k, state_of ctx d ->
    state_of (mkP (p_file ctx) (cunset (p_attrs ctx) k) (p_offs ctx) (p_secs ctx) (p_within ctx)) (remove string_dec k d).
  Proof.
    intros ctx d k (A & B & C & D). split; [exact A|]. split; [exact B|]. split; [exact C|]. intros k'. cbn [p_attrs cunset docAttrs]. rewrite keys_mdel, D. split.
    - intros [N I]. now apply in_in_remove.
    - intros I. apply in_remove in I. tauto.
  Qed.
  Lemma both : forall (Q : bool -> nat -> Prop), (forall w, exists n0, forall n, n0 <= n -> Q w n) -> exists n0, forall n w, n0 <= n -> Q w n.
  Proof.
    intros Q A. destruct (A true) as (n1 & Q1), (A false) as (n2 & Q2). exists (n1 + n2). intros n [|] L; [apply Q1|apply Q2]; lia.
  Qed.
  Lemma cond_both : forall d name content l, condition d name content l -> exists n0, forall n w, n0 <= n -> rawLine n user false w l =
    Some (RCond (if d then Ifdef (encode_runes name) (encode_runes content) else Ifndef (encode_runes name) (encode_runes content))).
  Proof. intros d name content l C. apply (both (fun w n => rawLine n user false w l = _)). intros w. now apply read_condition. Qed.
  Lemma cond_step : forall ctx d (b : bool) name (s : string), state_of ctx d ->
    (evalCond (callAttributes (p_attrs ctx)) (if b then Ifdef name s else Ifndef name s) = true <->
     if b then In name (map fst a0 ++ d) else ~ In name (map fst a0 ++ d)).
  Proof.
    intros ctx d b name s St. pose proof (declared ctx d name St) as D. destruct b; cbn [evalCond]; [exact D|].
    rewrite negb_true_iff, <- not_true_iff_false, D. tauto.
  Qed.
  Lemma loop_chosen : forall d ls out d', chosen (cls "L") (cls "N") (map fst a0) d ls out d' ->
    exists n0, forall n, n0 <= n -> forall pre cwd ctx b c t rest, state_of ctx d -> b_enabled b = cEval c ->
    exists ctx' t', state_of ctx' d' /\ the_loop n pre cwd ctx b c t (ls ++ rest) = the_loop n pre cwd ctx' (fold_left bWrite out b) c t' rest.
  Proof.
    intros d ls out d' Q. induction Q as [d|d l ls out d' Pl Q (n1 & IH)|d name l ls out d' D Q (n1 & IH)|d name l ls out d' D Q (n1 & IH)
      |d cb name content l ls out d' C Nc Hd Q (n1 & IH)|d cb name content l ls out d' C Nc Hd Q (n1 & IH)
      |d cb name l body e out1 d1 ls out d' C Hd Q1 (n1 & IH1) En Q (n2 & IH)|d cb name l body e out1 d1 ls out d' C Hd Q1 (n1 & IH1) Fb En Q (n2 & IH)].
    - exists 0. intros n _ pre cwd ctx b c t rest St _. exists ctx, t. split; auto.
    - exists n1. intros n L pre cwd ctx b c t rest St Eb. cbn [app loop fold_left].
      pose proof (plain_raw X cls low white other raw_of l n user (p_within ctx) Pl) as Pr. rewrite (proj1 St).
      destruct (rawLine n user false (p_within ctx) l) as [[]|]; try (now destruct Pr).
      + apply IH; auto; [|now rewrite enabled_bWrite]. destruct St as (A & B & C & D). repeat split; auto; apply D.
      + apply IH; auto; now rewrite enabled_bWrite.
    - destruct (both (fun w n => exists x, rawLine n user false w l = Some (RDecl (encode_runes name) x))) as (n2 & R).
      { intros w. destruct (read_declaration X cls low white other U raw_of name l user false w D) as (m & x & R). exists m. eauto. }
      exists (n1 + n2). intros n L pre cwd ctx b c t rest St Eb. cbn [app loop fold_left]. rewrite (proj1 St).
      destruct (R n (p_within ctx)) as (x & ->); [lia|]. rewrite (eq_sym (proj1 St)). apply IH; [lia|now apply set_state|now rewrite enabled_bWrite].
    - destruct (both (fun w n => rawLine n user false w l = Some (RReset (encode_runes name)))) as (n2 & R).
      { intros w. apply read_reset; assumption. }
      exists (n1 + n2). intros n L pre cwd ctx b c t rest St Eb. cbn [app loop fold_left]. rewrite (proj1 St), R by lia.
      rewrite (eq_sym (proj1 St)). apply IH; [lia|now apply unset_state|now rewrite enabled_bWrite].
    - destruct (cond_both cb name content l C) as (n2 & R).
      exists (n1 + n2). intros n L pre cwd ctx b c t rest St Eb. cbn [app loop fold_left]. rewrite (proj1 St), R by lia. cbv zeta.
      assert (evalCond (callAttributes (p_attrs ctx)) (if cb then Ifdef (encode_runes name) (encode_runes content) else Ifndef (encode_runes name) (encode_runes content)) = true) as ->
        by (apply (cond_step ctx d); [exact St|exact Hd]).
      replace (singleLineContent _) with (Some (encode_runes content)).
      + apply IH; [lia|exact St|now rewrite enabled_bWrite].
      + pose proof (encode_some content Nc) as Ne. destruct cb; cbn [singleLineContent]; (destruct (String.eqb_spec (encode_runes content) ""); [contradiction|reflexivity]).
    - destruct (cond_both cb name content l C) as (n2 & R).
      exists (n1 + n2). intros n L pre cwd ctx b c t rest St Eb. cbn [app loop]. rewrite (proj1 St), R by lia. cbv zeta.
      assert (evalCond (callAttributes (p_attrs ctx)) (if cb then Ifdef (encode_runes name) (encode_runes content) else Ifndef (encode_runes name) (encode_runes content)) = false) as ->
        by (apply not_true_iff_false; intros Q'; apply Hd; now apply (cond_step ctx d _ _ _ St) in Q').
      replace (singleLineContent _) with (Some (encode_runes content)).
      + apply IH; [lia|exact St|exact Eb].
      + pose proof (encode_some content Nc) as Ne. destruct cb; cbn [singleLineContent]; (destruct (String.eqb_spec (encode_runes content) ""); [contradiction|reflexivity]).
    - destruct (cond_both cb name [] l C) as (m1 & R).
      destruct (both (fun w n => rawLine n user false w e = Some REnd)) as (m2 & Re); [intros w; now apply read_end|].
      exists (n1 + n2 + m1 + m2). intros n L pre cwd ctx b c t rest St Eb. cbn [app loop]. rewrite (proj1 St), R by lia. cbv zeta.
      match goal with |- context [evalCond ?x ?y] => assert (evalCond x y = true) as -> end;
        [apply (cond_step ctx d); [exact St|exact Hd]|].
      replace (singleLineContent _) with (@None string) by (now destruct cb).
      rewrite cEval_push, andb_true_r, <- Eb, bEnable_id, <- app_assoc.
      destruct (IH1 n ltac:(lia) pre cwd ctx b (cPush c true) t ((e :: ls) ++ rest) St) as (ctx1 & t1 & St1 & ->); [now rewrite cEval_push, andb_true_r|].
      cbn [app loop]. rewrite (proj1 St1), Re by lia. cbv zeta. rewrite cPop_push, <- Eb.
      replace (bEnable (fold_left bWrite out1 b) (b_enabled b)) with (fold_left bWrite out1 b) by (now rewrite <- (enabled_all out1 b), bEnable_id).
      rewrite fold_left_app. apply IH; [lia|exact St1|now rewrite enabled_all].
    - destruct (cond_both cb name [] l C) as (m1 & R).
      destruct (both (fun w n => rawLine n user false w e = Some REnd)) as (m2 & Re); [intros w; now apply read_end|].
      exists (n1 + n2 + m1 + m2). intros n L pre cwd ctx b c t rest St Eb. cbn [app loop]. rewrite (proj1 St), R by lia. cbv zeta.
      match goal with |- context [evalCond ?x ?y] => assert (evalCond x y = false) as -> end;
        [apply not_true_iff_false; intros Q'; apply Hd; now apply (cond_step ctx d _ _ _ St) in Q'|].
      replace (singleLineContent _) with (@None string) by (now destruct cb).
      rewrite cEval_push, andb_false_r, <- app_assoc.
      destruct (IH1 n ltac:(lia) pre cwd ctx (bEnable b false) (cPush c false) t ((e :: ls) ++ rest) St) as (ctx1 & t1 & St1 & ->); [now rewrite cEval_push, andb_false_r|].
      rewrite (chosen_same _ _ _ _ _ _ _ Q1 Fb) in St1.
      cbn [app loop]. rewrite (proj1 St1), Re by lia. cbv zeta. rewrite cPop_push, <- Eb, disabled_all by reflexivity.
      replace (bEnable (bEnable b false) (b_enabled b)) with b by (now destruct b).
      apply IH; [lia|exact St1|exact Eb].
  Qed.
End Loop.

(** Preprocess keeps exactly the lines that the specification chooses, whatever the file system: each on its own
    line, with LF between them. *)
Theorem C70_preprocessed : forall X cls low white other, unicode_ok (go_host X cls low white other) ->
  forall raw_of fileLine parseLineRanges parseTagRanges target joinPath dirOf absPath isAsciidoc dirOK readFile,
  forall (c : config) cwd source ls out d,
  source_lines source ls -> chosen (cls "L") (cls "N") (map fst (attrs_of c)) [] ls out d ->
  exists n0, forall n, n0 <= n ->
    Preprocess X cls low white other raw_of fileLine parseLineRanges parseTagRanges target joinPath dirOf absPath isAsciidoc dirOK readFile n cwd c source
    = RDone (String.concat LF out, []) cwd.
Proof.
  intros X cls low white other U raw_of fileLine parseLineRanges parseTagRanges target joinPath dirOf absPath isAsciidoc dirOK readFile c cwd source ls out d Sl Ch.
  destruct (loop_chosen X cls low white other U raw_of fileLine parseLineRanges parseTagRanges target joinPath dirOf absPath isAsciidoc dirOK readFile (map fst (c_macros c)) (attrs_of c) _ _ _ _ Ch) as (n0 & Q).
  exists (S n0). intros n L. destruct n as [|n]; [lia|]. unfold Preprocess. cbn [preprocess]. rewrite (scan_source _ _ Sl).
  match goal with |- loop _ _ _ _ _ _ _ _ _ _ _ ?pre _ ?ctx ?b _ _ _ = _ => destruct (Q (S n) ltac:(lia) pre cwd ctx b [] [] []) as (ctx' & t' & St & E) end.
  - repeat split; intros [].
  - reflexivity.
  - rewrite app_nil_r in E. rewrite E. cbn [loop]. rewrite written_all. f_equal. f_equal. apply St.
Qed.
(** ... so that a source is converted to the HTML of these lines *)
Theorem C70_converted : forall X cls low white other, unicode_ok (go_host X cls low white other) ->
  forall E setColumns raw_of fileLine parseLineRanges parseTagRanges target joinPath dirOf absPath isAsciidoc dirOK readFile,
  forall (c : config) a cwd source ls out d vs hs,
  c_attrs c = Some a -> (forall k, In k neutral_names -> mget a k = None) -> c_wrap c = false ->
  source_lines source ls -> chosen (cls "L") (cls "N") (map fst a) [] ls out d ->
  document (alnum cls) white true (runes (String.concat LF out)) vs ->
  ConvertSpec.all_shown (cls "L") (cls "N") white (map fst (c_macros c)) (e_xhtml E) (e_toLower E) vs hs ->
  exists n0 a', forall n, n0 <= n ->
    convertSource X cls low white other E setColumns raw_of fileLine parseLineRanges parseTagRanges target joinPath dirOf absPath isAsciidoc dirOK readFile n cwd c source
    = Ok (String.concat "" hs, ""%string, a').
Proof.
  intros X cls low white other U E setColumns raw_of fileLine parseLineRanges parseTagRanges target joinPath dirOf absPath isAsciidoc dirOK readFile c a cwd source ls out d vs hs Ea Na Wr Sl Ch D Sh.
  destruct (C69_converted X cls low white other U E setColumns c a _ vs hs Ea Na Wr D Sh) as (n1 & a' & C).
  assert (attrs_of c = a) as Eaa by (unfold attrs_of; now rewrite Ea). rewrite <- Eaa in Ch.
  destruct (C70_preprocessed X cls low white other U raw_of fileLine parseLineRanges parseTagRanges target joinPath dirOf absPath isAsciidoc dirOK readFile c cwd source ls out d Sl Ch) as (n2 & P).
  exists (n1 + n2), a'. intros n L. unfold convertSource. rewrite P by lia. apply C. lia.
Qed.

(** ** examples *)
Definition demo_preprocessed (c : config) (source : string) : run (string * list offset) :=
  Preprocess Empty_set demo_cls demo_low demo_white (fun _ _ _ => None) (fun _ => None) (fun _ => None) (fun _ => None) (fun _ => None) (fun _ _ => Ok ""%string)
    (fun a b => (a ++ b)%string) (fun s => s) (fun _ s => s) (fun _ => true) (fun _ => true) (fun _ => None) 60 "/"%string c source.
Local Open Scope string_scope.
Definition some_lines : list string :=
  [":draft: yes"; "one"; "ifdef::draft[]"; "two"; "ifndef::draft[]"; "three"; "endif::draft[]"; "endif::[]"; ":!draft:"; "ifdef::draft[four]"; "ifndef::draft[five]"; "six"].
Definition kept_lines : list string := [":draft: yes"; "one"; "two"; ":!draft:"; "five"; "six"].
Lemma no_lf_dec : forall s, existsb (Ascii.eqb (chr 10)) (list_ascii_of_string s) = false -> no_lf s.
Proof.
  intros s E a b ->. apply not_true_iff_false in E. apply E. clear E. apply existsb_exists. exists (chr 10). split; [|reflexivity].
  induction a as [|c a IH]; [now left|]. right. exact IH.
Qed.
Lemma no_cr_end : forall s, last_char s <> Some (chr 13) -> ~ ends_with s CR.
Proof. intros s N (a & ->). apply N, last_char_app. Qed.
Lemma plain_dec : forall l, forallb (fun w => negb (has_prefix l w)) directive_words = true -> plain_line l.
Proof.
  intros l E w u I ->. rewrite forallb_forall in E. specialize (E w I). apply negb_true_iff in E. assert (has_prefix (w ++ u) w = true); [|congruence].
  clear. induction w as [|c w IH]; [reflexivity|]. cbn [append has_prefix]. now rewrite Ascii.eqb_refl.
Qed.
Ltac line_ok := split; [apply no_lf_dec; reflexivity|split; [apply no_cr_end; vm_compute; discriminate|vm_compute; reflexivity]].
Ltac no_chars := repeat constructor; cbn; intros I; repeat (destruct I as [I|I]; [discriminate I|]); exact I.
Ltac is_name := split; [repeat constructor|eexists _, _; split; [reflexivity|split; [left; reflexivity|repeat constructor]]].
Ltac not_given := let I := fresh in intros I; cbn in I; repeat (destruct I as [I|I]; [discriminate I|]); exact I.
Ltac dir := exists (@nil N); split; [constructor|reflexivity].
Theorem C70_lines_example :
  source_lines (String.concat LF some_lines) some_lines /\ chosen (demo_cls "L") (demo_cls "N") (map fst (attrs_of demo_config)) [] some_lines kept_lines [].
Proof.
  change (map fst (attrs_of demo_config)) with ["basebackend-html"; "backend"]. split.
  - repeat (refine (src_line _ LF _ _ _ _ _); [line_ok|now left|]). rewrite <- (sapp_nil "six"). refine (src_last "six" "" _ _ _); [line_ok|now left|discriminate].
  - eapply (ch_set _ _ _ _ (R "draft")).
    { split; [is_name|]. right. exists [32%N], (R "yes"). split; [discriminate|]. split; [repeat constructor|]. split; [|reflexivity].
      split; [repeat constructor|]. split; [no_chars|]. split; [|intros [Q|Q]; discriminate Q]. intros u r E.
      assert (r = 115%N) as -> by (change (R "yes") with ([121; 101] ++ [115])%N%list in E; apply app_inj_tail in E; now destruct E as [_ <-]). intros [Q|Q]; discriminate Q. }
    apply ch_line; [apply plain_dec; reflexivity|].
    change (encode_runes (R "draft")) with "draft".
    refine (ch_region _ _ _ _ true (R "draft") _ ["two"; "ifndef::draft[]"; "three"; "endif::draft[]"] "endif::[]" ["two"] _ _ [":!draft:"; "five"; "six"] _ _ _ _ _ _).
    { apply cond_ifdef; [split; [discriminate|split; [repeat constructor|no_chars]]|split; constructor|dir]. }
    { cbn. tauto. }
    { apply ch_line; [apply plain_dec; reflexivity|].
      refine (ch_region_not _ _ _ _ false (R "draft") _ ["three"] "endif::draft[]" ["three"] _ _ [] _ _ _ _ _ _ _).
      - apply cond_ifndef; [split; [discriminate|split; [repeat constructor|no_chars]]|split; constructor|dir].
      - intros Q. apply Q. cbn. tauto.
      - apply ch_line; [apply plain_dec; reflexivity|apply ch_nil].
      - repeat constructor. discriminate.
      - exists (R "draft"), []. split; [right; split; [discriminate|split; [repeat constructor|no_chars]]|]. split; [split; constructor|dir].
      - apply ch_nil. }
    { exists [], []. split; [now left|]. split; [split; constructor|dir]. }
    eapply (ch_unset _ _ _ _ (R "draft")).
    { split; [is_name|]. exists []. split; [constructor|]. left. reflexivity. }
    change (remove string_dec (encode_runes (R "draft")) ["draft"]) with (@nil string).
    eapply (ch_one_not _ _ _ _ true (R "draft") (R "four")); [|discriminate|not_given|].
    { apply cond_ifdef; [split; [discriminate|split; [repeat constructor|no_chars]]|split; [repeat constructor|no_chars]|dir]. }
    eapply (ch_one _ _ _ _ false (R "draft") (R "five")); [|discriminate|not_given|].
    { apply cond_ifndef; [split; [discriminate|split; [repeat constructor|no_chars]]|split; [repeat constructor|no_chars]|dir]. }
    apply ch_line; [apply plain_dec; reflexivity|apply ch_nil].
Qed.
Theorem C70_lines_run : demo_preprocessed demo_config (String.concat LF some_lines) = RDone (String.concat LF kept_lines, []) "/".
Proof. vm_compute. reflexivity. Qed.

(** a whole conversion: the text that is kept is the one of C69 *)
Definition cond_source : string :=
"ifdef::draft[]" ++ CR ++ LF ++ "Draft" ++ CR ++ LF ++ "endif::[]" ++ CR ++ LF ++ "ifdef::backend[Isn't R&D -> (C)]" ++ CR ++ LF ++
"
====
----
a<b <1>

----

====

".
Definition cond_lines : list string :=
  ["ifdef::draft[]"; "Draft"; "endif::[]"; "ifdef::backend[Isn't R&D -> (C)]"; ""; "===="; "----"; "a<b <1>"; ""; "----"; ""; "===="; ""].
Theorem C70_converted_example : exists a out d vs hs, c_attrs demo_config = Some a /\ (forall k, In k neutral_names -> mget a k = None) /\ c_wrap demo_config = false /\
  unicode_ok demo_go /\ source_lines cond_source cond_lines /\ chosen (demo_cls "L") (demo_cls "N") (map fst a) [] cond_lines out d /\
  document (alnum demo_cls) demo_white true (runes (String.concat LF out)) vs /\
  ConvertSpec.all_shown (demo_cls "L") (demo_cls "N") demo_white (map fst (c_macros demo_config)) (e_xhtml demo_env) (e_toLower demo_env) vs hs /\ String.concat "" hs = a_page.
Proof.
  destruct C69_hypotheses as (a & vs & hs & Ea & Na & Wr & Uc & D & Sh & Pg).
  exists a, ["Isn't R&D -> (C)"; ""; "===="; "----"; "a<b <1>"; ""; "----"; ""; "===="; ""], [], vs, hs.
  split; [exact Ea|]. split; [exact Na|]. split; [exact Wr|]. split; [exact Uc|]. split; [|split; [|split; [|split; [exact Sh|exact Pg]]]].
  - unfold cond_lines. do 4 (match goal with |- source_lines _ (?l :: _) => refine (src_line l (CR ++ LF) _ _ _ _ _); [line_ok|now right|] end).
    do 9 (match goal with |- source_lines _ (?l :: _) => refine (src_line l LF _ _ _ _ _); [line_ok|now left|] end). apply src_nil.
  - assert (map fst a = ["basebackend-html"; "backend"]) as -> by (injection Ea as <-; reflexivity).
    refine (ch_region_not _ _ _ _ true (R "draft") _ ["Draft"] "endif::[]" ["Draft"] _ _ _ _ _ _ _ _ _ _).
    { apply cond_ifdef; [split; [discriminate|split; [repeat constructor|no_chars]]|split; constructor|dir]. }
    { not_given. }
    { apply ch_line; [apply plain_dec; reflexivity|apply ch_nil]. }
    { repeat constructor. discriminate. }
    { exists [], []. split; [now left|]. split; [split; constructor|dir]. }
    refine (ch_one _ _ _ _ true (R "backend") (R "Isn't R&D -> (C)") _ _ _ _ _ _ _ _); [|discriminate|cbn; tauto|].
    { apply cond_ifdef; [split; [discriminate|split; [repeat constructor|no_chars]]|split; [repeat constructor|no_chars]|dir]. }
    repeat (apply ch_line; [apply plain_dec; reflexivity|]). apply ch_nil.
  - match goal with |- document _ _ _ ?t _ => replace t with (Peg.R a_source) by (vm_compute; reflexivity) end. exact D.
Qed.

(** * A blank at the end of a declaration makes it ordinary text *)
Theorem C70_declaration_refuted :
  demo_preprocessed demo_config (":draft: yes" ++ LF ++ "ifdef::draft[shown]") = RDone (":draft: yes" ++ LF ++ "shown", []) "/" /\
  demo_preprocessed demo_config (":draft: yes " ++ LF ++ "ifdef::draft[shown]") = RDone (":draft: yes ", []) "/".
Proof. split; vm_compute; reflexivity. Qed.

Print Assumptions C70_preprocessed.
Print Assumptions C70_converted.
Print Assumptions C70_lines_example.
Print Assumptions C70_converted_example.
