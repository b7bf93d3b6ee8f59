(** C67: the inline content of verbatim blocks. *)
From Coq Require Import List String NArith ZArith Bool Ascii Arith Lia.
From Verif Require Import GoBase Utf8 Types Attrs Elements Merge MergeLemmas Subs Peg PegGrammar PegDoc PegHost PegSym PegBlockSpec PegInlineSpec P_PegTerm P_PegParse P_PegRun P_PegLines P_PegBlocks P_PegFragment P_PegPara P_PegDocs.
Import ListNotations.
Local Open Scope list_scope.

(** * Merging *)
(** the elements that are neither text nor trim the text before them *)
Definition solid (v : val) : Prop := match v with SpecialCharacter _ | Callout _ | QuotedText _ _ _ => True | Symbol n => n <> " -- "%string | _ => False end.
Lemma solid_default : forall v res s, solid v -> mdefault (res, s) v = (if String.eqb s "" then res ++ [v] else res ++ [StringElement s; v], ""%string).
Proof.
  intros v res s S. unfold mdefault. destruct (String.eqb s ""); [reflexivity|]. destruct v; try reflexivity.
  cbn in S. apply String.eqb_neq in S. rewrite S. reflexivity.
Qed.
Lemma solid_step : forall v st, solid v -> mstep v st = mdefault st v /\ mflat_step st v = mdefault st v.
Proof. intros v st S. destruct v; try (now destruct S); auto. Qed.
Lemma solid_facts : forall v, solid v -> (forall s, v <> StringElement s) /\ v <> LineBreak.
Proof. intros v S. destruct v; try (now destruct S); (split; [intros ?|]; discriminate). Qed.
Inductive contrib : val -> list item -> Prop :=
| con_str : forall w, w <> [] -> contrib (Types.VStr (encode_runes w)) (map Char w)
| con_elem : forall w, w <> [] -> contrib (StringElement (encode_runes w)) (map Char w)
| con_other : forall v, solid v -> contrib v [Elem v].
Lemma grouped_chars : forall w run l, grouped run (map Char w ++ l) = grouped (run ++ w) l.
Proof. induction w as [|r w IH]; intros run l; cbn [map app grouped]; [now rewrite app_nil_r|]. now rewrite IH, <- app_assoc. Qed.
Lemma encode_rune_nonempty : forall r, encode_rune r <> ""%string.
Proof. intros r. unfold encode_rune. repeat match goal with |- context [if ?b then _ else _] => destruct b end; discriminate. Qed.
Lemma encode_nonempty : forall w, w <> [] -> String.eqb (encode_runes w) "" = false.
Proof.
  intros w Ne. apply String.eqb_neq. destruct w as [|r w]; [congruence|]. rewrite encode_runes_cons. pose proof (encode_rune_nonempty r).
  destruct (encode_rune r); [congruence|discriminate].
Qed.
Lemma mflush_runs : forall res run, mflush (res, encode_runes run) = res ++ text_of run.
Proof.
  intros res run. unfold mflush. cbn [fst snd]. destruct run as [|r run]; [cbn; now rewrite app_nil_r|]. now rewrite encode_nonempty by discriminate.
Qed.
Lemma mloop_items : forall vs itss, Forall2 contrib vs itss -> forall res run,
  mflush (mloop vs (res, encode_runes run)) = res ++ grouped run (List.concat itss).
Proof.
  intros vs itss F. induction F as [|v its vs itss C F IH]; intros res run; [apply mflush_runs|]. cbn [mloop List.concat].
  destruct C as [w Ne|w Ne|v Hv].
  - cbn [mstep fst snd]. rewrite grouped_chars, <- encode_runes_app. apply IH.
  - cbn [mstep fst snd]. rewrite grouped_chars, <- encode_runes_app. apply IH.
  - cbn [app grouped].
    assert (mstep v (res, encode_runes run) = (res ++ text_of run ++ [v], ""%string)) as ->.
    { destruct (solid_step v (res, encode_runes run) Hv) as [-> _]. rewrite solid_default by exact Hv.
      destruct run as [|r run]; [reflexivity|]. now rewrite encode_nonempty by discriminate. }
    change ""%string with (encode_runes []). rewrite IH. now rewrite <- !app_assoc.
Qed.
Definition plain (v : val) : Prop := match v with StringElement s => s <> ""%string | _ => solid v end.
Fixpoint apart (l : list val) : Prop :=
  match l with
  | [] => True
  | StringElement _ :: ((StringElement _ :: _) as r) => False
  | _ :: r => apart r
  end.
Lemma apart_cons : forall v l, solid v -> apart (v :: l) = apart l.
Proof. intros v l S. destruct v; try (now destruct S); reflexivity. Qed.
Lemma apart_str : forall s l, apart (StringElement s :: l) -> (forall v l', l = v :: l' -> plain v -> solid v) /\ apart l.
Proof. intros s [|v l] A; [split; [discriminate|exact Logic.I]|]. destruct v; try (now destruct A); (split; [intros ? ? E; injection E as <- <-; cbn; auto|]; try exact A). Qed.
Lemma mergeFlat_apart : forall l, Forall plain l -> apart l -> forall res,
  mflush (fold_left mflat_step l (res, ""%string)) = res ++ l.
Proof.
  assert (forall l, Forall plain l -> apart l -> forall res, 
    mflush (fold_left mflat_step l (res, ""%string)) = res ++ l /\
    (forall s, s <> ""%string -> apart (StringElement s :: l) -> mflush (fold_left mflat_step l (res, s)) = res ++ StringElement s :: l)) as A; [|intros l F Al res; now apply A].
  induction l as [|v l IH]; intros F A res.
  - cbn [fold_left]. split; [unfold mflush; cbn; now rewrite app_nil_r|]. intros s Ns _. unfold mflush. cbn [fst snd]. apply String.eqb_neq in Ns. now rewrite Ns.
  - inversion F as [|? ? Pv Fl]; subst. cbn [fold_left].
    assert ((exists s, v = StringElement s) \/ solid v) as [(s & ->)|Sv] by (destruct v; try (right; exact Pv); left; eexists; reflexivity).
    + destruct (apart_str _ _ A) as [_ Al]. split.
      * change (mflat_step (res, ""%string) (StringElement s)) with (res, s). now apply (IH Fl Al res).
      * intros s' _ A'. destruct A'.
    + destruct (solid_step v (res, ""%string) Sv) as [_ E]. rewrite apart_cons in A by exact Sv. split.
      * rewrite E, solid_default by exact Sv. cbn [String.eqb]. destruct (IH Fl A (res ++ [v])) as [-> _]. now rewrite <- app_assoc.
      * intros s Ns _. destruct (solid_step v (res, s) Sv) as [_ ->]. rewrite solid_default by exact Sv. apply String.eqb_neq in Ns. rewrite Ns.
        destruct (IH Fl A (res ++ [StringElement s; v])) as [-> _]. now rewrite <- app_assoc.
Qed.
Lemma grouped_shape : forall its, Forall (fun i => match i with Elem v => solid v | _ => True end) its ->
  forall run, Forall plain (grouped run its) /\ apart (grouped run its) /\ Forall (fun v => v <> LineBreak) (grouped run its).
Proof.
  intros its F. induction F as [|i its Hi F IH]; intros run.
  - cbn. destruct run as [|r run]; cbn [text_of]; [repeat constructor|]. repeat split; repeat constructor; try discriminate.
    apply String.eqb_neq, (encode_nonempty (r :: run)). discriminate.
  - destruct i as [r|v]; cbn [grouped]; [apply IH|]. destruct (IH []) as (P & A & L).
    assert (plain v /\ v <> LineBreak) as [Pv Lv] by (split; [destruct v; try (now destruct Hi); exact Hi|apply solid_facts, Hi]).
    destruct run as [|r run]; cbn [text_of app].
    + repeat split; try (constructor; auto). rewrite apart_cons; auto.
    + assert (plain (StringElement (encode_runes (r :: run)))) as Ps by (apply String.eqb_neq, (encode_nonempty (r :: run)); discriminate).
      repeat split; try (repeat constructor; auto; discriminate). destruct v; try (now destruct Hi); exact A.
Qed.
Lemma trim_breaks_id : forall l, Forall (fun v => v <> LineBreak) l -> trim_breaks l = l.
Proof.
  intros l F. induction F as [|x l Hx F IH]; [reflexivity|]. cbn [trim_breaks]. rewrite IH. f_equal.
  destruct x; try reflexivity. destruct l as [|y l]; [reflexivity|]. inversion F; subst. destruct y; try reflexivity. congruence.
Qed.
Lemma contrib_items : forall vs itss, Forall2 contrib vs itss ->
  Forall (fun i => match i with Elem v => solid v | _ => True end) (List.concat itss).
Proof.
  intros vs itss F. induction F as [|v its vs itss C F IH]; cbn [List.concat]; [constructor|]. apply Forall_app. split; auto.
  destruct C as [w _|w _|v Hv]; [| |now repeat constructor]; apply Forall_forall; intros i I; apply in_map_iff in I; destruct I as (r & <- & _); exact Logic.I.
Qed.
Lemma newInlineElements_items : forall vs itss, Forall2 contrib vs itss -> vs <> [] ->
  newInlineElements vs = grouped [] (List.concat itss).
Proof.
  intros vs itss F Ne. unfold newInlineElements.
  assert (merge [VSlice vs] = mergeFlat (merge vs)) as ->.
  { unfold merge at 1. cbn [mloop]. rewrite mstep_slice. destruct vs as [|v vs]; [congruence|]. reflexivity. }
  pose proof (mloop_items _ _ F [] []) as E. change (encode_runes []) with ""%string in E. cbn [app] in E. unfold merge. rewrite E.
  destruct (grouped_shape _ (contrib_items _ _ F) []) as (P & A & L). 
  etransitivity; [|exact (trim_breaks_id _ L)]. apply (f_equal trim_breaks). exact (mergeFlat_apart _ P A []).
Qed.

(** * Callouts *)
Lemma digits_app : forall ds acc s, Forall digit ds -> atoi_digits (encode_runes ds ++ s) acc = atoi_digits s (fold_left (fun z d => (10 * z + Z.of_N d - 48)%Z) ds acc).
Proof.
  intros ds acc s F. revert acc. induction F as [|d ds D F IH]; intros acc; [reflexivity|]. rewrite encode_runes_cons, sapp_assoc. cbn [fold_left].
  unfold digit in D. assert (encode_rune d = String (ascii_of_N d) "") as ->.
  { unfold encode_rune. destruct (N.ltb_spec d 128); [reflexivity|lia]. }
  cbn [append atoi_digits]. unfold is_digit. rewrite N_ascii_embedding by lia.
  destruct (N.leb_spec 48 d); [|lia]. destruct (N.leb_spec d 57); [|lia]. cbn [andb]. rewrite IH. do 2 f_equal. lia.
Qed.
Lemma atoi_number : forall ds, ds <> [] -> Forall digit ds -> (number ds <= 9223372036854775807)%Z -> atoi (encode_runes ds) = Some (number ds).
Proof.
  intros ds Ne F L. pose proof (digits_app ds 0 "" F) as E. rewrite sapp_nil in E. cbn [atoi_digits] in E. fold (number ds) in E.
  assert (0 <= number ds)%Z as L0.
  { assert (forall l z, Forall digit l -> (0 <= z)%Z -> (0 <= fold_left (fun z d => (10 * z + Z.of_N d - 48)%Z) l z)%Z) as A; [|apply A; [exact F|lia]].
    intros l. induction l as [|d l IH]; intros z Fl Lz; [exact Lz|]. inversion Fl as [|? ? Dd Fl']; subst. cbn [fold_left]. apply IH; auto. unfold digit in Dd. lia. }
  unfold atoi. destruct ds as [|d ds]; [congruence|]. inversion F as [|? ? D F']; subst. unfold digit in D.
  rewrite encode_runes_cons in *. assert (encode_rune d = String (ascii_of_N d) "") as Ed.
  { unfold encode_rune. destruct (N.ltb_spec d 128); [reflexivity|lia]. }
  rewrite Ed in *. cbn [append] in *.
  assert (forall c, (N_of_ascii c < 48)%N -> Ascii.eqb (ascii_of_N d) c = false) as Nc.
  { intros c Lc. apply Ascii.eqb_neq. intros Q. apply (f_equal N_of_ascii) in Q. rewrite N_ascii_embedding in Q by lia. lia. }
  rewrite (Nc "-"%char), (Nc "+"%char) by reflexivity. rewrite E. unfold int64_ok.
  destruct (Z.leb_spec (-9223372036854775808) (number (d :: ds))); [|lia].
  destruct (Z.leb_spec (number (d :: ds)) 9223372036854775807); [|lia]. reflexivity.
Qed.
Definition digitb (r : rune) : bool := N.leb 48 r && N.leb r 57.
Lemma digitb_spec : forall r, digitb r = true <-> digit r.
Proof. intros r. unfold digitb, digit. rewrite andb_true_iff, !N.leb_le. tauto. Qed.
Lemma span_eq : forall (f : rune -> bool) a b u v, (forall r, In r a -> f r = true) -> (forall r, In r b -> f r = true) ->
  P_PegRun.head_not f u -> P_PegRun.head_not f v -> a ++ u = b ++ v -> a = b /\ u = v.
Proof.
  intros f a. induction a as [|x a IH]; intros [|y b] u v A B Hu Hv E; cbn in E.
  - auto.
  - subst u. cbn in Hu. rewrite (B y) in Hu; [discriminate|now left].
  - subst v. cbn in Hv. rewrite (A x) in Hv; [discriminate|now left].
  - injection E as -> E. apply IH in E; auto; [|intros; apply A; now right|intros; apply B; now right]. destruct E as [-> ->]. auto.
Qed.
Lemma callout_shape : forall t ds u, callout t ds u -> ds <> [] /\ Forall digit ds /\
  exists ws, blanks ws /\ t = 60%N :: ds ++ 62%N :: ws ++ u /\ (match u with [] => True | r :: _ => r = 10%N \/ r = 13%N \/ r = 60%N end).
Proof.
  intros t ds u C. destruct C as [ds ws u Ne D W E|ds ws u ds' u' Ne D W C].
  - repeat split; auto. exists ws. repeat split; auto. destruct u; intuition auto.
  - repeat split; auto. exists ws. repeat split; auto. destruct C; auto.
Qed.
Lemma callout_fun : forall t ds u ds' u', callout t ds u -> callout t ds' u' -> ds = ds' /\ u = u'.
Proof.
  intros t ds u ds' u' A B. apply callout_shape in A, B. destruct A as (_ & D & ws & W & -> & Hu). destruct B as (_ & D' & ws' & W' & E & Hu').
  injection E as E. apply (span_eq digitb) in E.
  - destruct E as [-> E]. injection E as E. apply (span_eq blankb) in E.
    + tauto.
    + intros r I. apply blankb_spec. eapply Forall_forall in W; eauto.
    + intros r I. apply blankb_spec. eapply Forall_forall in W'; eauto.
    + destruct u as [|r u]; cbn; auto. destruct Hu as [->|[->| ->]]; reflexivity.
    + destruct u' as [|r u']; cbn; auto. destruct Hu' as [->|[->| ->]]; reflexivity.
  - intros r I. apply digitb_spec. eapply Forall_forall in D; eauto.
  - intros r I. apply digitb_spec. eapply Forall_forall in D'; eauto.
  - reflexivity.
  - reflexivity.
Qed.
Lemma callout_head : forall r t ds u, callout (r :: t) ds u -> r = 60%N.
Proof. intros r t ds u C. apply callout_shape in C. destruct C as (_ & _ & ws & _ & E & _). now injection E. Qed.

(** * What one element of the text stands for *)
Lemma verb_chars : forall sp co w t its, (forall r, In r w -> special_char r = false) -> verbatim sp co (w ++ t) its ->
  exists its', its = map Char w ++ its' /\ verbatim sp co t its'.
Proof.
  intros sp co w t. induction w as [|r w IH]; intros its F V; [exists its; auto|]. cbn [app] in V.
  assert (special_char r = false) as Sr by (apply F; now left).
  inversion V as [|? ds u its' Co C V' E1|? ? its' Nc V' E1]; subst.
  - apply callout_head in C. subst r. discriminate.
  - destruct (IH its') as (its2 & -> & V2); auto. { intros x I. apply F. now right. }
    exists its2. split; auto. rewrite Sr, andb_false_r. reflexivity.
Qed.

Section Inline.
  Variable X : Type.
  Variable cls : string -> rune -> bool.
  Variable low : rune -> rune.
  Variable white : rune -> bool.
  Variable other : string -> labels (hv X) -> soft gstore (option (list string)) -> option (value (hv X) * bool).
  Notation H := (go_host X cls low white other).
  Hypothesis U : unicode_ok H.
  Notation G := the_grammar.
  Notation Ok_ := (Ok_ H G).
  Notation No_ := (No_ H G).
  Notation Star_ := (Star_ H G).
  Notation Seq_ := (Seq_ H G).
  Notation alnum := (alnum cls).
  Variable subs : list string.
  Hypothesis Vs : verbatim_subs subs.
  Definition sp : bool := existsb (String.eqb SpecialCharacters) subs.
  Definition co : bool := existsb (String.eqb Callouts) subs.
  Section At.
  Variable g : gstore.
  Hypothesis Hg : st_subs g = Some subs.
  Notation c := ((false, g, None) : core H).

  Lemma sub_off : forall k, In k [Macros; Quotes; Replacements; AttributeRefs; PostReplacements; InlinePassthroughs] -> isSubEnabled g None k = false.
  Proof.
    intros k I. unfold isSubEnabled, lookupSubs. rewrite Hg. destruct (existsb (String.eqb k) subs) eqn:E; auto.
    apply existsb_exists in E. destruct E as (x & Ix & E). apply String.eqb_eq in E. subst x. now elim (Vs k I).
  Qed.
  Lemma pred_sub : forall code f en, assoc (known_preds cls white) code = Some (QSub f) ->
    pred_at H (PHost code) en c (f g None) c.
  Proof.
    intros code f en E. apply pred_host with (g' := g). intros s Es. apply core_store in Es. destruct Es as [<- E2].
    change (h_pred H) with (go_pred X cls white). unfold go_pred. rewrite E. cbn [run_pkind]. now rewrite E2.
  Qed.
  Lemma no_sub : forall code k en p, assoc (known_preds cls white) code = Some (QSub (fun g t => isSubEnabled g t k)) ->
    In k [Macros; Quotes; Replacements; AttributeRefs; PostReplacements; InlinePassthroughs] -> No_ (EPred (PHost code)) p en c c.
  Proof. intros code k en p E I. apply no_pred. pose proof (pred_sub _ _ en E) as Q. cbn beta in Q. now rewrite sub_off in Q. Qed.
  Lemma no_Replacement : forall p, No_ (ERef "Replacement") p [] c c.
  Proof. intros p. eapply no_ref; [reflexivity|]. apply no_act, no_seq1_c. apply no_sub with (k := Replacements); [reflexivity|cbn; tauto]. Qed.
  Lemma no_Quote2 : forall p, No_ x_TypographicQuote_2 p [] c c.
  Proof. intros p. apply no_act, no_seq1_c. apply no_sub with (k := Replacements); [reflexivity|cbn; tauto]. Qed.
  Lemma no_Attribute : forall p, No_ x_AttributeReference p [] c c.
  Proof. intros p. apply no_act, no_seq1_c. apply no_sub with (k := AttributeRefs); [reflexivity|cbn; tauto]. Qed.
  Lemma no_Quote : forall p, No_ (ERef "Quote") p [] c c.
  Proof. intros p. eapply no_ref; [reflexivity|]. apply no_seq1_c. apply no_sub with (k := Quotes); [reflexivity|cbn; tauto]. Qed.
  Lemma no_InlineMacro : forall p, No_ (ERef "InlineMacro") p [] c c.
  Proof. intros p. eapply no_ref; [reflexivity|]. apply no_act, no_seq1_c. apply no_sub with (k := Macros); [reflexivity|cbn; tauto]. Qed.
  Lemma no_LineBreak : forall p, No_ x_LineBreak p [] c c.
  Proof. intros p. apply no_act, no_seq1_c. apply no_sub with (k := PostReplacements); [reflexivity|cbn; tauto]. Qed.
  Lemma no_Passthrough : forall p, No_ (ERef "InlinePassthrough") p [] c c.
  Proof. intros p. eapply no_ref; [reflexivity|]. apply no_act, no_seq1_c. apply no_sub with (k := InlinePassthroughs); [reflexivity|cbn; tauto]. Qed.
  Lemma no_PlaceHolder : forall r t b, r <> 65533%N -> No_ x_ElementPlaceHolder (Pos b (r :: t)) [] c c.
  Proof. intros r t b Ne. apply no_act, no_seq1_c. apply no_lit1. congruence. Qed.
  Lemma no_Escaped : forall r t b, no_escaped_apostrophe (cls "L") (r :: t) -> No_ x_TypographicQuote (Pos b (r :: t)) [] c c.
  Proof.
    intros r t b Ne. apply no_act. change (R "\'") with [92; 39]%N.
    destruct (N.eq_dec r 92) as [->|Nr]; [|apply no_seq1_c, no_lit1; congruence].
    destruct t as [|q t]; [apply no_seq1_c, no_lit; reflexivity|].
    destruct (N.eq_dec q 39) as [->|Nq].
    2:{ apply no_seq1_c, no_lit. cbn [lit_from]. unfold peek, advance. cbn [rest before]. destruct (N.eqb_spec q 39); [congruence|reflexivity]. }
    eapply (no_seq_c H G [ELit [92; 39]%N false] _ []); [econstructor; [apply (ok_lit H G [92; 39]%N t)|constructor]|].
    apply no_and_c. destruct t as [|x t]; [apply no_cls_end|]. apply no_cls.
    unfold in_cls. cbn. destruct (cls "L" x) eqn:E; [|reflexivity]. elim Ne. exists [], x, t. auto.
  Qed.

  (** the alternatives that read plain characters *)
  Definition reads (e : expr) (t : list rune) : Prop := forall b, No_ e (Pos b t) [] c c \/
    exists v w t' en', t = w ++ t' /\ w <> [] /\ (forall r, In r w -> special_char r = false) /\
      (v = Peg.VStr w \/ v = elem (StringElement (encode_runes w))) /\ Ok_ e (Pos b t) [] c v (Pos (rev w ++ b) t') en' c.
  Lemma span_text : forall (f : rune -> bool) l, exists w l', l = w ++ l' /\ (forall r, In r w -> f r = true) /\ P_PegRun.head_not f l'.
  Proof.
    intros f l. induction l as [|x l (w & l' & -> & A & B)]; [exists [], []; cbn; intuition|].
    destruct (f x) eqn:E; [exists (x :: w), l'|exists [], (x :: w ++ l')]; cbn [app]; intuition auto; cbn in *; intuition (subst; auto).
  Qed.
  Lemma special_low : forall r, special_char r = true -> alnum r = false /\ blankb r = false.
  Proof.
    intros r S. unfold special_char in S. rewrite !orb_true_iff, !N.eqb_eq in S.
    split; [|destruct S as [[->| ->]| ->]; reflexivity]. apply (alnum_ascii X cls low white other U); destruct S as [[->| ->]| ->]; reflexivity.
  Qed.
  Lemma in_alnum : forall r, in_cls H [] [] ["L"; "N"]%string r = alnum r.
  Proof. intros r. unfold in_cls. cbn. unfold P_PegPara.alnum. destruct (cls "L" r); cbn; destruct (cls "N" r); reflexivity. Qed.
  Definition textE : expr := EAct AText (EPlus (ECls [] [] ["L"; "N"]%string false)).
  Lemma ok_textE : forall w t b en, w <> [] -> (forall r, In r w -> alnum r = true) -> P_PegRun.head_not alnum t ->
    Ok_ textE (Pos b (w ++ t)) en c (VStr w) (Pos (rev w ++ b) t) en c.
  Proof.
    intros w t b en Ne A Ht. eapply ok_act with (c1 := c); [eapply ok_plus; [eapply star_cls|]|].
    - intros x Ix. etransitivity; [apply in_alnum|]. now apply A.
    - destruct t; [exact Logic.I|]. cbn in Ht |- *. change (Bool.eqb (in_cls H [] [] ["L"; "N"]%string r) true = false). rewrite in_alnum. now rewrite Ht.
    - destruct w; [congruence|discriminate].
    - rewrite slice_app. apply act_text.
  Qed.
  Lemma no_textE : forall t b en, P_PegRun.head_not alnum t -> No_ textE (Pos b t) en c c.
  Proof.
    intros t b en Ht. apply no_act, no_plus. destruct t as [|r t]; [apply no_cls_end|]. apply no_cls. etransitivity; [apply in_alnum|exact Ht].
  Qed.
  Lemma reads_Text : forall t, reads x_InlineText t.
  Proof.
    intros t b. destruct (span_text alnum t) as (w & t' & -> & Aw & Ht). destruct w as [|r0 w0].
    - left. cbn [app]. apply no_act, no_seq1_c, no_lab, no_textE, Ht.
    - set (w := r0 :: w0) in *. assert (w <> []) as Nw by discriminate. clearbody w.
      set (en1 := [("text"%string, VStr w)] : labels (hv X)).
      assert (Ok_ (ELab "text" textE) (Pos b (w ++ t')) [] c (VStr w) (Pos (rev w ++ b) t') en1 c) as S1 by (eapply ok_lab, ok_textE; auto).
      assert (Ok_ (ENot (ESeq [ELit (R ":") false; EPred (PHost "return c.isInlineMacro(string(c.text)), nil")]))
          (Pos (rev w ++ b) t') en1 c VNil (Pos (rev w ++ b) t') en1 c) as S2.
      { apply ok_not_c. change (R ":") with [58%N]. destruct t' as [|x t']; [apply no_seq1_c, no_lit_end; discriminate|].
        destruct (N.eq_dec x 58) as [->|Nx]; [|apply no_seq1_c, no_lit1; congruence].
        eapply (no_seq_c H G [ELit [58%N] false] _ []); [econstructor; [apply (ok_lit H G [58%N] t')|constructor]|].
        apply no_pred. apply pred_host with (g' := g). intros s Es. apply core_store in Es. destruct Es as [E1 E2].
        change (h_pred H) with (go_pred X cls white). unfold go_pred.
        assert (assoc (known_preds cls white) "return c.isInlineMacro(string(c.text)), nil" = Some (QText isInlineMacro)) as -> by reflexivity.
        cbn [run_pkind]. unfold isInlineMacro. rewrite E1, E2, sub_off by (cbn; tauto). reflexivity. }
      assert (No_ (ESeq [ELit (R "@") false; ECls [] [] ["L"; "N"]%string false]) (Pos (rev w ++ b) t') [] c c \/
              exists x y, t' = 64%N :: x :: y /\ alnum x = true) as [S3|(x & y & -> & Ax)].
      { change (R "@") with [64%N]. destruct t' as [|x t']; [left; apply no_seq1_c, no_lit_end; discriminate|].
        destruct (N.eq_dec x 64) as [->|Nx]; [|left; apply no_seq1_c, no_lit1; congruence].
        destruct t' as [|x t'].
        { left. eapply (no_seq_c H G [ELit [64%N] false] _ []); [econstructor; [apply (ok_lit H G [64%N] [])|constructor]|apply no_cls_end]. }
        destruct (alnum x) eqn:Ax; [right; exists x, t'; auto|]. left.
        eapply (no_seq_c H G [ELit [64%N] false] _ []); [econstructor; [apply (ok_lit H G [64%N] (x :: t'))|constructor]|].
        apply no_cls. etransitivity; [apply in_alnum|exact Ax]. }
      + right. exists (elem (StringElement (encode_runes w))), w, t', en1. repeat split; auto.
        { intros r I. destruct (special_char r) eqn:E; auto. apply special_low in E. rewrite (Aw r I) in E. now destruct E. }
        eapply ok_act; [apply ok_seq; econstructor; [exact S1|econstructor; [exact S2|econstructor; [apply ok_not_c; exact S3|constructor]]]|].
        rewrite slice_app. eapply act_known; [reflexivity|]. intros s Es Et. unfold run_akind. rewrite Et. apply core_store in Es. now destruct Es as [-> _].
      + left. apply no_act. eapply (no_seq_c H G [_; _] _ []); [econstructor; [exact S1|econstructor; [exact S2|constructor]]|].
        eapply no_not_c. apply ok_seq. change (R "@") with [64%N]. econstructor; [apply (ok_lit H G [64%N] (x :: y))|].
        econstructor; [apply ok_cls; etransitivity; [apply in_alnum|exact Ax]|constructor].
  Qed.
  Lemma reads_Spaces : forall t, reads x_Spaces t.
  Proof.
    intros t b. destruct (span_text blankb t) as (w & t' & -> & Aw & Ht). destruct w as [|r0 w0].
    - left. cbn [app]. apply no_act, no_plus. destruct t' as [|r t']; [apply no_cls_end|]. apply no_cls. etransitivity; [apply in_blank|exact Ht].
    - right. exists (Peg.VStr (r0 :: w0)), (r0 :: w0), t', []. repeat split; auto; [discriminate| |].
      { intros r I. destruct (special_char r) eqn:E; auto. apply special_low in E. rewrite (Aw r I) in E. now destruct E. }
      eapply ok_act with (c1 := c); [eapply ok_plus; [eapply star_cls|]|].
      + intros x Ix. etransitivity; [apply in_blank|]. now apply Aw.
      + destruct t'; [exact Logic.I|]. cbn in Ht |- *. change (Bool.eqb (in_cls H [9%N; 32%N] [] [] r) true = false). rewrite in_blank. now rewrite Ht.
      + discriminate.
      + rewrite slice_app. apply act_text.
  Qed.
  (** an alternative made of tests followed by one character *)
  Lemma text_reads : forall e t, (forall b, No_ e (Pos b t) [] c c \/ exists w t' v en', t = w ++ t' /\ w <> [] /\ (forall r, In r w -> special_char r = false) /\
      Ok_ e (Pos b t) [] c v (Pos (rev w ++ b) t') en' c) -> reads (EAct AText e) t.
  Proof.
    intros e t D b. destruct (D b) as [N|(w & t' & v & en' & -> & Ne & F & O)]; [left; now apply no_act|].
    right. exists (VStr w), w, t', en'. repeat split; auto. eapply ok_act; [exact O|]. rewrite slice_app. apply act_text.
  Qed.
  Definition one (e : expr) (t : list rune) : Prop := forall b, No_ e (Pos b t) [] c c \/ exists w t' v en', t = w ++ t' /\ w <> [] /\ (forall r, In r w -> special_char r = false) /\
      Ok_ e (Pos b t) [] c v (Pos (rev w ++ b) t') en' c.
  Lemma one_nil : forall t, one (EAlt []) t. Proof. intros t b. left. apply no_alt_nil. Qed.
  Lemma one_alt : forall e l t, one e t -> one (EAlt l) t -> one (EAlt (e :: l)) t.
  Proof.
    intros e l t A B b. destruct (A b) as [N|(w & t' & v & en' & -> & Ne & F & O)].
    - destruct (B b) as [N2|(w & t' & v & en' & -> & Ne & F & O)]; [left; now apply no_alt_c|].
      right. exists w, t', v, en'. repeat split; auto. apply ok_alt_c; auto.
    - right. exists w, t', v, []. repeat split; auto. eapply ok_alt_here; eauto.
  Qed.
  Lemma one_cls : forall cs t, forallb (fun x => negb (special_char x)) cs = true -> one (ECls cs [] [] false) t.
  Proof.
    intros cs t F b. destruct t as [|r t]; [left; apply no_cls_end|]. destruct (in_cls H cs [] [] r) eqn:E.
    - right. exists [r], t. do 2 eexists. repeat split; [discriminate| |apply ok_cls; exact E].
      intros x [<-|[]]. unfold in_cls in E. cbn in E. rewrite !orb_false_r in E. apply existsb_exists in E. destruct E as (y & Iy & Ey).
      apply N.eqb_eq in Ey. subst y. rewrite forallb_forall in F. specialize (F _ Iy). now destruct (special_char r).
    - left. now apply no_cls.
  Qed.
  Lemma lit_split : forall w t b p, forallb (fun x => negb (N.eqb x Peg.RuneError)) w = true -> lit_from H w false (Pos b t) = Some p -> exists t', t = w ++ t'.
  Proof.
    induction w as [|x w IH]; intros t b p F E; [exists t; reflexivity|]. cbn [forallb] in F. apply andb_prop in F. destruct F as [Fx F].
    cbn [lit_from] in E. unfold peek, advance in E. destruct t as [|y t]; cbn [rest before] in E.
    - destruct (N.eqb_spec Peg.RuneError x) as [<-|]; [discriminate|discriminate].
    - destruct (N.eqb_spec y x) as [->|]; [|discriminate]. destruct (IH _ _ _ F E) as (t' & ->). exists t'. reflexivity.
  Qed.
  Lemma one_lit : forall x w t, forallb (fun x => negb (special_char x)) (x :: w) = true -> forallb (fun x => negb (N.eqb x Peg.RuneError)) (x :: w) = true ->
    one (ELit (x :: w) false) t.
  Proof.
    intros x w t F F' b. destruct (lit_from H (x :: w) false (Pos b t)) eqn:E; [|left; now apply no_lit].
    apply lit_split in E; auto. destruct E as (t' & ->).
    right. exists (x :: w), t'. do 2 eexists. repeat split; [discriminate| |apply ok_lit].
    intros r I. rewrite forallb_forall in F. specialize (F _ I). now destruct (special_char r).
  Qed.
  Lemma one_pred : forall code f e t, assoc (known_preds cls white) code = Some (QSub f) -> one e t -> one (ESeq [EPred (PHost code); e]) t.
  Proof.
    intros code f e t E A b. pose proof (pred_sub _ _ [] E) as Q. destruct (f g None).
    - destruct (A b) as [N|(w & t' & v & en' & -> & Ne & F & O)].
      + left. eapply (no_seq_c H G [_] _ []); [econstructor; [apply ok_pred; exact Q|constructor]|exact N].
      + right. exists w, t'. do 2 eexists. repeat split; auto. apply ok_seq. econstructor; [apply ok_pred; exact Q|]. econstructor; [exact O|constructor].
    - left. apply no_seq1_c, no_pred, Q.
  Qed.
  Lemma reads_Punctuation : forall t, reads x_Punctuation t.
  Proof.
    intros t. apply text_reads. repeat apply one_alt.
    - now apply one_cls.
    - eapply one_pred; [reflexivity|now apply one_lit].
    - now apply one_lit.
    - eapply one_pred; [reflexivity|now apply one_cls].
    - intros b. change (R "(") with [40%N]. destruct (one_lit 40%N [] t eq_refl eq_refl b) as [N|(w & t' & v & en' & -> & Ne & F & O)]; [left; now apply no_seq1_c|].
      destruct (one_lit 40%N [] t' eq_refl eq_refl (rev w ++ b)) as [N|(w2 & t2 & v2 & en2 & -> & Ne2 & F2 & O2)].
      + right. exists w, t'. do 2 eexists. repeat split; auto. apply ok_seq. econstructor; [exact O|]. econstructor; [apply ok_not_c; exact N|constructor].
      + left. eapply (no_seq_c H G [_] _ []); [econstructor; [exact O|constructor]|]. eapply no_not_c. exact O2.
    - apply one_nil.
  Qed.
  Lemma reads_Newline : forall t, reads x_Newline t.
  Proof. intros t. apply text_reads. repeat apply one_alt; try (now apply one_lit). apply one_nil. Qed.

  (** callouts *)
  Lemma seq_app : forall l1 l2 p en (c0 : core H) vs p1 en1 c1 vs2 p2 en2 c2, Seq_ l1 p en c0 vs p1 en1 c1 -> Seq_ l2 p1 en1 c1 vs2 p2 en2 c2 ->
    Seq_ (l1 ++ l2) p en c0 (vs ++ vs2) p2 en2 c2.
  Proof. intros l1 l2 p en c0 vs p1 en1 c1 vs2 p2 en2 c2 A. induction A; intros B; cbn [app]; [exact B|]. econstructor; eauto. Qed.
  Lemma sub_on : forall k, isSubEnabled g None k = existsb (String.eqb k) subs.
  Proof. intros k. unfold isSubEnabled, lookupSubs. now rewrite Hg. Qed.
  Lemma small_suffix : forall a t, small_numbers (a ++ t) -> small_numbers t.
  Proof. intros a t S x ds y E D. apply (S (a ++ x) ds y); auto. rewrite E, <- app_assoc. reflexivity. Qed.
  Lemma ok_Newline : forall r t b en, eolb r = true -> exists v b' t', Ok_ x_Newline (Pos b (r :: t)) en c v (Pos b' t') en c.
  Proof.
    intros r t b en E. unfold eolb in E. rewrite orb_true_iff, !N.eqb_eq in E. destruct E as [->| ->].
    - do 3 eexists. eapply ok_act; [|apply act_text]. eapply ok_alt_here. apply (ok_lit H G [10%N]).
    - assert ((exists t', t = 10%N :: t') \/ lit_from H [13; 10]%N false (Pos b (13%N :: t)) = None) as [(t' & ->)|L].
      { destruct t as [|x t]; [now right|]. destruct (N.eq_dec x 10) as [->|Nx]; [left; eexists; reflexivity|]. right.
        cbn [lit_from]. unfold peek, advance. cbn [rest before]. destruct (N.eqb_spec x 10); [congruence|reflexivity]. }
      + do 3 eexists. eapply ok_act; [|apply act_text]. apply ok_alt_c; [apply no_lit1; discriminate|]. eapply ok_alt_here. apply (ok_lit H G [13; 10]%N).
      + do 3 eexists. eapply ok_act; [|apply act_text]. apply ok_alt_c; [apply no_lit1; discriminate|]. apply ok_alt_c; [now apply no_lit|].
        eapply ok_alt_here. apply (ok_lit H G [13%N]).
  Qed.
  Lemma no_Newline : forall t b en, P_PegRun.head_not eolb t -> No_ x_Newline (Pos b t) en c c.
  Proof.
    intros t b en E. apply no_act. destruct t as [|r t].
    - repeat apply no_alt_c; try (apply no_lit_end; discriminate). apply no_alt_nil.
    - cbn in E. unfold eolb in E. rewrite orb_false_iff, !N.eqb_neq in E. destruct E.
      repeat apply no_alt_c; try (apply no_lit1; congruence). apply no_alt_nil.
  Qed.
  Lemma in_digit : forall r, in_cls H [] [(48, 57)]%N [] r = digitb r.
  Proof. intros r. unfold in_cls. cbn. unfold digitb. now rewrite !orb_false_r. Qed.
  Definition atoiE : expr := EAct (AHost "return strconv.Atoi(string(c.text))") (EPlus (ECls [] [(48, 57)]%N [] false)).
  Lemma ok_atoiE : forall ds t b en, ds <> [] -> Forall digit ds -> (number ds <= 9223372036854775807)%Z -> P_PegRun.head_not digitb t ->
    Ok_ atoiE (Pos b (ds ++ t)) en c (Peg.VInt (number ds)) (Pos (rev ds ++ b) t) en c.
  Proof.
    intros ds t b en Ne D L Ht. eapply ok_act with (c1 := c); [eapply ok_plus; [eapply star_cls|]|].
    - intros x Ix. etransitivity; [apply in_digit|]. apply digitb_spec. eapply Forall_forall in D; eauto.
    - destruct t; [exact Logic.I|]. cbn in Ht |- *. change (Bool.eqb (in_cls H [] [(48, 57)]%N [] r) true = false). rewrite in_digit. now rewrite Ht.
    - destruct ds; [congruence|discriminate].
    - rewrite slice_app. eapply act_known; [reflexivity|]. intros s Es Et. unfold run_akind. rewrite Et, atoi_number by auto.
      apply core_store in Es. now destruct Es as [-> _].
  Qed.
  Lemma no_atoiE : forall t b en, P_PegRun.head_not digitb t -> No_ atoiE (Pos b t) en c c.
  Proof.
    intros t b en Ht. apply no_act, no_plus. destruct t as [|r t]; [apply no_cls_end|]. apply no_cls. etransitivity; [apply in_digit|exact Ht].
  Qed.
  Definition tailE : expr := EAnd (EAlt [x_Newline; x_EOF; ERef "Callout"]).
  Lemma callout_run : co = true -> forall n t b, List.length t <= n -> small_numbers t ->
    (exists ds u b', callout t ds u /\ Ok_ (ERef "Callout") (Pos b t) [] c (elem (Callout (number ds))) (Pos b' u) [] c) \/
    ((~ exists ds u, callout t ds u) /\ No_ (ERef "Callout") (Pos b t) [] c c).
  Proof.
    intros Co n. induction n as [|n IH]; intros t b Ln Sm.
    { destruct t; [|cbn in Ln; lia]. right. split; [intros (ds & u & C); apply callout_shape in C; destruct C as (_ & _ & ws & _ & E & _); discriminate|].
      eapply no_ref; [reflexivity|]. apply no_act. eapply (no_seq_c H G [_] _ _).
      - econstructor; [|constructor]. apply ok_pred. pose proof (pred_sub "return c.isSubstitutionEnabled(Callouts), nil" _ [] eq_refl) as Q. cbn beta in Q.
        rewrite sub_on in Q. fold co in Q. rewrite Co in Q. exact Q.
      - apply no_lit_end. discriminate. }
    assert (forall p en, Ok_ (EPred (PHost "return c.isSubstitutionEnabled(Callouts), nil")) p en c VNil p en c) as Op.
    { intros p en. apply ok_pred. pose proof (pred_sub "return c.isSubstitutionEnabled(Callouts), nil" _ en eq_refl) as Q. cbn beta in Q.
      rewrite sub_on in Q. fold co in Q. rewrite Co in Q. exact Q. }
    change (R "<") with [60%N].
    destruct t as [|r t].
    { right. split; [intros (ds & u & C); apply callout_shape in C; destruct C as (_ & _ & ws & _ & E & _); discriminate|].
      eapply no_ref; [reflexivity|]. apply no_act. eapply (no_seq_c H G [_] _ _); [econstructor; [apply Op|constructor]|]. apply no_lit_end. discriminate. }
    destruct (N.eq_dec r 60) as [->|Nr].
    2:{ right. split; [intros (ds & u & C); apply callout_head in C; now apply Nr|].
      eapply no_ref; [reflexivity|]. apply no_act. eapply (no_seq_c H G [_] _ _); [econstructor; [apply Op|constructor]|]. apply no_lit1. intros EQ. apply Nr. now symmetry. }
    destruct (span_text digitb t) as (ds & u1 & -> & Ad & Hu1).
    assert (Forall digit ds) as D by (apply Forall_forall; intros x Ix; apply digitb_spec; auto).
    assert (forall p, P_PegRun.head_not digitb (62%N :: p)) as H62 by reflexivity.
    assert (forall ds' u, callout (60%N :: ds ++ u1) ds' u -> ds' = ds /\ exists ws, blanks ws /\ u1 = 62%N :: ws ++ u) as Inv.
    { intros ds' u C. apply callout_shape in C. destruct C as (_ & D' & ws & W & E & _). injection E as E. apply (span_eq digitb) in E; auto.
      - destruct E as [-> ->]. split; auto. exists ws. auto.
      - intros x Ix. apply digitb_spec. eapply Forall_forall in D'; eauto. }
    assert (forall en, Seq_ [EPred (PHost "return c.isSubstitutionEnabled(Callouts), nil"); ELit [60%N] false] (Pos b (60%N :: ds ++ u1)) en c [VNil; VBytes [60%N]]
       (Pos (60%N :: b) (ds ++ u1)) en c) as S1.
    { intros en. econstructor; [apply Op|]. econstructor; [apply (ok_lit H G [60%N])|constructor]. }
    destruct ds as [|d0 ds0].
    { right. split; [intros (ds & u & C); pose proof C as C'; apply Inv in C'; destruct C' as [-> _]; apply callout_shape in C; now destruct C as [C _]|].
      eapply no_ref; [reflexivity|]. apply no_act. eapply (no_seq_c H G [_; _] _ _); [apply S1|]. apply no_lab, no_atoiE, Hu1. }
    set (ds := d0 :: ds0) in *. assert (ds <> []) as Nd by discriminate.
    assert (number ds <= 9223372036854775807)%Z as Ld. { apply (Sm [] ds u1); auto. }
    clearbody ds.
    set (en1 := [("ref"%string, Peg.VInt (number ds))] : labels (hv X)).
    assert (Seq_ [EPred (PHost "return c.isSubstitutionEnabled(Callouts), nil"); ELit [60%N] false; ELab "ref" atoiE] (Pos b (60%N :: ds ++ u1)) [] c [VNil; VBytes [60%N]; Peg.VInt (number ds)]
       (Pos (rev ds ++ 60%N :: b) u1) en1 c) as S2.
    { econstructor; [apply Op|]. econstructor; [apply (ok_lit H G [60%N])|]. econstructor; [|constructor]. eapply ok_lab, ok_atoiE; auto. }
    assert ((exists u2, u1 = 62%N :: u2) \/ forall u2, u1 <> 62%N :: u2) as [(u2 & ->)|N62].
    { destruct u1 as [|x u1]; [right; discriminate|]. destruct (N.eq_dec x 62) as [->|Nx]; [left; eexists; reflexivity|right; congruence]. }
    2:{ right. split; [intros (ds' & u & C); apply Inv in C; destruct C as (_ & ws & _ & E); now apply N62 in E|].
      eapply no_ref; [reflexivity|]. apply no_act. eapply (no_seq_c H G [_; _; _] _ _); [exact S2|].
      change (R ">") with [62%N]. destruct u1 as [|x u1]; [apply no_lit_end; discriminate|]. apply no_lit1. intros EQ. apply (N62 u1). f_equal. now symmetry. }
    destruct (span_blanks u2) as (ws & u & -> & W & Hu).
    set (b1 := rev ws ++ 62%N :: rev ds ++ 60%N :: b).
    assert (exists vs, Seq_ [EPred (PHost "return c.isSubstitutionEnabled(Callouts), nil"); ELit [60%N] false; ELab "ref" atoiE; ELit [62%N] false; EStar x_Space] (Pos b (60%N :: ds ++ 62%N :: ws ++ u)) [] c vs
       (Pos b1 u) en1 c) as (vs & S3).
    { eexists. econstructor; [apply Op|]. econstructor; [apply (ok_lit H G [60%N])|]. econstructor; [eapply ok_lab, ok_atoiE; auto|].
      econstructor; [apply (ok_lit H G [62%N] (ws ++ u))|]. econstructor; [apply ok_Spaces0; auto|constructor]. }
    assert (forall ds' u', callout (60%N :: ds ++ 62%N :: ws ++ u) ds' u' -> ds' = ds /\ u' = u) as Inv'.
    { intros ds' u' C. pose proof C as C'. apply Inv in C. destruct C as (-> & ws' & W' & E). split; auto. injection E as E. apply (span_eq blankb) in E.
      - now destruct E.
      - intros x Ix. apply blankb_spec. eapply Forall_forall in W; eauto.
      - intros x Ix. apply blankb_spec. eapply Forall_forall in W'; eauto.
      - exact Hu.
      - apply callout_shape in C'. destruct C' as (_ & _ & _ & _ & _ & Hu'). destruct u' as [|r u']; cbn; auto. destruct Hu' as [->|[->| ->]]; reflexivity. }
    assert (forall v, Ok_ tailE (Pos b1 u) en1 c v (Pos b1 u) en1 c -> callout (60%N :: ds ++ 62%N :: ws ++ u) ds u ->
      exists ds0 u0 b', callout (60%N :: ds ++ 62%N :: ws ++ u) ds0 u0 /\ Ok_ (ERef "Callout") (Pos b (60%N :: ds ++ 62%N :: ws ++ u)) [] c (elem (Callout (number ds0))) (Pos b' u0) [] c) as Yes.
    { intros v O C. exists ds, u, b1. split; auto. eapply ok_ref; [reflexivity|]. eapply ok_act.
      - apply ok_seq. eapply (seq_app [_; _; _; _; _] [_]); [exact S3|]. econstructor; [exact O|constructor].
      - eapply act_known; [reflexivity|]. intros s Es Et. unfold run_akind. cbn [label String.eqb Ascii.eqb Bool.eqb en1].
        apply core_store in Es. now destruct Es as [-> _]. }
    destruct u as [|x u].
    { left. eapply Yes; [eapply ok_and_c; apply ok_alt_c; [now apply no_Newline|eapply ok_alt_here, ok_EOF]|]. now constructor. }
    destruct (eolb x) eqn:Ex.
    { left. destruct (ok_Newline x u b1 [] Ex) as (v & b' & t' & O). eapply Yes; [eapply ok_and_c, ok_alt_here, O|]. constructor; auto.
      unfold eolb in Ex. rewrite orb_true_iff, !N.eqb_eq in Ex. exact Ex. }
    destruct (IH (x :: u) b1) as [(ds' & u' & b' & C & O)|[Nc N]].
    { revert Ln. cbn [List.length]. rewrite !app_length. cbn [List.length]. rewrite app_length. cbn [List.length]. lia. }
    { apply (small_suffix (60%N :: ds ++ 62%N :: ws)). cbn [app]. rewrite <- app_assoc. exact Sm. }
    - left. eapply Yes; [|eapply callout_more; eauto]. eapply ok_and_c. apply ok_alt_c; [now apply no_Newline|]. apply ok_alt_c; [apply no_EOF|].
      eapply ok_alt_here. exact O.
    - right. split.
      + intros (ds' & u' & C). pose proof (Inv' _ _ C) as [-> ->]. apply Nc. remember (60%N :: ds ++ 62%N :: ws ++ x :: u) as t eqn:Et. remember (x :: u) as xu.
        destruct C as [? ? ? ? ? ? Hend|? ? ? ds' u' ? ? ? C]; subst.
        * unfold eolb in Ex. rewrite orb_false_iff, !N.eqb_neq in Ex. tauto.
        * eauto.
      + eapply no_ref; [reflexivity|]. apply no_act. eapply (no_seq_c H G [_; _; _; _; _] _ []); [exact S3|].
        apply no_and_c. apply no_alt_c; [now apply no_Newline|]. apply no_alt_c; [apply no_EOF|]. apply no_alt_c; [exact N|apply no_alt_nil].
  Qed.

  (** one element *)
  Inductive carries : value (hv X) -> list item -> Prop :=
  | car_str : forall w, w <> [] -> carries (Peg.VStr w) (map Char w)
  | car_elem : forall w, w <> [] -> carries (elem (StringElement (encode_runes w))) (map Char w)
  | car_other : forall v, solid v -> carries (elem v) [Elem v].
  Definition alts : list expr :=
    [x_InlineText; x_Spaces; ERef "Replacement"; x_TypographicQuote; x_TypographicQuote_2; x_Punctuation; x_Newline; x_AttributeReference;
     ERef "Quote"; ERef "InlineMacro"; ERef "Callout"; x_SpecialCharacter; x_LineBreak; ERef "InlinePassthrough"; x_ElementPlaceHolder; x_AnyChar].
  Definition done (t : list rune) (its : list item) (l : list expr) (b : list rune) : Prop :=
    exists v its0 its' w t' b', t = w ++ t' /\ w <> [] /\ its = its0 ++ its' /\ verbatim sp co t' its' /\ carries v its0 /\
      Ok_ (EAlt l) (Pos b t) [] c v (Pos b' t') [] c.
  Lemma done_next : forall e l t its b, No_ e (Pos b t) [] c c -> done t its l b -> done t its (e :: l) b.
  Proof.
    intros e l t its b N (v & its0 & its' & w & t' & b' & E1 & E2 & E3 & E4 & E5 & O). exists v, its0, its', w, t', b'. repeat split; auto.
    apply ok_alt_c; auto.
  Qed.
  Lemma done_reads : forall e l t its b, verbatim sp co t its -> reads e t -> (No_ e (Pos b t) [] c c -> done t its l b) -> done t its (e :: l) b.
  Proof.
    intros e l t its b V R D. destruct (R b) as [N|(v & w & t' & en' & -> & Ne & F & Ev & O)]; [apply done_next; auto|].
    destruct (verb_chars _ _ _ _ _ F V) as (its' & -> & V'). exists v, (map Char w), its', w, t', (rev w ++ b). repeat split; auto.
    - destruct Ev as [->| ->]; now constructor.
    - eapply ok_alt_here. exact O.
  Qed.
  Lemma element_ok : forall r t its b, no_escaped_apostrophe (cls "L") (r :: t) -> r <> 65533%N -> small_numbers (r :: t) ->
    verbatim sp co (r :: t) its -> done (r :: t) its alts b.
  Proof.
    intros r t its b Ea Nr Sm V. unfold alts.
    apply done_reads; auto using reads_Text. intros _. apply done_reads; auto using reads_Spaces. intros _.
    apply done_next; [apply no_Replacement|]. apply done_next; [now apply no_Escaped|]. apply done_next; [apply no_Quote2|].
    apply done_reads; auto using reads_Punctuation.
    intros _. apply done_reads; auto using reads_Newline. intros Nn.
    assert (eolb r = false) as Er.
    { destruct (eolb r) eqn:Er; auto. exfalso. destruct (ok_Newline r t b [] Er) as (v & b' & t' & O).
      destruct (Nn (Soft [] [] false g None) eq_refl) as (s1 & R1 & _). destruct (O (Soft [] [] false g None) eq_refl) as (s2 & R2 & _).
      pose proof (runs_fun _ _ _ _ _ _ _ _ R1 R2). discriminate. }
    apply done_next; [apply no_Attribute|]. apply done_next; [apply no_Quote|]. apply done_next; [apply no_InlineMacro|].
    assert ((exists ds u b', callout (r :: t) ds u /\ co = true /\ Ok_ (ERef "Callout") (Pos b (r :: t)) [] c (elem (Callout (number ds))) (Pos b' u) [] c) \/
      ((co = true -> ~ exists ds u, callout (r :: t) ds u) /\ No_ (ERef "Callout") (Pos b (r :: t)) [] c c)) as [(ds & u & b' & C & Co & O)|[Nc N]].
    { destruct (Bool.bool_dec co true) as [Co|Co].
      - destruct (callout_run Co _ (r :: t) b (le_n _) Sm) as [(ds & u & b' & C & O)|[Nc N]]; [left; exists ds, u, b'; auto|right; auto].
      - right. split; [tauto|]. eapply no_ref; [reflexivity|]. apply no_act, no_seq1_c. apply no_pred.
        pose proof (pred_sub "return c.isSubstitutionEnabled(Callouts), nil" _ [] eq_refl) as Q. cbn beta in Q.
        rewrite sub_on in Q. fold co in Q. destruct co; [congruence|exact Q]. }
    { inversion V as [|? ds' u' its' _ C' V'|? ? its' Nc V']; subst; [|now elim (Nc Co); eauto].
      destruct (callout_fun _ _ _ _ _ C C') as [<- <-]. pose proof (callout_shape _ _ _ C) as (_ & _ & ws & _ & E & _).
      exists (elem (Callout (number ds))), [Elem (Callout (number ds))], its', (60%N :: ds ++ 62%N :: ws), u, b'. repeat split; auto.
      - rewrite E. cbn [app]. now rewrite <- app_assoc.
      - discriminate.
      - now constructor.
      - eapply ok_alt_here. exact O. }
    apply done_next; auto. inversion V as [|? ds' u' its' Co C' V'|? ? its' _ V']; subst; [now elim (Nc Co); eauto|].
    pose proof (pred_sub "return c.isSubstitutionEnabled(SpecialCharacters), nil" _ [] eq_refl) as Q. cbn beta in Q. rewrite sub_on in Q. fold sp in Q.
    destruct (sp && special_char r) eqn:Sp.
    { apply andb_prop in Sp. destruct Sp as [Sp Sr]. rewrite Sp in Q.
      exists (elem (SpecialCharacter (encode_runes [r]))), [Elem (SpecialCharacter (encode_runes [r]))], its', [r], t, (r :: b). repeat split; auto; [discriminate|now constructor|].
      eapply ok_alt_here. eapply ok_act with (en' := [("element"%string, elem (SpecialCharacter (encode_runes [r])))] : labels (hv X)) (c1 := c); [|exact (act_label H "element" [("element"%string, elem (SpecialCharacter (encode_runes [r])))] _ c)]. apply ok_seq. econstructor; [apply ok_pred; exact Q|]. econstructor; [|constructor].
      eapply ok_lab. eapply ok_act with (c1 := c).
      - apply ok_cls. unfold in_cls. cbn [existsb known_class negb]. rewrite !orb_false_r. unfold special_char in Sr. rewrite orb_assoc. exact Sr.
      - rewrite slice_cons. eapply act_known; [reflexivity|]. intros s Es Et. unfold run_akind. rewrite Et. apply core_store in Es. now destruct Es as [-> _]. }
    assert (No_ x_SpecialCharacter (Pos b (r :: t)) [] c c) as Ns.
    { apply no_act. destruct sp; [|apply no_seq1_c, no_pred, Q]. cbn [andb] in Sp.
      eapply (no_seq_c H G [_] _ []); [econstructor; [apply ok_pred; exact Q|constructor]|]. apply no_lab, no_act, no_cls.
      unfold in_cls. cbn [existsb negb]. rewrite !orb_false_r. unfold special_char in Sp. rewrite orb_assoc. exact Sp. }
    apply done_next; auto. apply done_next; [apply no_LineBreak|]. apply done_next; [apply no_Passthrough|]. apply done_next; [now apply no_PlaceHolder|].
    exists (Peg.VStr [r]), [Char r], its', [r], t, (r :: b). repeat split; auto; [discriminate|now apply (car_str [r])|].
    eapply ok_alt_here. eapply ok_act with (c1 := c); [apply ok_cls; etransitivity; [apply in_eol|exact Er]|]. rewrite slice_cons. apply act_text.
  Qed.

  Definition bodyE : expr := EAct (AThen "c.trackElement(element)" "element") (ESeq [x_NotEOF; ELab "element" (EAlt alts)]).
  Lemma last_byte_some : forall w, w <> [] -> exists n, last_byte w = Some n.
  Proof.
    intros w Ne. unfold last_byte. destruct (rev w) as [|r l] eqn:E.
    - apply (f_equal (@rev rune)) in E. rewrite rev_involutive in E. now subst w.
    - destruct (srev (encode_rune r)) as [|a s] eqn:Es; [|eexists; reflexivity]. exfalso. revert Es. unfold encode_rune.
      repeat match goal with |- context [if ?b then _ else _] => destruct b end; discriminate.
  Qed.
  Lemma body_ok : forall r t its b, no_escaped_apostrophe (cls "L") (r :: t) -> r <> 65533%N -> small_numbers (r :: t) ->
    verbatim sp co (r :: t) its -> exists v its0 its' w t' b' en' n, r :: t = w ++ t' /\ w <> [] /\ its = its0 ++ its' /\ verbatim sp co t' its' /\ carries v its0 /\
      Ok_ bodyE (Pos b (r :: t)) [] c v (Pos b' t') en' (false, set_suffix g (Some n), None).
  Proof.
    intros r t its b Ea Nr Sm V. destruct (element_ok r t its b Ea Nr Sm V) as (v & its0 & its' & w & t' & b' & E1 & E2 & E3 & E4 & E5 & O).
    destruct (last_byte_some w E2) as (n & Ln). exists v, its0, its', w, t', b', [("element"%string, v)], n. repeat split; auto.
    eapply ok_act with (c1 := c) (en' := [("element"%string, v)] : labels (hv X)).
    - apply ok_seq. econstructor; [apply ok_NotEOF|]. econstructor; [eapply ok_lab; exact O|constructor].
    - replace v with (updated H (label [("element"%string, v)] "element") Peg.VNil : value (hv X)) at 2 by (destruct E5; reflexivity).
      apply act_then. intros s Es Et. change (h_act H) with (go_act X white other). unfold go_act.
      assert (assoc known_acts "c.trackElement(element)" = Some KTrack) as -> by reflexivity.
      rewrite E1, slice_app in Et. destruct s as [ct cp ce cg cs]. cbn [c_text] in Et. subst ct.
      apply core_store in Es. destruct Es as [Es _]. cbn [c_store] in Es. subst cg. cbn [run_akind c_text c_store]. now rewrite Ln.
  Qed.
End At.

  Lemma apostrophe_suffix : forall f a t, no_escaped_apostrophe f (a ++ t) -> no_escaped_apostrophe f t.
  Proof. intros f a t N (x & r & y & -> & E). apply N. exists (a ++ x), r, y. split; auto. now rewrite <- app_assoc. Qed.
  Lemma star_items : forall m t its, List.length t <= m -> no_escaped_apostrophe (cls "L") t -> ~ In 65533%N t -> small_numbers t -> verbatim sp co t its ->
    forall g b, st_subs g = Some subs -> exists vs itss b' g', Forall2 carries vs itss /\ its = List.concat itss /\ (t <> [] -> vs <> []) /\
      Star_ bodyE (Pos b t) (false, g, None) vs (Pos b' []) (false, g', None).
  Proof.
    induction m as [|m IH]; intros t its L Ea Ne Sm V g b Hg.
    - destruct t; [|cbn in L; lia]. inversion V as [|? ? ? ? ? C|]; subst; [|apply callout_shape in C; destruct C as (_ & _ & ? & _ & E & _); discriminate].
      exists [], [], b, g. repeat split; auto. apply star_stop. apply no_act, no_seq1_c, no_NotEOF.
    - destruct t as [|r t].
      { inversion V as [|? ? ? ? ? C|]; subst; [|apply callout_shape in C; destruct C as (_ & _ & ? & _ & E & _); discriminate].
        exists [], [], b, g. repeat split; auto. apply star_stop. apply no_act, no_seq1_c, no_NotEOF. }
      destruct (body_ok g Hg r t its b Ea) as (v & its0 & its' & w & t' & b1 & en1 & n & Et & Nw & -> & V' & Cv & O); auto.
      { intros ->. apply Ne. now left. }
      destruct (IH t' its') with (g := set_suffix g (Some n)) (b := b1) as (vs & itss & b' & g' & F & -> & _ & Q); auto.
      + apply (f_equal (@List.length rune)) in Et. rewrite app_length in Et. destruct w; [congruence|]. cbn in *. lia.
      + apply (apostrophe_suffix _ w). now rewrite <- Et.
      + intros I. apply Ne. rewrite Et. apply in_or_app. now right.
      + apply (small_suffix w). now rewrite <- Et.
      + exists (v :: vs), (its0 :: itss), b', g'. split; [constructor; auto|split; [reflexivity|split; [intros _ EQ; discriminate EQ|eapply star_more; eauto]]].
  Qed.
  Lemma carries_vals : forall vs itss, Forall2 carries vs itss -> exists l, vals X (Peg.VList vs) = Some l /\ Forall2 contrib l itss /\ (vs <> [] -> l <> []).
  Proof.
    intros vs itss F. unfold vals. cbn [to_val].
    match goal with |- context [option_map VSlice ?x] => assert (exists l, x = Some l /\ Forall2 contrib l itss /\ (vs <> [] -> l <> [])) as (l & -> & A) end; [|exists l; auto].
    induction F as [|v its vs itss C F (l & E & A & _)]; [exists []; repeat split; auto|].
    assert (exists a, to_val X v = Some a /\ contrib a its) as (a & Ea & Ca).
    { destruct C as [w Nw|w Nw|v Hv]; eexists; (split; [reflexivity|now constructor]). }
    exists (a :: l). rewrite Ea, E. repeat split; auto. discriminate.
  Qed.
  Lemma group_ok : forall g text its b, st_subs g = Some subs -> text <> [] -> no_escaped_apostrophe (cls "L") text -> ~ In 65533%N text -> small_numbers text ->
    verbatim sp co text its -> exists b' g', Ok_ (ERef "NormalGroup") (Pos b text) [] (false, g, None) (Peg.VList (map elem (grouped [] its))) (Pos b' []) [] (false, g', None).
  Proof.
    intros g text its b Hg Ne Ea N65 Sm V.
    destruct (star_items _ text its (le_n _) Ea N65 Sm V g b Hg) as (vs & itss & b' & g' & F & -> & Nv & Q).
    destruct (carries_vals _ _ F) as (l & El & Fl & Nl).
    exists b', g'. eapply ok_ref; [reflexivity|]. eapply ok_act with (en' := [("elements"%string, Peg.VList vs)] : labels (hv X)) (c1 := (false, g', None)).
    - apply ok_seq. econstructor; [eapply ok_lab; apply ok_plus; [exact Q|now apply Nv]|]. econstructor; [apply ok_EOF|constructor].
    - eapply act_known; [reflexivity|]. intros s Es Et. unfold run_akind. cbn [label String.eqb Ascii.eqb Bool.eqb].
      rewrite El. apply core_store in Es. destruct Es as [-> _]. do 4 f_equal. rewrite (newInlineElements_items _ _ Fl) by auto. reflexivity.
  Qed.
End Inline.

(** every text has such a reading *)
Lemma callout_dec : forall n t, List.length t <= n -> (exists ds u, callout t ds u) \/ ~ exists ds u, callout t ds u.
Proof.
  induction n as [|n IH]; intros t L.
  - right. intros (ds & u & C). apply callout_shape in C. destruct C as (_ & _ & ws & _ & -> & _). cbn in L. lia.
  - destruct t as [|r t]; [right; intros (ds & u & C); apply callout_shape in C; destruct C as (_ & _ & ws & _ & E & _); discriminate|].
    destruct (N.eq_dec r 60) as [->|Nr]; [|right; intros (ds & u & C); apply callout_head in C; now apply Nr].
    destruct (span_text digitb t) as (ds & u1 & -> & Ad & Hu1).
    assert (Forall digit ds) as D by (apply Forall_forall; intros x Ix; apply digitb_spec; auto).
    assert (forall ds' u, callout (60%N :: ds ++ u1) ds' u -> ds' = ds /\ exists ws, blanks ws /\ u1 = 62%N :: ws ++ u) as Inv.
    { intros ds' u C. apply callout_shape in C. destruct C as (_ & D' & ws & W & E & _). injection E as E. apply (span_eq digitb) in E; auto.
      - destruct E as [-> ->]. split; auto. exists ws. auto.
      - intros x Ix. apply digitb_spec. eapply Forall_forall in D'; eauto.
      - reflexivity. }
    destruct ds as [|d0 ds0].
    { right. intros (ds & u & C). pose proof C as C'. apply Inv in C'. destruct C' as [-> _]. apply callout_shape in C. now destruct C as [C _]. }
    set (ds := d0 :: ds0) in *. assert (ds <> []) as Nd by discriminate. clearbody ds.
    assert ((exists u2, u1 = 62%N :: u2) \/ forall u2, u1 <> 62%N :: u2) as [(u2 & ->)|N62].
    { destruct u1 as [|x u1]; [right; discriminate|]. destruct (N.eq_dec x 62) as [->|Nx]; [left; eexists; reflexivity|right; congruence]. }
    2:{ right. intros (ds' & u & C). apply Inv in C. destruct C as (_ & ws & _ & E). now apply N62 in E. }
    destruct (span_blanks u2) as (ws & u & -> & W & Hu).
    assert (forall ds' u', callout (60%N :: ds ++ 62%N :: ws ++ u) ds' u' -> ds' = ds /\ u' = u) as Inv'.
    { intros ds' u' C. pose proof C as C'. apply Inv in C. destruct C as (-> & ws' & W' & E). split; auto. injection E as E. apply (span_eq blankb) in E.
      - now destruct E.
      - intros x Ix. apply blankb_spec. eapply Forall_forall in W; eauto.
      - intros x Ix. apply blankb_spec. eapply Forall_forall in W'; eauto.
      - exact Hu.
      - apply callout_shape in C'. destruct C' as (_ & _ & _ & _ & _ & Hu'). destruct u' as [|r u']; cbn; auto. destruct Hu' as [->|[->| ->]]; reflexivity. }
    destruct u as [|x u]; [left; exists ds, []; now constructor|].
    destruct (eolb x) eqn:Ex.
    { left. exists ds, (x :: u). constructor; auto. unfold eolb in Ex. rewrite orb_true_iff, !N.eqb_eq in Ex. exact Ex. }
    destruct (IH (x :: u)) as [(ds' & u' & C)|Nc].
    { revert L. cbn [List.length]. rewrite !app_length. cbn [List.length]. rewrite app_length. cbn [List.length]. lia. }
    + left. exists ds, (x :: u). eapply callout_more; eauto.
    + right. intros (ds' & u' & C). pose proof (Inv' _ _ C) as [-> ->]. apply Nc. remember (60%N :: ds ++ 62%N :: ws ++ x :: u) as t eqn:Et. remember (x :: u) as xu.
      destruct C as [? ? ? ? ? ? Hend|? ? ? ds' u' ? ? ? C]; subst.
      * unfold eolb in Ex. rewrite orb_false_iff, !N.eqb_neq in Ex. tauto.
      * eauto.
Qed.
Theorem C67_every_text : forall special callouts text, exists its, verbatim special callouts text its.
Proof.
  intros sp co. assert (forall n text, List.length text <= n -> exists its, verbatim sp co text its) as A; [|intros text; now apply (A _ text (le_n _))].
  induction n as [|n IH]; intros t L; [destruct t; [exists []; constructor|cbn in L; lia]|].
  destruct t as [|r t]; [exists []; constructor|].
  destruct (callout_dec _ (r :: t) (le_n _)) as [(ds & u & C)|Nc].
  - destruct co eqn:Co.
    + destruct (IH u) as (its & V).
      { pose proof (callout_shape _ _ _ C) as (_ & _ & ws & _ & E & _). apply (f_equal (@List.length rune)) in E. cbn [List.length] in *. rewrite !app_length in E. cbn [List.length] in E. rewrite app_length in E. lia. }
      eexists. eapply verb_callout; eauto.
    + destruct (IH t) as (its & V); [cbn in L; lia|]. eexists. apply verb_char; [discriminate|exact V].
  - destruct (IH t) as (its & V); [cbn in L; lia|]. eexists. apply verb_char; [auto|exact V].
Qed.
(** and only one *)
Theorem C67_one_reading : forall special callouts text its its', verbatim special callouts text its -> verbatim special callouts text its' -> its = its'.
Proof.
  intros sp co text its its' V. revert its'. induction V as [|t ds u its Co C V IH|r t its Nc V IH]; intros its' V'.
  - inversion V' as [|? ? ? ? ? C|]; subst; auto. apply callout_shape in C. destruct C as (_ & _ & ? & _ & E & _). discriminate.
  - inversion V' as [|? ds' u' its2 _ C' V2|r t' its2 Nc V2]; subst.
    + apply callout_shape in C. destruct C as (_ & _ & ? & _ & E & _). discriminate.
    + destruct (callout_fun _ _ _ _ _ C C') as [<- <-]. f_equal. now apply IH.
    + exfalso; apply Nc; eauto.
  - inversion V' as [|? ds' u' its2 Co C' V2|r' t' its2 _ V2]; subst; [exfalso; apply Nc; eauto|]. f_equal. now apply IH.
Qed.
(** C67 *)
Theorem C67_verbatim_inline : forall X cls low white other, let H := go_host X cls low white other in unicode_ok H ->
  forall subs g text its, st_subs g = Some subs -> verbatim_subs subs ->
  text <> [] -> no_escaped_apostrophe (cls "L"%string) text -> ~ In 65533%N text -> small_numbers text ->
  verbatim (existsb (String.eqb SpecialCharacters) subs) (existsb (String.eqb Callouts) subs) text its ->
  exists n0 before s, p_errs s = false /\ forall n, n0 <= n ->
    parse H the_grammar n "NormalGroup" text g = Some (@ROk H (VList (map (@elem X) (grouped [] its))) (Pos before []) [] s).
Proof.
  intros X cls low white other H U subs g text its Hg Vs Ne Ea N65 Sm V.
  destruct (group_ok X cls low white other U subs Vs g text its [] Hg Ne Ea N65 Sm V) as (b' & g' & O).
  destruct (O (Soft [] [] false g None) eq_refl) as (s & (n & Rn) & Es).
  exists n, b', s. split; [exact (f_equal (fun c => fst (fst c)) Es)|]. intros m L. exact (eval_mono H the_grammar n m L _ _ _ _ _ Rn).
Qed.

(** without callouts nothing of the text is lost: the contents of the elements, one after the other,
    are the text *)
Definition content_of (v : val) : string := match v with StringElement s | SpecialCharacter s => s | _ => ""%string end.
Definition contents (l : list val) : string := fold_right (fun v s => (content_of v ++ s)%string) ""%string l.
Lemma contents_app : forall a b, contents (a ++ b) = (contents a ++ contents b)%string.
Proof. intros a b. induction a as [|v a IH]; [reflexivity|]. unfold contents in *. cbn [app fold_right]. now rewrite IH, sapp_assoc. Qed.
Lemma contents_text_of : forall l, contents (text_of l) = encode_runes l.
Proof. intros [|r l]; [reflexivity|]. unfold contents, text_of. cbn [fold_right content_of]. apply sapp_nil. Qed.
Lemma contents_grouped : forall special text its, verbatim special false text its -> forall run, contents (grouped run its) = encode_runes (run ++ text).
Proof.
  intros special text its V. induction V as [|t ds u its Co|r t its _ V IH]; intros run; [|discriminate|].
  - cbn [grouped]. now rewrite contents_text_of, app_nil_r.
  - destruct (special && special_char r) eqn:E; cbn [grouped].
    + rewrite contents_app, contents_text_of. unfold contents at 1. cbn [fold_right content_of]. fold (contents (grouped [] its)). rewrite IH. cbn [app].
      rewrite encode_runes_app. f_equal. rewrite <- encode_runes_app. reflexivity.
    + rewrite IH. now rewrite <- app_assoc.
Qed.
Theorem C67_nothing_lost : forall special text its, verbatim special false text its -> contents (grouped [] its) = encode_runes text.
Proof. intros special text its V. exact (contents_grouped _ _ _ V []). Qed.
(** with no substitution at all, the text is one string *)
Theorem C67_no_substitution : forall text its, text <> [] -> verbatim false false text its -> grouped [] its = [StringElement (encode_runes text)].
Proof.
  intros text its Ne V. assert (forall run, run ++ text <> [] -> grouped run its = [StringElement (encode_runes (run ++ text))]) as A; [|now apply (A [])].
  clear Ne. induction V as [|t ds u its Co|r t its _ V IH]; intros run Ne; [|discriminate|].
  - rewrite app_nil_r in *. cbn [grouped]. destruct run; [congruence|reflexivity].
  - cbn [andb grouped]. rewrite IH; rewrite <- app_assoc; [reflexivity|]. destruct run; discriminate.
Qed.

(** * A listing *)
Definition a_listing : list rune := R "if a<b { f(x[1], *p) } // {v} <1> <2>
it's 3 <4 & <5>6".
Definition verbatim_store (subs : list string) : gstore := GStore None None None None None (Some subs) None None [] None.
Definition elements_of (subs : list string) (text : list rune) : option (list val * bool) :=
  match parse demo_go the_grammar 60 "NormalGroup" text (verbatim_store subs) with
  | Some (ROk v _ _ s) => match (v : value (hv Empty_set)) with
                          | Peg.VList l => Some (flat_map (fun x => match x with Peg.VHost (HVal v) => [v] | _ => [] end) l, p_errs s)
                          | _ => None
                          end
  | _ => None
  end.
Theorem C67_listing_example : elements_of verbatimSubstitutions a_listing = Some
  ([ StringElement "if a"; SpecialCharacter "<"; StringElement "b { f(x[1], *p) } // {v} "; Callout 1; Callout 2;
     StringElement (LF ++ "it's 3 "); SpecialCharacter "<"; StringElement "4 "; SpecialCharacter "&"; StringElement " ";
     SpecialCharacter "<"; StringElement "5"; SpecialCharacter ">"; StringElement "6" ], false).
Proof. vm_compute. reflexivity. Qed.
Definition apostropheb (t : list rune) : bool :=
  (fix go (t : list rune) := match t with x :: ((y :: _) as r) => (N.eqb x 92 && N.eqb y 39) || go r | _ => false end) t.
Lemma apostropheb_spec : forall f t, apostropheb t = false -> no_escaped_apostrophe f t.
Proof.
  intros f t E (a & r & b & -> & _). induction a as [|x a IH]; [discriminate E|]. apply IH.
  destruct a as [|y a]; cbn [apostropheb app] in E |- *; apply orb_false_iff in E; apply E.
Qed.
Fixpoint digits_at (t : list rune) : list rune := match t with r :: t' => if digitb r then r :: digits_at t' else [] | [] => [] end.
Fixpoint smallb (t : list rune) : bool :=
  match t with [] => true | r :: t' => (negb (N.eqb r 60) || Z.leb (number (digits_at t')) 9223372036854775807) && smallb t' end.
Lemma number_grows : forall ds z, Forall digit ds -> (0 <= z)%Z -> (z <= fold_left (fun z d => 10 * z + Z.of_N d - 48) ds z)%Z.
Proof.
  induction ds as [|d ds IH]; intros z F L; cbn [fold_left]; [lia|]. inversion F as [|? ? D F']; subst. unfold digit in D.
  specialize (IH (10 * z + Z.of_N d - 48)%Z F' ltac:(lia)). lia.
Qed.
Lemma digits_at_prefix : forall ds b, Forall digit ds -> digits_at (ds ++ b) = ds ++ digits_at b.
Proof. induction ds as [|d ds IH]; intros b F; [reflexivity|]. inversion F as [|? ? D F']; subst. cbn [app digits_at]. apply digitb_spec in D. rewrite D, IH; auto. Qed.
Lemma digits_at_digits : forall t, Forall digit (digits_at t).
Proof. induction t as [|r t IH]; cbn [digits_at]; [constructor|]. destruct (digitb r) eqn:E; constructor; auto. now apply digitb_spec. Qed.
Lemma smallb_spec : forall t, smallb t = true -> small_numbers t.
Proof.
  intros t E a ds b Et D. subst t. induction a as [|x a IH]; cbn [app smallb] in E; apply andb_prop in E; destruct E as [E1 E2]; auto.
  cbn [N.eqb Pos.eqb negb orb] in E1. apply Z.leb_le in E1. rewrite digits_at_prefix in E1 by auto. unfold number in *. rewrite fold_left_app in E1.
  assert (0 <= fold_left (fun z d => 10 * z + Z.of_N d - 48) ds 0)%Z as L0 by (apply number_grows; [auto|lia]).
  eapply Z.le_trans; [exact (number_grows (digits_at b) _ (digits_at_digits b) L0)|exact E1].
Qed.
(** the hypotheses hold of this listing *)
Theorem C67_listing_hypotheses : verbatim_subs verbatimSubstitutions /\ a_listing <> [] /\ no_escaped_apostrophe (demo_cls "L") a_listing /\
  ~ In 65533%N a_listing /\ small_numbers a_listing.
Proof.
  split; [|split; [discriminate|split; [now apply apostropheb_spec|split]]].
  - intros k I J. cbn in I, J. repeat destruct I as [<-|I]; try (now destruct I); repeat destruct J as [J|J]; try discriminate J; auto.
  - intros I. vm_compute in I. repeat destruct I as [I|I]; try discriminate I; auto.
  - apply smallb_spec. reflexivity.
Qed.

(** * Not every text is kept *)
(** a backslash before an apostrophe and a letter disappears, whatever the substitutions *)
Theorem C67_escaped_apostrophe_refuted : elements_of verbatimSubstitutions (R "don\'t") = Some ([StringElement "don't"], false).
Proof. vm_compute. reflexivity. Qed.
(** a number that does not fit in an int after "<" is an error: the document is not converted *)
Theorem C67_big_number_refuted : match elements_of verbatimSubstitutions (R "x <9223372036854775808") with Some (_, e) => e | None => false end = true.
Proof. vm_compute. reflexivity. Qed.
Print Assumptions C67_verbatim_inline.
