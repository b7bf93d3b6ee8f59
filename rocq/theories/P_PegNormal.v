(** C68: the inline content of paragraphs made of ordinary text. *)
From Coq Require Import List String NArith ZArith Bool Ascii Arith Lia.
From Verif Require Import GoBase GoLemmas Utf8 Types Attrs Elements Merge MergeLemmas Subs Peg PegGrammar PegDoc PegHost PegSym PegBlockSpec PegInlineSpec P_PegTerm P_PegParse P_PegRun P_PegLines P_PegBlocks P_PegFragment P_PegPara P_PegDocs P_PegInline P_PegDodge.
Import ListNotations.
Local Open Scope list_scope.

(** * Merging *)
Definition dash : val := Symbol " -- ".
Inductive gives : list val -> list item -> Prop :=
| give_nil : gives [] []
| give_cons : forall v its0 vs its, contrib v its0 -> gives vs its -> gives (v :: vs) (its0 ++ its)
| give_dash : forall vs its, gives vs its -> gives (Types.VStr " " :: dash :: vs) (Elem dash :: its)
(** the rule of quoted texts has two parts, the first one without value *)
| give_pair : forall v vs its, solid v -> gives vs its -> gives (VSlice [Types.VNil; v] :: vs) (Elem v :: its).
Definition is_dash (v : val) : bool := match v with Symbol n => String.eqb n " -- " | _ => false end.
Lemma solid_dash : forall v, solid v -> is_dash v = false.
Proof. intros v S. destruct v; try reflexivity. cbn in *. now apply String.eqb_neq. Qed.
Lemma mdefault_dash : forall res s, mdefault (res, (s ++ " ")%string) dash = (res ++ [StringElement s; dash], ""%string).
Proof.
  intros res s. unfold mdefault, dash. cbn [String.eqb].
  assert (String.eqb (s ++ " ")%string "" = false) as -> by (destruct s; reflexivity).
  assert (has_suffix (s ++ " ")%string " " = true) as -> by (apply has_suffix_iff; eauto).
  cbn [Ascii.eqb Bool.eqb andb String.eqb]. do 3 f_equal. f_equal.
  pose proof (trim_suffix_app s " ") as T. unfold trim_suffix in T. 
  assert (has_suffix (s ++ " ")%string " " = true) as E by (apply has_suffix_iff; eauto). rewrite E in T. exact T.
Qed.
(** no blank is left before a dash *)
Fixpoint tight (p : option rune) (l : list item) : Prop :=
  match l with
  | [] => True
  | Char r :: l' => tight (Some r) l'
  | Elem v :: l' => (is_dash v = true -> p <> Some 32%N) /\ tight None l'
  end.
Definition last_of (l : list rune) : option rune := match rev l with [] => None | r :: _ => Some r end.
Lemma last_of_snoc : forall l r, last_of (l ++ [r]) = Some r.
Proof. intros l r. unfold last_of. now rewrite rev_app_distr. Qed.
Lemma last_of_app : forall a b, b <> [] -> last_of (a ++ b) = last_of b.
Proof. intros a b Ne. unfold last_of. rewrite rev_app_distr. destruct (rev b) as [|r l] eqn:E; [|reflexivity]. apply (f_equal (@rev rune)) in E. rewrite rev_involutive in E. now subst b. Qed.
Lemma tight_app : forall w its run, w <> [] -> tight (last_of run) (map Char w ++ its) -> tight (last_of (run ++ w)) its.
Proof.
  intros w its. induction w as [|r w IH]; intros run Ne T; [congruence|]. cbn [map app tight] in T. rewrite <- (last_of_snoc run r) in T.
  destruct w as [|x w]; [exact T|]. change (r :: x :: w) with ([r] ++ x :: w). rewrite app_assoc. apply IH; [discriminate|exact T].
Qed.
Definition item_ok (i : item) : Prop := match i with Elem v => solid v \/ v = dash | _ => True end.
Lemma encode_snoc_suffix : forall l, has_suffix (encode_runes l) " " = true -> last_of l = Some 32%N.
Proof.
  intros l S. apply has_suffix_iff in S. destruct S as (r & E). destruct l as [|x l] using rev_ind; [destruct r; discriminate|].
  rewrite last_of_snoc. rewrite encode_runes_app in E. clear IHl.
  assert (forall h s a, high h -> h <> ""%string -> (s ++ h)%string = (a ++ " ")%string -> False) as Hh.
  { intros h s. induction s as [|c s IHs]; intros a Hh Nh Q.
    - cbn in Q. revert a Q. induction h as [|c h IHh]; intros a Q; [congruence|]. destruct a as [|d a]; cbn in Q; injection Q as -> Q.
      + destruct Hh as [Hc _]. cbn in Hc. lia.
      + destruct h as [|c h]; [destruct a; discriminate|]. apply (IHh ltac:(destruct Hh; auto) ltac:(discriminate) _ Q).
    - destruct a as [|d a]; cbn in Q; injection Q as -> Q; [destruct s; [destruct h; [congruence|discriminate]|discriminate]|]. eapply IHs; eauto. }
  change (encode_runes [x]) with (encode_rune x ++ "")%string in E. rewrite sapp_nil in E.
  destruct (N.ltb_spec x 128) as [L|L].
  - assert (encode_rune x = String (ascii_of_N x) "") as Ex. { unfold encode_rune. destruct (N.ltb_spec x 128); [reflexivity|lia]. }
    rewrite Ex in E. f_equal. assert (ascii_of_N x = " "%char) as Ea.
    { revert r E. generalize (encode_runes l). intros s. induction s as [|c s IHs]; intros [|d r] E; cbn in E.
      - now injection E.
      - destruct r; discriminate.
      - destruct s; discriminate.
      - injection E as _ E. eauto. }
    apply (f_equal N_of_ascii) in Ea. rewrite N_ascii_embedding in Ea by lia. exact Ea.
  - exfalso. eapply Hh; [apply encode_high, L| |exact E]. apply encode_rune_nonempty.
Qed.
Lemma mdefault_dash2 : forall res s, has_suffix s " " = false -> mdefault (res, s) dash = (if String.eqb s "" then res ++ [dash] else res ++ [StringElement s; dash], ""%string).
Proof. intros res s E. unfold mdefault, dash. destruct (String.eqb s ""); [reflexivity|]. rewrite E, andb_false_r. reflexivity. Qed.
Lemma flat_text : forall run l res, fold_left mflat_step (text_of run ++ l) (res, ""%string) = fold_left mflat_step l (res, encode_runes run).
Proof. intros [|r run] l res; reflexivity. Qed.
(** what is merged already, [res], is merged again from time to time, and at the end: [done] is what it becomes *)
Lemma mloop_gives : forall vs its, gives vs its -> forall res run done, tight (last_of run) its ->
  fold_left mflat_step res ([], ""%string) = (done, ""%string) -> fold_left mflat_step done ([], ""%string) = (done, ""%string) ->
  mergeFlat (mflush (mloop vs (res, encode_runes run))) = done ++ grouped run its.
Proof.
  assert (forall res run done, fold_left mflat_step res ([], ""%string) = (done, ""%string) ->
    fold_left mflat_step (res ++ text_of run) ([], ""%string) = (done, encode_runes run)) as Tx.
  { intros res run done E. rewrite fold_left_app, E. rewrite <- (app_nil_r (text_of run)), flat_text. reflexivity. }
  assert (forall res run done v, solid v -> fold_left mflat_step res ([], ""%string) = (done, ""%string) ->
    fold_left mflat_step (res ++ text_of run ++ [v]) ([], ""%string) = (done ++ text_of run ++ [v], ""%string)) as So.
  { intros res run done v Hv E. rewrite app_assoc, fold_left_app, (Tx _ _ _ E). cbn [fold_left]. destruct (solid_step v (done, encode_runes run) Hv) as [_ ->].
    rewrite solid_default by exact Hv. destruct run as [|r run]; [reflexivity|]. now rewrite encode_nonempty by discriminate. }
  intros vs its F. induction F as [|v its0 vs its C F IH|vs its F IH|v vs its Hv F IH]; intros res run done T E1 E2.
  - cbn [mloop grouped]. rewrite mflush_runs. unfold mergeFlat. rewrite (Tx _ _ _ E1). apply mflush_runs.
  - cbn [mloop]. destruct C as [w Ne|w Ne|v Hv].
    + cbn [mstep fst snd]. rewrite grouped_chars, <- encode_runes_app. apply IH; auto. now apply tight_app.
    + cbn [mstep fst snd]. rewrite grouped_chars, <- encode_runes_app. apply IH; auto. now apply tight_app.
    + cbn [app grouped tight] in *. destruct T as [_ T].
      assert (mstep v (res, encode_runes run) = (res ++ text_of run ++ [v], ""%string)) as ->.
      { destruct (solid_step v (res, encode_runes run) Hv) as [-> _]. rewrite solid_default by exact Hv.
        destruct run as [|r run]; [reflexivity|]. now rewrite encode_nonempty by discriminate. }
      etransitivity; [exact (IH _ [] (done ++ text_of run ++ [v]) T (So _ _ _ _ Hv E1) (So _ _ _ _ Hv E2))|now rewrite <- !app_assoc].
  - cbn [mloop]. cbn [mstep fst snd]. change (mstep dash (res, (encode_runes run ++ " ")%string)) with (mdefault (res, (encode_runes run ++ " ")%string) dash).
    rewrite mdefault_dash. cbn [grouped tight] in *. destruct T as [Td T]. specialize (Td eq_refl).
    assert (forall res done, fold_left mflat_step res ([], ""%string) = (done, ""%string) ->
      fold_left mflat_step (res ++ [StringElement (encode_runes run); dash]) ([], ""%string) = (done ++ text_of run ++ [dash], ""%string)) as D1.
    { intros res0 done0 E. rewrite fold_left_app, E. cbn [fold_left].
      change (mflat_step (done0, ""%string) (StringElement (encode_runes run))) with (done0, encode_runes run).
      change (mflat_step (done0, encode_runes run) dash) with (mdefault (done0, encode_runes run) dash).
      rewrite mdefault_dash2. 2:{ destruct (has_suffix (encode_runes run) " ") eqn:Es; auto. apply encode_snoc_suffix in Es. congruence. }
      destruct run as [|r run]; cbn [text_of app]; [reflexivity|]. now rewrite encode_nonempty by discriminate. }
    assert (fold_left mflat_step (done ++ text_of run ++ [dash]) ([], ""%string) = (done ++ text_of run ++ [dash], ""%string)) as D2.
    { destruct run as [|r run]; [|exact (D1 _ _ E2)]. cbn [text_of app]. rewrite fold_left_app, E2. reflexivity. }
    etransitivity; [exact (IH _ [] (done ++ text_of run ++ [dash]) T (D1 _ _ E1) D2)|now rewrite <- !app_assoc].
  - cbn [mloop grouped tight] in *. destruct T as [_ T]. rewrite mstep_slice.
    assert (mergeFlat (mflush (res, encode_runes run) ++ merge [Types.VNil; v]) = done ++ text_of run ++ [v]) as ->.
    { assert (merge [Types.VNil; v] = [v]) as ->.
      { unfold merge. cbn [mloop mstep]. destruct (solid_step v ([], ""%string) Hv) as [-> _]. rewrite solid_default by exact Hv. reflexivity. }
      rewrite mflush_runs, <- app_assoc. unfold mergeFlat. rewrite (So _ _ _ _ Hv E1). reflexivity. }
    etransitivity; [exact (IH _ [] (done ++ text_of run ++ [v]) T (So _ _ _ _ Hv E2) (So _ _ _ _ Hv E2))|now rewrite <- !app_assoc].
Qed.
Lemma gives_ok : forall vs its, gives vs its -> Forall item_ok its.
Proof.
  intros vs its F. induction F as [|v its0 vs its C F IH|vs its F IH|v vs its Hv F IH]; [constructor| |constructor; auto; right; reflexivity|constructor; [now left|exact IH]]. apply Forall_app. split; auto.
  destruct C as [w _|w _|v Hv]; [| |repeat constructor; auto]; apply Forall_forall; intros i I; apply in_map_iff in I; destruct I as (r & <- & _); exact Logic.I.
Qed.
Lemma grouped_no_break : forall its, Forall item_ok its -> forall run, Forall (fun v => v <> LineBreak) (grouped run its).
Proof.
  intros its F. induction F as [|i its Hi F IH]; intros run; cbn [grouped].
  - destruct run; repeat constructor. discriminate.
  - destruct i as [r|v]; [apply IH|]. apply Forall_app. split; [destruct run; repeat constructor; discriminate|]. constructor; [|apply IH].
    destruct Hi as [Sv| ->]; [now apply solid_facts|discriminate].
Qed.
Lemma newInlineElements_gives : forall vs its, gives vs its -> vs <> [] -> tight None its -> newInlineElements vs = grouped [] its.
Proof.
  intros vs its F Ne T. unfold newInlineElements.
  assert (merge [VSlice vs] = mergeFlat (merge vs)) as ->.
  { unfold merge at 1. cbn [mloop]. rewrite mstep_slice. destruct vs as [|v vs]; [congruence|]. reflexivity. }
  pose proof (mloop_gives _ _ F [] [] [] T eq_refl eq_refl) as E. change (encode_runes []) with ""%string in E. cbn [app] in E. unfold merge. rewrite E.
  exact (trim_breaks_id _ (grouped_no_break _ (gives_ok _ _ F) [])).
Qed.

Lemma begins_spec : forall w t, begins w t = true <-> exists u, t = w ++ u.
Proof.
  induction w as [|x w IH]; intros t; cbn [begins].
  - split; [exists t; reflexivity|auto].
  - destruct t as [|y t]; [split; [discriminate|intros (u & E); discriminate]|]. rewrite andb_true_iff, N.eqb_eq, IH. split.
    + intros (-> & u & ->). exists u. reflexivity.
    + intros (u & E). injection E as -> ->. split; [reflexivity|exists u; reflexivity].
Qed.
Lemma last_byte_ascii : forall w x, (x < 128)%N -> last_byte (w ++ [x]) = Some x.
Proof.
  intros w x L. unfold last_byte. rewrite rev_app_distr. cbn [rev app]. unfold encode_rune. destruct (N.ltb_spec x 128); [|lia].
  cbn. f_equal. apply (N_ascii_embedding x). lia.
Qed.
Definition suffix_ok (p : option rune) (g : gstore) : Prop :=
  match p with None => st_suffix g = None | Some r => (r < 128)%N -> st_suffix g = Some r end.

Section Normal.
  Variable X : Type.
  Variable cls : string -> rune -> bool.
  Variable low : rune -> rune.
  Variable white : rune -> bool.
  Variable other : string -> labels (hv X) -> soft gstore (option (list string)) -> option (value (hv X) * bool).
  Notation H := (go_host X cls low white other).
  Hypothesis U : unicode_ok H.
  Notation G := the_grammar.
  Notation Ok_ := (Ok_ H G).
  Notation No_ := (No_ H G).
  Notation Star_ := (Star_ H G).
  Notation Seq_ := (Seq_ H G).
  Notation alnum := (alnum cls).
  Variable subs : list string.
  Hypothesis Hsp : In SpecialCharacters subs.
  Hypothesis Hre : In Replacements subs.
  Hypothesis Hqu : In Quotes subs.
  Hypothesis Hco : ~ In Callouts subs.

  Lemma no_alt_all : forall l p en c, (forall x, In x l -> No_ x p [] c c) -> No_ (EAlt l) p en c c.
  Proof.
    induction l as [|e l IH]; intros p en c F; [apply no_alt_nil|]. apply no_alt_c; [apply F; now left|]. apply IH. intros x I. apply F. now right.
  Qed.
  Lemma alt_at : forall k e p (c c' : core H) v p' en', nth_error alts k = Some e -> (forall x, In x (firstn k alts) -> No_ x p [] c c) -> Ok_ e p [] c v p' en' c' ->
    Ok_ (EAlt alts) p [] c v p' [] c'.
  Proof.
    intros k e p c c' v p' en' E F O. destruct (nth_error_split _ _ E) as (l1 & l2 & El & Lk). rewrite El.
    eapply ok_alt_skip; [|exact O]. rewrite El in F. rewrite firstn_app, Lk, Nat.sub_diag, <- Lk, firstn_all in F. cbn [firstn] in F. rewrite app_nil_r in F. exact F.
  Qed.
  Lemma no_begins : forall w t b en c, forallb (fun x => negb (N.eqb x Peg.RuneError)) w = true -> begins w t = false -> No_ (ELit w false) (Pos b t) en c c.
  Proof.
    intros w t b en c F E. apply no_lit. destruct (lit_from H w false (Pos b t)) eqn:L; auto. apply lit_split in L; auto. destruct L as (u & ->).
    assert (begins w (w ++ u) = true) as B by (apply begins_spec; eauto). congruence.
  Qed.
  Lemma word_alnum : forall r, word_char (cls "L") (cls "N") r = alnum r. Proof. reflexivity. Qed.
  Lemma in_local : forall r, in_cls H [33; 35; 36; 37; 38; 39; 42; 61; 63; 94; 95; 96; 123; 124; 125; 126; 46]%N [(43, 47)]%N ["L"; "N"]%string r =
    local_char (cls "L") (cls "N") r.
  Proof.
    intros r. apply Bool.eq_true_iff_eq. unfold in_cls, local_char, word_char. cbn [R existsb in_class go_host]. rewrite !orb_true_iff, !andb_true_iff, !N.leb_le, !N.eqb_eq.
    cbn.
    assert ((43 <= r <= 47)%N <-> r = 43%N \/ r = 44%N \/ r = 45%N \/ r = 46%N \/ r = 47%N) as E by (split; [lia|intros D; repeat destruct D as [D|D]; subst r; lia]).
    rewrite E. clear E. tauto.
  Qed.

  Section At.
  Variable g : gstore.
  Hypothesis Hg : st_subs g = Some subs.
  Notation c := ((false, g, None) : core H).
  Notation psub code := (pred_sub X cls low white other subs g Hg code _ _ eq_refl).

  Lemma sub_is : forall k, In k subs -> isSubEnabled g None k = true.
  Proof. intros k I. rewrite (sub_on subs g Hg). apply existsb_exists. exists k. split; auto. apply String.eqb_refl. Qed.
  Lemma sub_not : forall k, ~ In k subs -> isSubEnabled g None k = false.
  Proof.
    intros k I. rewrite (sub_on subs g Hg). destruct (existsb (String.eqb k) subs) eqn:E; auto. apply existsb_exists in E.
    destruct E as (x & Ix & E). apply String.eqb_eq in E. now subst x.
  Qed.
  (** tests that hold or not *)
  Lemma either : forall code f e en p, assoc (known_preds cls white) code = Some (QSub f) -> No_ e p en c c -> No_ (ESeq [EPred (PHost code); e]) p en c c.
  Proof.
    intros code f e en p E N. pose proof (pred_sub X cls low white other subs g Hg code f en E) as Q. destruct (f g None).
    - eapply (no_seq_c H G [_] _ []); [econstructor; [apply ok_pred; exact Q|constructor]|exact N].
    - apply no_seq1_c, no_pred, Q.
  Qed.
  Definition mac_alts : list expr := match g_InlineMacro with EAct _ (ESeq [_; ELab _ (EAlt l)]) => l | _ => [] end.
  Lemma no_InlineMacro : forall p, (forall e, In e mac_alts -> No_ e p [] c c) -> No_ (ERef "InlineMacro") p [] c c.
  Proof.
    intros p F. eapply no_ref; [reflexivity|]. apply no_act. eapply either; [reflexivity|]. apply no_lab, no_alt_all, F.
  Qed.
  Lemma no_Callout : forall p, No_ (ERef "Callout") p [] c c.
  Proof.
    intros p. eapply no_ref; [reflexivity|]. apply no_act, no_seq1_c, no_pred.
    pose proof (pred_sub X cls low white other subs g Hg "return c.isSubstitutionEnabled(Callouts), nil" _ [] eq_refl) as Q. cbn beta in Q. now rewrite sub_not in Q.
  Qed.
  Definition sym_lits : list string := ["\"; "`"""; """`"; "`'"; "'`"; "(C)"; "(TM)"; "(R)"; "..."; "--"; "->"; "<-"; "=>"; "<="]%string.
  Lemma no_Replacement_at : forall t b, forallb (fun s => negb (begins (R s) t)) sym_lits = true -> No_ (ERef "Replacement") (Pos b t) [] c c.
  Proof.
    intros t b F. assert (forall s en, In s sym_lits -> No_ (ELit (R s) false) (Pos b t) en c c) as N.
    { intros s en I. apply no_begins; [|rewrite forallb_forall in F; specialize (F _ I); now destruct (begins (R s) t)].
      cbn in I. repeat (destruct I as [<-|I]; [reflexivity|]). destruct I. }
    clear F. assert (forall s e l, In s sym_lits -> No_ (EAct e (ESeq (ELit (R s) false :: l))) (Pos b t) [] c c) as N2 by (intros; now apply no_act, no_seq1_c, N).
    eapply no_ref; [reflexivity|]. apply no_act. eapply either; [reflexivity|]. apply no_lab. eapply no_ref; [reflexivity|].
    apply no_alt_all. intros e I. cbn [In g_Symbol] in I.
    repeat (destruct I as [<-|I]; [|]); try (now destruct I).
    - apply (N2 "\"%string). cbn. tauto.
    - eapply no_ref; [reflexivity|]. apply no_alt_all. intros e I. cbn [In] in I. repeat (destruct I as [<-|I]); try (now destruct I).
      + apply (N2 "`"""%string). cbn. tauto.
      + apply (N2 """`"%string). cbn. tauto.
      + apply (N2 "`'"%string). cbn. tauto.
      + apply (N2 "'`"%string). cbn. tauto.
    - apply no_act, (N "(C)"%string). cbn. tauto.
    - apply no_act, (N "(TM)"%string). cbn. tauto.
    - apply no_act, (N "(R)"%string). cbn. tauto.
    - apply no_act, (N "..."%string). cbn. tauto.
    - apply (N2 "--"%string). cbn. tauto.
    - apply (N2 "--"%string). cbn. tauto.
    - apply no_act, (N "->"%string). cbn. tauto.
    - apply no_act, (N "<-"%string). cbn. tauto.
    - apply no_act, (N "=>"%string). cbn. tauto.
    - apply no_act, (N "<="%string). cbn. tauto.
  Qed.
  (** e-mail addresses *)
  Lemma address_split : forall w u, (forall r, In r w -> local_char (cls "L") (cls "N") r = true) -> address (cls "L") (cls "N") (w ++ u) = false ->
    forall v, u <> 64%N :: v.
  Proof.
    induction w as [|x w IH]; intros u A F v; cbn [app address] in F.
    - intros ->. cbn [address] in F. discriminate F.
    - rewrite (A x) in F by now left. apply orb_false_iff in F. destruct F as [_ F]. cbn [andb] in F. apply (IH u); auto. intros r I. apply A. now right.
  Qed.
  Lemma no_Email : forall t b, address (cls "L") (cls "N") t = false -> No_ x_EmailAddress (Pos b t) [] c c.
  Proof.
    intros t b F. destruct (span_text (local_char (cls "L") (cls "N")) t) as (w & u & -> & Aw & Hu).
    pose proof (address_split w u Aw F) as Nu. apply no_act.
    destruct w as [|r0 w0].
    - apply no_seq1_c, no_lab, no_act, no_seq1_c, no_lab, no_act, no_plus. cbn [app]. destruct u as [|r u]; [apply no_cls_end|]. apply no_cls. etransitivity; [apply in_local|exact Hu].
    - set (w := r0 :: w0) in *. assert (w <> []) as Nw by discriminate. clearbody w.
      assert (Ok_ (ELab "local" (EAct AText (EPlus (ECls [33; 35; 36; 37; 38; 39; 42; 61; 63; 94; 95; 96; 123; 124; 125; 126; 46]%N [(43, 47)]%N ["L"; "N"]%string false))))
        (Pos b (w ++ u)) [] c (VStr w) (Pos (rev w ++ b) u) [("local"%string, VStr w)] c) as S1.
      { eapply ok_lab. eapply ok_act with (c1 := c); [eapply ok_plus; [eapply star_cls|]|].
        - intros x Ix. etransitivity; [apply in_local|]. now apply Aw.
        - destruct u; [exact Logic.I|]. cbn in Hu |- *. 
          change (Bool.eqb (in_cls H [33; 35; 36; 37; 38; 39; 42; 61; 63; 94; 95; 96; 123; 124; 125; 126; 46]%N [(43, 47)]%N ["L"; "N"]%string r) true = false). rewrite in_local. now rewrite Hu.
        - destruct w; [congruence|discriminate].
        - rewrite slice_app. apply act_text. }
      set (code := "return !strings.HasPrefix(local.(string), ""."") && !strings.HasSuffix(local.(string), ""."") && !strings.Contains(local.(string), ""..""), nil"%string).
      assert (exists bb, pred_at H (PHost code) [("local"%string, VStr w)] c bb c) as (bb & Q).
      { eexists. apply pred_host with (g' := g). intros s Es. apply core_store in Es. destruct Es as [<- _].
        change (h_pred H) with (go_pred X cls white). unfold go_pred.
        assert (assoc (known_preds cls white) code = Some QEmailLocal) as -> by reflexivity. cbn [run_pkind label String.eqb Ascii.eqb Bool.eqb]. reflexivity. }
      destruct bb.
      + eapply (no_seq_c H G [_] _ _); [econstructor; [eapply ok_lab; eapply ok_act; [apply ok_seq; econstructor; [exact S1|econstructor; [apply ok_pred; exact Q|constructor]]|apply act_label]|constructor]|].
        change (R "@") with [64%N]. destruct u as [|x u]; [apply no_lit_end; discriminate|]. apply no_lit1. intros EQ. apply (Nu u). f_equal. now symmetry.
      + apply no_seq1_c, no_lab, no_act. eapply (no_seq_c H G [_] _ []); [econstructor; [exact S1|constructor]|]. apply no_pred, Q.
  Qed.

  (** a sequence whose second part looks at the text just read *)
  Lemma ok_seq_text : forall lab e e2 l p en (c0 : core H) v0 p1 en0 v2 p2 en2 vs p3 en3 c3,
    Ok_ e p [] c0 v0 p1 en0 c0 ->
    (forall s, core_of s = c0 -> c_text s = slice p p1 -> exists s', runs H G e2 p1 ((lab, VStr (slice p p1)) :: en) s (ROk v2 p2 en2 s') /\ core_of s' = c0) ->
    Seq_ l p2 en2 c0 vs p3 en3 c3 ->
    Ok_ (ESeq (ELab lab (EAct AText e) :: e2 :: l)) p en c0 (VList (VStr (slice p p1) :: v2 :: vs)) p3 en3 c3.
  Proof.
    intros lab e e2 l p en c0 v0 p1 en0 v2 p2 en2 vs p3 en3 c3 O T Q s E.
    destruct (O s E) as (s1 & (n1 & R1) & E1).
    set (s1' := Soft (slice p p1) (before p) (p_errs s1) (c_store s1) (c_state s1)).
    destruct (T s1' E1 eq_refl) as (s2 & (n2 & R2) & E2).
    destruct (seq_run H G _ _ _ _ _ _ _ _ Q s2 p s [v2; VStr (slice p p1)] E2) as (n3 & s3 & R3 & E3).
    set (m := S (S (n1 + n2 + n3))).
    assert (eval H G m (ELab lab (EAct AText e)) p en s = Some (ROk (VStr (slice p p1)) p1 ((lab, VStr (slice p p1)) :: en) s1')) as A1.
    { subst m. cbn [eval]. rewrite (eval_mono H G n1 (n1 + n2 + n3) ltac:(lia) _ _ _ _ _ R1). reflexivity. }
    pose proof (eval_mono H G n2 m ltac:(subst m; lia) _ _ _ _ _ R2) as A2. specialize (R3 m ltac:(subst m; lia)). clearbody m.
    exists s3. split; auto. exists (S m). change (eval H G (S m) (ESeq (ELab lab (EAct AText e) :: e2 :: l)) p en s) with (seq_from H (eval H G m) (ELab lab (EAct AText e) :: e2 :: l) p s p en s []).
    cbn [seq_from]. rewrite A1, A2. exact R3.
  Qed.
  Lemma ok_Word : forall w t b, w <> [] -> (forall r, In r w -> alnum r = true) -> P_PegRun.head_not alnum t ->
    (forall u, t = 58%N :: u -> isInlineMacro g None (encode_runes w) = false) -> (forall u, t = 64%N :: u -> P_PegRun.head_not alnum u) ->
    exists en', Ok_ x_InlineText (Pos b (w ++ t)) [] c (elem (StringElement (encode_runes w))) (Pos (rev w ++ b) t) en' c.
  Proof.
    intros w t b Ne A Ht Hm He. set (en1 := [("text"%string, VStr w)] : labels (hv X)). exists en1.
    eapply ok_act with (c1 := c) (en' := en1 : labels (HV H)).
    - eapply ok_seq_text with (en0 := [] : labels (HV H)) (p1 := Pos (rev w ++ b) t) (p2 := Pos (rev w ++ b) t).
      + eapply ok_plus; [eapply star_cls|destruct w; [congruence|discriminate]].
        * intros x Ix. etransitivity; [apply in_alnum|]. now apply A.
        * destruct t; [exact Logic.I|]. cbn in Ht |- *. change (Bool.eqb (in_cls H [] [] ["L"; "N"]%string r) true = false). rewrite in_alnum. now rewrite Ht.
      + intros s Es Et. rewrite slice_app in *.
        assert (exists s', runs H G (ESeq [ELit (R ":") false; EPred (PHost "return c.isInlineMacro(string(c.text)), nil")]) (Pos (rev w ++ b) t) [] s (RFail (Pos (rev w ++ b) t) s') /\ core_of s' = c) as (s' & (n & Rn) & Es').
        { change (R ":") with [58%N]. assert ((exists u, t = 58%N :: u) \/ forall u, t <> 58%N :: u) as [(u & ->)|N58].
          { destruct t as [|x t]; [right; discriminate|]. destruct (N.eq_dec x 58) as [->|Nx]; [left; eexists; reflexivity|right; congruence]. }
          - exists (back s s). split; [|rewrite core_back, Es; apply kback_id]. exists 2. cbn [eval seq_from]. unfold lit_from, peek, advance. cbn [rest before].
            cbn [N.eqb Pos.eqb]. unfold run_pred. change (h_pred H) with (go_pred X cls white). unfold go_pred.
            assert (assoc (known_preds cls white) "return c.isInlineMacro(string(c.text)), nil" = Some (QText isInlineMacro)) as -> by reflexivity.
            destruct s as [ct cp ce cg cs]. cbn [c_text] in Et. subst ct. apply core_store in Es. cbn [c_store c_state] in Es. destruct Es as [-> ->].
            cbn [run_pkind c_store c_state c_text]. rewrite (Hm u eq_refl). cbn. now rewrite orb_false_r.
          - assert (No_ (ESeq [ELit [58%N] false; EPred (PHost "return c.isInlineMacro(string(c.text)), nil")]) (Pos (rev w ++ b) t) [] c c) as N0; [|exact (N0 s Es)].
            apply no_seq1_c. destruct t as [|x t]; [apply no_lit_end; discriminate|]. apply no_lit1. intros EQ. apply (N58 t). f_equal. now symmetry. }
        exists (back s s'). split; [exists (S n); cbn [eval]; now rewrite Rn|]. rewrite core_back, Es, Es'. apply kback_id.
      + econstructor; [|constructor]. apply ok_not_c. change (R "@") with [64%N].
        assert ((exists u, t = 64%N :: u) \/ forall u, t <> 64%N :: u) as [(u & ->)|N64].
        { destruct t as [|x t]; [right; discriminate|]. destruct (N.eq_dec x 64) as [->|Nx]; [left; eexists; reflexivity|right; congruence]. }
        * eapply (no_seq_c H G [ELit [64%N] false] _ []); [econstructor; [apply (ok_lit H G [64%N] u)|constructor]|].
          specialize (He u eq_refl). destruct u as [|x u]; [apply no_cls_end|]. apply no_cls. etransitivity; [apply in_alnum|exact He].
        * apply no_seq1_c. destruct t as [|x t]; [apply no_lit_end; discriminate|]. apply no_lit1. intros EQ. apply (N64 t). f_equal. now symmetry.
    - rewrite slice_app. eapply act_known; [reflexivity|]. intros s Es Et. unfold run_akind. rewrite Et. apply core_store in Es. now destruct Es as [-> _].
  Qed.

  Notation letter := (cls "L"). Notation num := (cls "N").
  Ltac pre b l t := apply (no_prefix X cls low white other U G 40 _ true b l t c); [vm_compute; reflexivity|discriminate].
  (** membership of one of the first alternatives *)
  Ltac each I := cbn [firstn alts In] in I; repeat (destruct I as [<-|I]; [|]); try (now destruct I).
  Lemma elem_blanks : forall w t b, w <> [] -> (forall r, In r w -> blankb r = true) -> P_PegRun.head_not blankb t ->
    Ok_ (EAlt alts) (Pos b (w ++ t)) [] c (VStr w) (Pos (rev w ++ b) t) [] c.
  Proof.
    intros w t b Ne A Ht. eapply (alt_at 1); [reflexivity| |].
    - intros e I. each I. destruct w as [|r w]; [congruence|]. cbn [app]. assert (blankb r = true) as B by (apply A; now left).
      unfold blankb in B. apply orb_true_iff in B. rewrite !N.eqb_eq in B. destruct B as [->| ->]; [pre b [32%N] (w ++ t)|pre b [9%N] (w ++ t)].
    - eapply ok_act with (c1 := c); [eapply ok_plus; [eapply star_cls|]|].
      + intros x Ix. etransitivity; [apply in_blank|]. now apply A.
      + destruct t; [exact Logic.I|]. cbn in Ht |- *. change (Bool.eqb (in_cls H [9%N; 32%N] [] [] r) true = false). rewrite in_blank. now rewrite Ht.
      + destruct w; [congruence|discriminate].
      + rewrite slice_app. apply act_text.
  Qed.
  Lemma ok_punct : forall r t b, In r [46; 44; 59; 63; 41; 33; 47; 58; 34; 39; 64; 61; 45]%N -> exists en', Ok_ x_Punctuation (Pos b (r :: t)) [] c (VStr [r]) (Pos (r :: b) t) en' c.
  Proof.
    intros r t b I. eexists. eapply ok_act with (c1 := c); [eapply ok_alt_here, ok_cls|rewrite slice_cons; apply act_text].
    cbn [negb]. unfold in_cls. cbn [existsb]. rewrite !orb_false_r. cbn [In] in I. repeat (destruct I as [<-|I]; [reflexivity|]). destruct I.
  Qed.
  Lemma ok_AnyChar : forall r t b, eolb r = false -> exists en', Ok_ x_AnyChar (Pos b (r :: t)) [] c (VStr [r]) (Pos (r :: b) t) en' c.
  Proof.
    intros r t b E. eexists. eapply ok_act with (c1 := c); [apply ok_cls; etransitivity; [apply in_eol|exact E]|]. rewrite slice_cons. apply act_text.
  Qed.
  Lemma five : forall r t b, In r [46; 34; 61; 45; 40]%N -> forallb (fun s => negb (begins (R s) (r :: t))) sym_lits = true ->
    forall e, In e (firstn 5 alts) -> No_ e (Pos b (r :: t)) [] c c.
  Proof.
    intros r t b Ir F e I. destruct (in_dec N.eq_dec r [46; 34; 61; 45; 40]%N) as [_|]; [|contradiction].
    each I; try (now apply no_Replacement_at); cbn [In] in Ir; repeat (destruct Ir as [<-|Ir]; [|]); try (now destruct Ir);
      match goal with |- context [Pos b (?r :: t)] => pre b [r] t end.
  Qed.
  Lemma no_Link_email : forall r t b, In r [36; 37; 38; 124; 125]%N -> address letter num t = false -> No_ (ERef "InlineMacro") (Pos b (r :: t)) [] c c.
  Proof.
    intros r t b Ir F. apply no_InlineMacro. intros e I. 
    assert (address letter num (r :: t) = false) as F'.
    { cbn [address]. rewrite F, andb_false_r, orb_false_r. cbn [In] in Ir. repeat (destruct Ir as [<-|Ir]; [reflexivity|]). destruct Ir. }
    pose proof (no_Email (r :: t) b F') as NE. clear F F'.
    cbn [In] in Ir. repeat (destruct Ir as [<-|Ir]; [|]); try (now destruct Ir);
      (cbn [In mac_alts g_InlineMacro] in I; repeat (destruct I as [<-|I]; [|]); try (now destruct I);
       match goal with
       | |- context [ERef "Link"] => eapply no_ref; [reflexivity|]; apply no_alt_all; intros e I; cbn [In] in I; repeat (destruct I as [<-|I]; [|]); try (now destruct I);
            match goal with |- context [x_EmailAddress] => exact NE | |- context [Pos b (?r :: t)] => pre b [r] t end
       | |- context [Pos b (?r :: t)] => pre b [r] t
       end).
  Qed.
  Lemma elem_char : forall r t b, quiet_char letter num r t = true -> Ok_ (EAlt alts) (Pos b (r :: t)) [] c (VStr [r]) (Pos (r :: b) t) [] c.
  Proof.
    intros r t b Q. unfold quiet_char in Q. rewrite !orb_true_iff in Q. destruct Q as [[[[[[[Q|Q]|Q]|Q]|Q]|Q]|Q]|Q].
    - apply existsb_exists in Q. destruct Q as (x & Ix & E). apply N.eqb_eq in E. subst x. 
      assert (r = 10%N \/ r = 93%N \/ In r [44; 59; 63; 33; 47; 41; 58; 64]%N) as [->|[->|Ir]].
      { cbn in Ix. repeat (destruct Ix as [<-|Ix]; [cbn; auto 20|]). destruct Ix. }
      + eapply (alt_at 6 _ _ _ c _ _ []); [reflexivity| |].
        * intros e I. each I; pre b [10%N] t.
        * eapply ok_act with (c1 := c); [eapply ok_alt_here; apply (ok_lit H G [10%N])|rewrite slice_cons; apply act_text].
      + eapply (alt_at 5 _ _ _ c _ _ []); [reflexivity| |].
        * intros e I. each I; pre b [93%N] t.
        * eapply ok_act with (c1 := c); [|rewrite slice_cons; apply act_text]. apply ok_alt_c; [pre b [93%N] t|]. apply ok_alt_c; [pre b [93%N] t|].
          eapply ok_alt_here. apply (ok_lit H G [93%N]).
      + destruct (ok_punct r t b) as (en' & O). { cbn in Ir |- *. intuition auto 20. }
        eapply (alt_at 5); [reflexivity| |exact O]. intros e I. cbn [In] in Ir.
        repeat (destruct Ir as [<-|Ir]; [|]); try (now destruct Ir); each I; match goal with |- context [Pos b (?r :: t)] => pre b [r] t end.
    - apply andb_prop in Q. destruct Q as [E Q]. apply N.eqb_eq in E. subst r. destruct (ok_punct 34%N t b) as (en' & O); [cbn; tauto|].
      eapply (alt_at 5); [reflexivity| |exact O]. apply five; [cbn; tauto|]. cbn. cbn in Q. now rewrite Q.
    - apply andb_prop in Q. destruct Q as [E Q]. apply N.eqb_eq in E. subst r. destruct (ok_punct 46%N t b) as (en' & O); [cbn; tauto|].
      eapply (alt_at 5); [reflexivity| |exact O]. apply five; [cbn; tauto|]. cbn. cbn in Q. now rewrite Q.
    - apply andb_prop in Q. destruct Q as [E Q2]. apply andb_prop in E. destruct E as [E Q]. apply N.eqb_eq in E. subst r. destruct (ok_punct 45%N t b) as (en' & O); [cbn; tauto|].
      eapply (alt_at 5); [reflexivity| |exact O]. apply five; [cbn; tauto|]. cbn. cbn in Q, Q2. now rewrite Q, Q2.
    - apply andb_prop in Q. destruct Q as [E Q]. apply N.eqb_eq in E. subst r. destruct (ok_punct 61%N t b) as (en' & O); [cbn; tauto|].
      eapply (alt_at 5); [reflexivity| |exact O]. apply five; [cbn; tauto|]. cbn. cbn in Q. now rewrite Q.
    - apply andb_prop in Q. destruct Q as [E Q]. apply N.eqb_eq in E. subst r. cbn [forallb] in Q. rewrite !andb_true_iff in Q. destruct Q as (Q1 & Q2 & Q3 & Q4 & _).
      eapply (alt_at 5 _ _ _ c _ _ []); [reflexivity| |].
      + apply five; [cbn; tauto|]. cbn. cbn in Q2, Q3, Q4. now rewrite Q2, Q3, Q4.
      + eapply ok_act with (c1 := c); [|rewrite slice_cons; apply act_text]. repeat (apply ok_alt_c; [pre b [40%N] t|]). eapply ok_alt_here.
        apply ok_seq. econstructor; [apply (ok_lit H G [40%N])|]. econstructor; [|constructor]. apply ok_not_c. cbn [rev app]. apply no_begins; [reflexivity|].
        now destruct (begins (R "(") t).
    - apply andb_prop in Q. destruct Q as [E Q]. apply existsb_exists in E. destruct E as (x & Ix & E). apply N.eqb_eq in E. subst x.
      assert (In r [36; 37; 124; 125]%N) as Ir by (cbn in Ix |- *; intuition auto). clear Ix. apply negb_true_iff in Q.
      assert (eolb r = false) as Er by (cbn in Ir; repeat (destruct Ir as [<-|Ir]; [reflexivity|]); destruct Ir).
      assert (No_ (ERef "InlineMacro") (Pos b (r :: t)) [] c c) as NM by (apply no_Link_email; [cbn in Ir |- *; tauto|exact Q]).
      destruct (ok_AnyChar r t b Er) as (en' & O). eapply (alt_at 15); [reflexivity| |exact O]. intros e I. cbn [In] in Ir.
      repeat (destruct Ir as [<-|Ir]; [|]); try (now destruct Ir); each I; try (exact NM); match goal with |- context [Pos b (?r :: t)] => pre b [r] t end.
    - rewrite !andb_true_iff in Q. destruct Q as [[L W] N5]. apply N.leb_le in L. apply negb_true_iff in W, N5. apply N.eqb_neq in N5.
      unfold word_char in W. apply orb_false_iff in W. destruct W as [W1 W2].
      destruct (ok_AnyChar r t b) as (en' & O). { unfold eolb. rewrite orb_false_iff, !N.eqb_neq. split; intros ->; lia. }
      eapply (alt_at 15); [reflexivity| |exact O]. intros e I. apply (dodges_ok X cls low white other r) with (n := 30); [repeat split; auto|].
      revert e I. apply forallb_forall. vm_compute. reflexivity.
  Qed.

  Lemma ok_Special : forall r t b, special_char r = true ->
    exists en', Ok_ x_SpecialCharacter (Pos b (r :: t)) [] c (elem (SpecialCharacter (encode_runes [r]))) (Pos (r :: b) t) en' c.
  Proof.
    intros r t b Sr. exists [("element"%string, elem (SpecialCharacter (encode_runes [r])))].
    pose proof (pred_sub X cls low white other subs g Hg "return c.isSubstitutionEnabled(SpecialCharacters), nil" _ [] eq_refl) as Q. cbn beta in Q. rewrite sub_is in Q by exact Hsp.
    eapply ok_act with (en' := [("element"%string, elem (SpecialCharacter (encode_runes [r])))] : labels (hv X)) (c1 := c); [|exact (act_label H "element" [("element"%string, elem (SpecialCharacter (encode_runes [r])))] _ c)]. apply ok_seq. econstructor; [apply ok_pred; exact Q|]. econstructor; [|constructor].
    eapply ok_lab. eapply ok_act with (c1 := c).
    - apply ok_cls. unfold in_cls. cbn [existsb known_class negb]. rewrite !orb_false_r. unfold special_char in Sr. rewrite orb_assoc. exact Sr.
    - rewrite slice_cons. eapply act_known; [reflexivity|]. intros s Es Et. unfold run_akind. rewrite Et. apply core_store in Es. now destruct Es as [-> _].
  Qed.
  Lemma elem_special : forall r t b, plain_special letter num r t = true ->
    Ok_ (EAlt alts) (Pos b (r :: t)) [] c (elem (SpecialCharacter (encode_runes [r]))) (Pos (r :: b) t) [] c.
  Proof.
    intros r t b Q. unfold plain_special in Q. rewrite !orb_true_iff in Q. destruct Q as [[Q|Q]|Q].
    - apply N.eqb_eq in Q. subst r. destruct (ok_Special 62%N t b eq_refl) as (en' & O). eapply (alt_at 11); [reflexivity| |exact O]. intros e I. each I; pre b [62%N] t.
    - apply andb_prop in Q. destruct Q as [E Q]. apply N.eqb_eq in E. subst r. apply negb_true_iff in Q.
      assert (No_ (ERef "InlineMacro") (Pos b (38%N :: t)) [] c c) as NM by (apply no_Link_email; [cbn; tauto|exact Q]).
      destruct (ok_Special 38%N t b eq_refl) as (en' & O). eapply (alt_at 11); [reflexivity| |exact O]. intros e I. each I; try exact NM; pre b [38%N] t.
    - apply andb_prop in Q. destruct Q as [E Q]. apply N.eqb_eq in E. subst r. rewrite forallb_forall in Q.
      assert (forall s, In s ["-"; "="; "<"; "http://"; "https://"; "ftp://"; "irc://"; "mailto:"]%string -> begins (R s) t = false) as B by (intros s I; specialize (Q s I); now destruct (begins (R s) t)).
      clear Q. destruct (ok_Special 60%N t b eq_refl) as (en' & O). eapply (alt_at 11); [reflexivity| |exact O]. intros e I. each I; try apply no_Callout; try (pre b [60%N] t).
      + apply no_Replacement_at. pose proof (B "-"%string ltac:(cbn; tauto)) as B1. pose proof (B "="%string ltac:(cbn; tauto)) as B2. cbn. cbn in B1, B2. now rewrite B1, B2.
      + apply no_InlineMacro. intros e I. cbn [In mac_alts g_InlineMacro] in I; repeat (destruct I as [<-|I]; [|]); try (now destruct I); try (pre b [60%N] t).
        * eapply no_ref; [reflexivity|]; apply no_alt_all; intros e I; cbn [In] in I; repeat (destruct I as [<-|I]; [|]); try (now destruct I); try (pre b [60%N] t).
          apply no_act. change (R "<") with [60%N]. eapply (no_seq_c H G [_] _ _); [econstructor; [apply (ok_lit H G [60%N] t)|constructor]|].
          apply no_lab, no_act.
          assert (forall p en, No_ (ELab "scheme" x_Scheme) (Pos p t) en c c) as NS.
          { intros p en. apply no_lab, no_act, no_alt_all. intros e I. cbn [In] in I; repeat (destruct I as [<-|I]; [|]); try (now destruct I);
              (apply no_begins; [reflexivity|]; apply B; cbn; tauto). }
          destruct (begins (R "[") t) eqn:E.
          { apply begins_spec in E. destruct E as (u & ->). apply no_seq1_c. eapply no_not_c. apply (ok_lit H G (R "[") u). }
          eapply (no_seq_c H G [_] _ _); [econstructor; [apply ok_not_c; apply no_begins; [reflexivity|exact E]|constructor]|apply NS].
        * eapply no_ref; [reflexivity|]; apply no_alt_all; intros e I; cbn [In] in I; repeat (destruct I as [<-|I]; [|]); try (now destruct I); try (pre b [60%N] t);
            (apply no_act, no_seq1_c; apply no_begins; [reflexivity|]; pose proof (B "<"%string ltac:(cbn; tauto)) as B1; cbn; cbn in B1; exact B1).
  Qed.
  (** the alternative Replacement, on one of the symbols *)
  Lemma ok_Replacement : forall p v p' en', Ok_ (ERef "Symbol") p [] c v p' en' c -> exists en2, Ok_ (ERef "Replacement") p [] c v p' en2 c.
  Proof.
    intros p v p' en' O.
    pose proof (pred_sub X cls low white other subs g Hg "return c.isSubstitutionEnabled(Replacements), nil" _ [] eq_refl) as Q. cbn beta in Q. rewrite sub_is in Q by exact Hre.
    exists []. eapply ok_ref; [reflexivity|]. eapply ok_act with (en' := [("element"%string, v)] : labels (HV H)) (c1 := c); [|exact (act_label H "element" [("element"%string, v)] _ c)].
    apply ok_seq. econstructor; [apply ok_pred; exact Q|]. econstructor; [|constructor]. eapply ok_lab. exact O.
  Qed.
  Definition sym_alts : list expr := match g_Symbol with EAlt l => l | _ => [] end.
  Lemma ok_Symbol : forall k e p v p' en', nth_error sym_alts k = Some e -> (forall x, In x (firstn k sym_alts) -> No_ x p [] c c) -> Ok_ e p [] c v p' en' c ->
    exists en2, Ok_ (ERef "Symbol") p [] c v p' en2 c.
  Proof.
    intros k e p v p' en' E F O. exists []. eapply ok_ref; [reflexivity|]. change g_Symbol with (EAlt sym_alts).
    destruct (nth_error_split _ _ E) as (l1 & l2 & El & Lk). rewrite El.
    eapply ok_alt_skip; [|exact O]. rewrite El in F. rewrite firstn_app, Lk, Nat.sub_diag, <- Lk, firstn_all in F. cbn [firstn] in F. rewrite app_nil_r in F. exact F.
  Qed.
  Lemma elem_replacement : forall p v p' en', (forall x, In x (firstn 2 alts) -> No_ x p [] c c) -> Ok_ (ERef "Symbol") p [] c v p' en' c -> Ok_ (EAlt alts) p [] c v p' [] c.
  Proof.
    intros p v p' en' F O. destruct (ok_Replacement _ _ _ _ O) as (en2 & O2). eapply (alt_at 2); [reflexivity|exact F|exact O2].
  Qed.
  Definition symbol_index (s : string) : nat :=
    if String.eqb s "(C)" then 2 else if String.eqb s "(TM)" then 3 else if String.eqb s "(R)" then 4 else if String.eqb s "..." then 5
    else if String.eqb s "->" then 8 else if String.eqb s "<-" then 9 else if String.eqb s "=>" then 10 else 11.
  Lemma elem_symbol : forall s t b, In s symbols -> Ok_ (EAlt alts) (Pos b (R s ++ t)) [] c (elem (Symbol s)) (Pos (rev (R s) ++ b) t) [] c.
  Proof.
    intros s t b I. assert (exists code, nth_error sym_alts (symbol_index s) = Some (EAct (AHost code) (ELit (R s) false)) /\ assoc known_acts code = Some (KElem (Symbol s))) as (code & En & Ea).
    { unfold symbols in I. cbn [In] in I. repeat (destruct I as [<-|I]; [eexists; split; reflexivity|]). destruct I. }
    assert ((forall x, In x (firstn (symbol_index s) sym_alts) -> No_ x (Pos b (R s ++ t)) [] c c) /\ (forall x, In x (firstn 2 alts) -> No_ x (Pos b (R s ++ t)) [] c c)) as [F1 F2].
    { unfold symbols in I. cbn [In] in I.
      repeat (destruct I as [<-|I]; [split; (intros e I'; eapply (no_alts X cls low white other U b _ t c _ ); [|exact I']; vm_compute; reflexivity)|]). destruct I. }
    edestruct ok_Symbol as (en2 & O); [exact En|exact F1| |eapply elem_replacement; [exact F2|exact O]].
    eapply ok_act with (c1 := c); [apply ok_lit|]. eapply act_known; [exact Ea|]. intros s0 Es Et. unfold run_akind. apply core_store in Es. now destruct Es as [-> _].
  Qed.
  (** predicates on the character before *)
  Lemma pred_flag : forall code f en, assoc (known_preds cls white) code = Some (QFlag f) -> pred_at H (PHost code) en c (f g) c.
  Proof.
    intros code f en E. apply pred_host with (g' := g). intros s Es. apply core_store in Es. destruct Es as [<- E2].
    change (h_pred H) with (go_pred X cls white). unfold go_pred. rewrite E. cbn [run_pkind]. reflexivity.
  Qed.
  Lemma ascii_alnum : forall r, (r < 128)%N -> alnum r = ascii_letter r || ascii_digit r.
  Proof.
    intros r L. destruct U as (A & _ & _). unfold P_PegPara.alnum.
    assert (cls "L" r = ascii_letter r) as -> by (apply (A "L"%string); unfold known_class; destruct (N.ltb_spec r 128); [reflexivity|lia]).
    assert (cls "N" r = ascii_digit r) as -> by (apply (A "N"%string); unfold known_class; destruct (N.ltb_spec r 128); [reflexivity|lia]).
    reflexivity.
  Qed.
  Lemma ascii_white : forall r, (r < 128)%N -> white r = (N.leb 9 r && N.leb r 13) || N.eqb r 32.
  Proof. intros r L. destruct U as (_ & _ & A). apply A. unfold known_white. destruct (N.ltb_spec r 128); [reflexivity|lia]. Qed.
  Lemma after_word : forall p, suffix_ok p g -> ascii_word letter num p = true -> isPrecededByAlphanum cls g = true /\ isPrecededBySpace white g = false.
  Proof.
    intros [r|] S E; [|discriminate]. cbn in E, S. apply andb_prop in E. destruct E as [L E]. apply N.ltb_lt in L. specialize (S L). unfold isPrecededByAlphanum, isPrecededBySpace.
    rewrite S. split; [exact E|]. rewrite word_alnum in E. rewrite ascii_alnum in E by exact L. rewrite ascii_white by exact L.
    unfold ascii_letter, ascii_digit, is_control in *. rewrite !orb_true_iff, !andb_true_iff, !N.leb_le in E.
    rewrite !orb_false_iff, !andb_false_iff, N.eqb_neq, !N.leb_gt, !N.ltb_ge. lia.
  Qed.
  Lemma after_other : forall p, suffix_ok p g -> ascii_other letter num p = true -> isPrecededByAlphanum cls g = false.
  Proof.
    intros [r|] S E; cbn in E, S.
    - apply andb_prop in E. destruct E as [L E]. apply N.ltb_lt in L. specialize (S L). unfold isPrecededByAlphanum. rewrite S. apply negb_true_iff in E. exact E.
    - unfold isPrecededByAlphanum. now rewrite S.
  Qed.
  Lemma next_split : forall f t, next_is f t = true -> exists r t', t = r :: t' /\ f r = true.
  Proof. intros f [|r t] E; [discriminate|]. exists r, t. split; auto. Qed.
  Lemma in_letter : forall r, in_cls H [] [] ["L"]%string r = letter r.
  Proof. intros r. unfold in_cls. cbn [existsb in_class go_host orb]. apply orb_false_r. Qed.
  Lemma letter_not : forall r, (r < 128)%N -> ascii_letter r = false -> letter r = false.
  Proof. intros r L E. destruct U as (A & _ & _). etransitivity; [|exact E]. apply (A "L"%string). unfold known_class. destruct (N.ltb_spec r 128); [reflexivity|lia]. Qed.
  Lemma no_tick : forall t, next_is (N.eqb 96) t = false -> forall b, No_ (ERef "Replacement") (Pos b (39%N :: t)) [] c c.
  Proof.
    intros t E b. apply no_Replacement_at. cbn. destruct t as [|x t]; [reflexivity|]. cbn [next_is] in E. destruct x as [|x]; [reflexivity|]. cbn in E |- *. now rewrite E.
  Qed.
  Lemma elem_apostrophe : forall p t b, suffix_ok p g -> ascii_word letter num p = true -> next_is letter t = true ->
    Ok_ (EAlt alts) (Pos b (39%N :: t)) [] c (elem (Symbol "'")) (Pos (39%N :: b) t) [] c.
  Proof.
    intros p t b S W N. destruct (after_word p S W) as [W1 _]. destruct (next_split _ _ N) as (r & t' & -> & Lr).
    pose proof (pred_sub X cls low white other subs g Hg "return c.isSubstitutionEnabled(Replacements), nil" _ [] eq_refl) as Q. cbn beta in Q. rewrite sub_is in Q by exact Hre.
    pose proof (pred_flag "return c.isPrecededByAlphanum(), nil" _ [] eq_refl) as Q2. rewrite W1 in Q2.
    eapply (alt_at 4 _ _ _ c _ _ []); [reflexivity| |].
    - intros e I. each I; [pre b [39%N] (r :: t')|pre b [39%N] (r :: t')| |pre b [39%N] (r :: t')]. apply no_tick. cbn [next_is]. apply N.eqb_neq. intros <-.
      rewrite letter_not in Lr; [discriminate|lia|reflexivity].
    - eapply ok_act with (c1 := c) (en' := [] : labels (hv X)).
      + apply ok_seq. econstructor; [apply ok_pred; exact Q|]. econstructor; [apply ok_pred; exact Q2|]. econstructor; [apply (ok_lit H G [39%N])|]. econstructor; [|constructor].
        eapply ok_and_c. apply ok_cls. etransitivity; [apply in_letter|exact Lr].
      + eapply act_known; [reflexivity|]. intros s0 Es Et. unfold run_akind. apply core_store in Es. now destruct Es as [-> _].
  Qed.
  Lemma elem_quote : forall p t b, suffix_ok p g -> next_is (N.eqb 96) t = false -> ascii_other letter num p || negb (next_is letter t) = true ->
    Ok_ (EAlt alts) (Pos b (39%N :: t)) [] c (VStr [39%N]) (Pos (39%N :: b) t) [] c.
  Proof.
    intros p t b S N E. destruct (ok_punct 39%N t b) as (en' & O); [cbn; tauto|]. eapply (alt_at 5); [reflexivity| |exact O].
    intros e I. each I; try (pre b [39%N] t); [now apply no_tick|].
    apply no_act. pose proof (pred_sub X cls low white other subs g Hg "return c.isSubstitutionEnabled(Replacements), nil" _ [] eq_refl) as Q. cbn beta in Q. rewrite sub_is in Q by exact Hre.
    pose proof (pred_flag "return c.isPrecededByAlphanum(), nil" _ [] eq_refl) as Q2. destruct (isPrecededByAlphanum cls g) eqn:W.
    - apply orb_true_iff in E. destruct E as [E|E]; [rewrite (after_other p S E) in W; discriminate|]. apply negb_true_iff in E.
      eapply (no_seq_c H G [_; _; _] _ []); [econstructor; [apply ok_pred; exact Q|]; econstructor; [apply ok_pred; exact Q2|]; econstructor; [apply (ok_lit H G [39%N])|constructor]|].
      apply no_and_c. destruct t as [|r t]; [apply no_cls_end|]. apply no_cls. etransitivity; [apply in_letter|exact E].
    - eapply (no_seq_c H G [_] _ [_; _]); [econstructor; [apply ok_pred; exact Q|constructor]|]. apply no_pred, Q2.
  Qed.
  (** dashes *)
  Lemma before_dash : forall t b, (forall x, In x (firstn 6 sym_alts) -> No_ x (Pos b (45%N :: 45%N :: t)) [] c c) /\ (forall x, In x (firstn 2 alts) -> No_ x (Pos b (45%N :: 45%N :: t)) [] c c).
  Proof. intros t b. split; (intros e I'; eapply (no_alts X cls low white other U b [45; 45]%N t c _ ); [|exact I']; vm_compute; reflexivity). Qed.
  Lemma elem_dash : forall p t b, suffix_ok p g -> ascii_word letter num p = true -> (t = [] \/ next_is (fun r => word_char letter num r || N.eqb 10 r) t = true) ->
    Ok_ (EAlt alts) (Pos b (45%N :: 45%N :: t)) [] c (elem (Symbol "--")) (Pos (45%N :: 45%N :: b) t) [] c.
  Proof.
    intros p t b S W N. destruct (after_word p S W) as [W1 W2]. destruct (before_dash t b) as [F1 F2].
    pose proof (pred_flag "return c.isPrecededByAlphanum(), nil" _ [] eq_refl) as Q1. rewrite W1 in Q1.
    pose proof (pred_flag "return c.isPrecededBySpace(), nil" _ [] eq_refl) as Q2. rewrite W2 in Q2.
    edestruct (ok_Symbol 7 x_Mdash_2 (Pos b (45%N :: 45%N :: t)) (elem (Symbol "--")) (Pos (45%N :: 45%N :: b) t) []) as (en2 & O); [reflexivity| | |eapply elem_replacement; [exact F2|exact O]].
    - intros x I. change (firstn 7 sym_alts) with (firstn 6 sym_alts ++ [x_Mdash]) in I. apply in_app_or in I. destruct I as [I|[<-|[]]]; [now apply F1|].
      apply no_act. eapply (no_seq_c H G [_] _ [_]); [econstructor; [apply (ok_lit H G [45%N; 45%N])|constructor]|]. apply no_pred, Q2.
    - eapply ok_act with (c1 := c) (en' := [] : labels (hv X)).
      + apply ok_seq. econstructor; [apply (ok_lit H G [45%N; 45%N])|]. econstructor; [apply ok_pred; exact Q1|]. econstructor; [|constructor]. cbn [rev app].
        destruct N as [->|N].
        * eapply ok_and_c. apply ok_alt_c; [apply no_cls_end|]. apply ok_alt_c; [|eapply ok_alt_here; apply ok_EOF].
          apply no_act, no_alt_all. intros x I. cbn [In] in I. repeat (destruct I as [<-|I]; [apply no_lit_end; discriminate|]). destruct I.
        * destruct (next_split _ _ N) as (r & t' & -> & Lr). apply orb_true_iff in Lr. destruct Lr as [Lr|Lr].
          -- eapply ok_and_c. eapply ok_alt_here. apply ok_cls. etransitivity; [apply in_alnum|exact Lr].
          -- apply N.eqb_eq in Lr. subst r. eapply ok_and_c. apply ok_alt_c; [apply no_cls; etransitivity; [apply in_alnum|apply ascii_alnum; lia]|].
             eapply ok_alt_here. eapply ok_act with (c1 := c); [|apply act_text]. eapply ok_alt_here. apply (ok_lit H G [10%N]).
      + eapply act_known; [reflexivity|]. intros s0 Es Et. unfold run_akind. apply core_store in Es. now destruct Es as [-> _].
  Qed.
  Lemma elem_mdash : forall w t b, st_suffix g = Some 32%N -> ((exists s, w = [s] /\ blank s) \/ (w = [] /\ (t = [] \/ next_is (N.eqb 10) t = true))) ->
    Ok_ (EAlt alts) (Pos b (45%N :: 45%N :: w ++ t)) [] c (elem dash) (Pos (rev w ++ 45%N :: 45%N :: b) t) [] c.
  Proof.
    intros w t b S D. destruct (before_dash (w ++ t) b) as [F1 F2].
    pose proof (pred_flag "return c.isPrecededBySpace(), nil" _ [] eq_refl) as Q2.
    assert (isPrecededBySpace white g = true) as W. { unfold isPrecededBySpace. rewrite S, ascii_white by lia. reflexivity. }
    rewrite W in Q2.
    assert (exists v2, Ok_ (EAlt [x_Space; EAnd x_EOL]) (Pos (45%N :: 45%N :: b) (w ++ t)) [] c v2 (Pos (rev w ++ 45%N :: 45%N :: b) t) [] c) as (v2 & O2).
    { destruct D as [(s & -> & B)|(-> & D)]; cbn [rev app].
      - eexists. eapply ok_alt_here. eapply ok_act with (c1 := c); [|apply act_text]. apply ok_cls; etransitivity; [apply in_blank|now apply blankb_spec].
      - eexists. apply ok_alt_c.
        + apply no_act. destruct t as [|r t]; [apply no_cls_end|]. apply no_cls. etransitivity; [apply in_blank|]. destruct D as [D|D]; [discriminate|]. cbn [next_is] in D. apply N.eqb_eq in D. now subst r.
        + eapply ok_alt_here. destruct D as [->|D].
          * eapply ok_and_c. apply ok_alt_c; [|eapply ok_alt_here; apply ok_EOF].
            apply no_act, no_alt_all. intros x I. cbn [In] in I. repeat (destruct I as [<-|I]; [apply no_lit_end; discriminate|]). destruct I.
          * destruct (next_split _ _ D) as (r & t' & -> & Lr). apply N.eqb_eq in Lr. subst r. eapply ok_and_c.
            eapply ok_alt_here. eapply ok_act with (c1 := c); [|apply act_text]. eapply ok_alt_here. apply (ok_lit H G [10%N]). }
    edestruct (ok_Symbol 6 x_Mdash (Pos b (45%N :: 45%N :: w ++ t)) (elem dash) (Pos (rev w ++ 45%N :: 45%N :: b) t) []) as (en2 & O); [reflexivity|exact F1| |eapply elem_replacement; [exact F2|exact O]].
    eapply ok_act with (c1 := c) (en' := [] : labels (hv X)).
    - apply ok_seq. econstructor; [apply (ok_lit H G [45%N; 45%N])|]. econstructor; [apply ok_pred; exact Q2|]. econstructor; [exact O2|constructor].
    - eapply act_known; [reflexivity|]. intros s0 Es Et. unfold run_akind. apply core_store in Es. now destruct Es as [-> _].
  Qed.
  Lemma elem_word : forall w x t b, Forall (fun r => word_char letter num r = true) (w ++ [x]) -> next_is (word_char letter num) t = false ->
    (next_is (N.eqb 58) t = true -> macro_name (st_macros g) (w ++ [x]) = false) -> (forall u, t = 64%N :: u -> next_is (word_char letter num) u = false) ->
    Ok_ (EAlt alts) (Pos b ((w ++ [x]) ++ t)) [] c (elem (StringElement (encode_runes (w ++ [x])))) (Pos (rev (w ++ [x]) ++ b) t) [] c.
  Proof.
    intros w x t b A Ht Hm He. edestruct (ok_Word (w ++ [x]) t b) as (en' & O).
    - destruct w; discriminate.
    - rewrite Forall_forall in A. exact A.
    - destruct t; [exact Logic.I|exact Ht].
    - intros u ->. unfold isInlineMacro. apply andb_false_iff. right. exact (Hm eq_refl).
    - intros u E. specialize (He u E). destruct u; [exact Logic.I|exact He].
    - eapply ok_alt_here. exact O.
  Qed.
  Definition shown (v : value (hv X)) : Prop := match v with Peg.VStr _ | Peg.VHost _ | Peg.VList _ => True | _ => False end.
  Lemma track_at : forall e w t b b' v v0 en' g', w <> [] -> shown v -> slice (Pos b (w ++ t)) (Pos b' t) = w -> label en' "element" = v ->
    Ok_ e (Pos b (w ++ t)) [] c v0 (Pos b' t) en' (false, g', None) ->
    Ok_ (EAct (AThen "c.trackElement(element)" "element") e) (Pos b (w ++ t)) [] c v (Pos b' t) en' (false, set_suffix g' (last_byte w), None).
  Proof.
    intros e w t b b' v v0 en' g' Nw Sv Sl <- O.
    eapply ok_act with (c1 := (false, g', None)); [exact O|].
    replace (label en' "element") with (updated H (label en' "element") Peg.VNil : value (hv X)) at 1 by (destruct (label en' "element"); try reflexivity; now destruct Sv).
    apply act_then. intros s Es Et. change (h_act H) with (go_act X white other). unfold go_act.
    assert (assoc known_acts "c.trackElement(element)" = Some KTrack) as -> by reflexivity.
    rewrite Sl in Et. destruct s as [ct cp ce cg cs]. cbn [c_text] in Et. subst ct.
    apply core_store in Es. destruct Es as [Es _]. cbn [c_store] in Es. subst cg. cbn [run_akind c_text c_store]. destruct (last_byte_some w Nw) as (n & ->). reflexivity.
  Qed.
  Lemma body_to : forall w t b b' v g', w <> [] -> shown v -> slice (Pos b (w ++ t)) (Pos b' t) = w -> Ok_ (EAlt alts) (Pos b (w ++ t)) [] c v (Pos b' t) [] (false, g', None) ->
    exists en', Ok_ bodyE (Pos b (w ++ t)) [] c v (Pos b' t) en' (false, set_suffix g' (last_byte w), None).
  Proof.
    intros w t b b' v g' Nw Sv Sl O. exists [("element"%string, v)].
    eapply track_at; auto. apply ok_seq. eapply seq_cons with (v := VNil) (p1 := Pos b (w ++ t)) (en1 := [] : labels (hv X)) (c1 := c); [destruct w as [|r w]; [congruence|]; apply ok_NotEOF|]. econstructor; [eapply ok_lab; exact O|constructor].
  Qed.
  Lemma body_at : forall w t b b' v, w <> [] -> shown v -> slice (Pos b (w ++ t)) (Pos b' t) = w -> Ok_ (EAlt alts) (Pos b (w ++ t)) [] c v (Pos b' t) [] c ->
    exists en', Ok_ bodyE (Pos b (w ++ t)) [] c v (Pos b' t) en' (false, set_suffix g (last_byte w), None).
  Proof. intros. now apply body_to. Qed.
  End At.

  (** * Quoted words *)
  Notation letter := (cls "L"). Notation num := (cls "N").
  Notation cg g := ((false, g, None) : core H).
  Ltac pre b l t := apply (no_prefix X cls low white other U G 40 _ true b l t _); [vm_compute; reflexivity|discriminate].
  Inductive gives_v : list (value (hv X)) -> list item -> Prop :=
  | gv_nil : gives_v [] []
  | gv_cons : forall v its0 vs its, carries X v its0 -> gives_v vs its -> gives_v (v :: vs) (its0 ++ its)
  | gv_dash : forall vs its, gives_v vs its -> gives_v (Peg.VStr [32%N] :: @elem X dash :: vs) (Elem dash :: its)
  | gv_pair : forall v vs its, solid v -> gives_v vs its -> gives_v (Peg.VList [Peg.VNil; @elem X v] :: vs) (Elem v :: its).
  Lemma gives_vals : forall vs its, gives_v vs its -> exists l, vals X (Peg.VList vs) = Some l /\ gives l its /\ (vs <> [] -> l <> []).
  Proof.
    intros vs its F. unfold vals. cbn [to_val].
    match goal with |- context [option_map VSlice ?x] => assert (exists l, x = Some l /\ gives l its /\ (vs <> [] -> l <> [])) as (l & -> & A) end; [|exists l; auto].
    induction F as [|v its0 vs its C F (l & E & A & _)|vs its F (l & E & A & _)|v vs its Hv F (l & E & A & _)]; [exists []; repeat split; [constructor|auto]| | |].
    - assert (exists a, to_val X v = Some a /\ contrib a its0) as (a & Ea & Ca).
      { destruct C as [w Nw|w Nw|v Hv]; eexists; (split; [reflexivity|now constructor]). }
      exists (a :: l). rewrite Ea, E. split; [reflexivity|split; [now constructor|discriminate]].
    - exists (Types.VStr " " :: dash :: l). change (to_val X (Peg.VStr [32%N])) with (Some (Types.VStr " ")). change (to_val X (elem dash)) with (Some dash). rewrite E.
      split; [reflexivity|split; [now constructor|discriminate]].
    - exists (VSlice [Types.VNil; v] :: l). change (to_val X (Peg.VList [Peg.VNil; elem v])) with (Some (VSlice [Types.VNil; v])). rewrite E.
      split; [reflexivity|split; [now constructor|discriminate]].
  Qed.
  Lemma suffix_after : forall w x g, suffix_ok (Some x) (set_suffix g (last_byte (w ++ [x]))).
  Proof. intros w x g L. cbn [set_suffix st_suffix]. now apply last_byte_ascii. Qed.
  Lemma mark_not_alnum : forall q, In q quote_marks -> alnum q = false /\ blankb q = false /\ (q < 128)%N.
  Proof. intros q I. unfold quote_marks in I. cbn in I. repeat (destruct I as [<-|I]; [repeat split; rewrite ?ascii_alnum by lia; reflexivity|]). destruct I. Qed.
  Lemma blank_not_alnum : forall r, blankb r = true -> alnum r = false.
  Proof. intros r B. unfold blankb in B. apply orb_true_iff in B. rewrite !N.eqb_eq in B. destruct B as [->| ->]; now rewrite ascii_alnum by lia. Qed.

  Lemma valid_cons : forall v (vs : list (value (hv X))), vs <> [] -> validQuoteElements X (v :: vs) = validQuoteElements X vs.
  Proof.
    intros v vs Ne. unfold validQuoteElements. cbn [rev]. destruct (rev vs) as [|z l] eqn:E; [|reflexivity]. apply (f_equal (@rev _)) in E. rewrite rev_involutive in E. now subst vs.
  Qed.
  Lemma valid_one : forall v : value (hv X), match v with Peg.VHost (HVal (StringElement s)) => has_suffix s " " = false | _ => False end -> validQuoteElements X [v] = true.
  Proof. intros [| | | | |[v| | | | | | |]] E; try contradiction. destruct v; try contradiction. cbn. now rewrite E. Qed.
  Section Marked.
  Variable q : rune.
  Hypothesis Hq : In q quote_marks.
  Variable name : string.
  Variable endd : expr.
  Hypothesis Hname : rule_of G name = Some (EAct (AThen "c.trackElement(element)" "element") (ESeq [x_NotEOF; ENot endd; ELab "element" (ERef "QuotedTextElement")])).
  Hypothesis Hno : forall b r t g, alnum r = true \/ blankb r = true -> No_ endd (Pos b (r :: t)) [] (cg g) (cg g).
  Hypothesis Hend : forall b t g, st_subs g = Some subs -> isPrecededBySpace white g = false -> closing letter num q t = true ->
    exists v p' en', Ok_ endd (Pos b (q :: t)) [] (cg g) v p' en' (cg g).
  (** one word or one run of blanks *)
  Lemma piece_at : forall w x t b g v en0, Ok_ (ERef "QuotedTextElement") (Pos b ((w ++ [x]) ++ t)) [] (cg g) v (Pos (rev (w ++ [x]) ++ b) t) en0 (cg g) ->
    shown v -> (forall r u, (w ++ [x]) ++ t = r :: u -> alnum r = true \/ blankb r = true) ->
    exists en', Ok_ (ERef name) (Pos b ((w ++ [x]) ++ t)) [] (cg g) v (Pos (rev (w ++ [x]) ++ b) t) en' (cg (set_suffix g (last_byte (w ++ [x])))).
  Proof.
    intros w x t b g v en0 O Sv Hr. eexists. eapply ok_ref; [exact Hname|]. eapply track_at with (en' := [("element"%string, v)] : labels (hv X)) (g' := g); [destruct w; discriminate|exact Sv|apply slice_app|reflexivity|].
    apply ok_seq. eapply seq_cons with (v := VNil) (p1 := Pos b ((w ++ [x]) ++ t)) (en1 := [] : labels (hv X)) (c1 := cg g).
    - destruct w; apply ok_NotEOF.
    - econstructor; [|econstructor; [eapply ok_lab; exact O|constructor]]. apply ok_not_c.
      destruct ((w ++ [x]) ++ t) as [|r u] eqn:E; [destruct w; discriminate|]. apply Hno. eapply Hr. reflexivity.
  Qed.
  Lemma words_star : forall n w t b g, List.length w <= n -> Forall (fun r => alnum r = true \/ blankb r = true) w -> st_subs g = Some subs ->
    (w = [] -> isPrecededBySpace white g = false) -> (forall w' x, w = w' ++ [x] -> alnum x = true /\ (x < 128)%N) -> closing letter num q t = true ->
    exists (vs : list (value (hv X))) g', Star_ (ERef name) (Pos b (w ++ q :: t)) (cg g) vs (Pos (rev w ++ b) (q :: t)) (cg g') /\ gives_v vs (map Char w) /\ (w <> [] -> vs <> []) /\
      st_subs g' = Some subs /\ st_macros g' = st_macros g /\ isPrecededBySpace white g' = false /\ (w <> [] -> validQuoteElements X vs = true).
  Proof.
    destruct (mark_not_alnum q Hq) as (Aq & Bq & Lq).
    induction n as [|n IH]; intros w t b g Ln Fw Hg H0 Hl Cl; [destruct w as [|r w]; [|cbn in Ln; lia]|].

    { exists [], g. destruct (Hend b t g Hg (H0 eq_refl) Cl) as (v & p' & en' & O).
      split; [|repeat split; auto; try constructor; congruence]. apply star_stop. eapply no_ref; [exact Hname|]. apply no_act.
      eapply (no_seq_c H G [_] _ _); [econstructor; [apply ok_NotEOF|constructor]|]. eapply no_not_c. exact O. }
    destruct w as [|r0 w0].
    { exists [], g. destruct (Hend b t g Hg (H0 eq_refl) Cl) as (v & p' & en' & O).
      split; [|repeat split; auto; try constructor; congruence]. apply star_stop. eapply no_ref; [exact Hname|]. apply no_act.
      eapply (no_seq_c H G [_] _ _); [econstructor; [apply ok_NotEOF|constructor]|]. eapply no_not_c. exact O. }
    set (w := r0 :: w0) in *. assert (w <> []) as Nw by discriminate.
    (* the first run *)
    set (f := if alnum r0 then alnum else blankb).
    destruct (span_text f w) as (a & u & E & Fa & Hu).
    assert (a <> []) as Na.
    { intros ->. cbn [app] in E. subst w. rewrite <- E in Hu. cbn in Hu. unfold f in Hu. inversion Fw as [|? ? F0 _]; subst. destruct (alnum r0) eqn:A0; [congruence|]. destruct F0; congruence. }
    destruct (@exists_last _ a Na) as (a' & x & Ea).
    assert (Forall (fun r => alnum r = true \/ blankb r = true) a /\ Forall (fun r => alnum r = true \/ blankb r = true) u) as [Fa2 Fu] by (rewrite E in Fw; now apply Forall_app in Fw).
    assert (P_PegRun.head_not f (u ++ q :: t)) as Hu'.
    { destruct u as [|y u]; [|exact Hu]. cbn. unfold f. destruct (alnum r0); auto. }
    assert (List.length u <= n) as Lu. { apply (f_equal (@List.length rune)) in E. rewrite app_length in E. destruct a; [congruence|cbn in *; lia]. }
    assert (exists v en', Ok_ (ERef name) (Pos b (a ++ u ++ q :: t)) [] (cg g) v (Pos (rev a ++ b) (u ++ q :: t)) en' (cg (set_suffix g (last_byte a))) /\ carries X v (map Char a) /\
      (u = [] -> match v with Peg.VHost (HVal (StringElement s)) => has_suffix s " " = false | _ => False end)) as (v & en' & O & Cv & Vv).
    { assert (forall r l, (a' ++ [x]) ++ u ++ q :: t = r :: l -> alnum r = true \/ blankb r = true) as Hr.
      { intros r l Er. rewrite <- Ea in Er. destruct a as [|r1 a1]; [congruence|]. cbn in Er. injection Er as -> _. inversion Fa2; auto. }
      unfold f in *. destruct (alnum r0) eqn:A0.
      - destruct (ok_Word g a (u ++ q :: t) b) as (en1 & O1).
        + exact Na.
        + exact Fa.
        + exact Hu'.
        + intros l El. exfalso. destruct u as [|y u]; cbn in El; injection El as Eq _.
          * assert (In q quote_marks) as I by exact Hq. rewrite Eq in I. cbn in I. intuition discriminate.
          * inversion Fu as [|? ? [F1|F1] _]; subst; [rewrite ascii_alnum in F1 by lia|]; discriminate F1.
        + intros l El. exfalso. destruct u as [|y u]; cbn in El; injection El as Eq _.
          * assert (In q quote_marks) as I by exact Hq. rewrite Eq in I. cbn in I. intuition discriminate.
          * inversion Fu as [|? ? [F1|F1] _]; subst; [rewrite ascii_alnum in F1 by lia|]; discriminate F1.
        + edestruct (piece_at a' x (u ++ q :: t) b g (elem (StringElement (encode_runes a)))) as (en2 & O2); [rewrite <- Ea|exact Logic.I|exact Hr|].
          * eapply ok_ref; [reflexivity|]. eapply ok_alt_here. exact O1.
          * rewrite <- Ea in O2. eexists _, en2. split; [exact O2|]. split; [now apply car_elem|]. intros ->. destruct (has_suffix (encode_runes a) " ") eqn:Es; auto. apply encode_snoc_suffix in Es.
            rewrite Ea, last_of_snoc in Es. injection Es as ->. assert (alnum 32%N = true) as A32 by (apply Fa; rewrite Ea; apply in_or_app; right; now left). rewrite ascii_alnum in A32 by lia. discriminate A32.
      - edestruct (piece_at a' x (u ++ q :: t) b g (VStr a)) as (en2 & O2); [rewrite <- Ea|exact Logic.I|exact Hr|].
        + eapply ok_ref; [reflexivity|]. apply ok_alt_c.
          * destruct a as [|r1 a1]; [congruence|]. assert (blankb r1 = true) as B by (apply Fa; now left). unfold blankb in B. apply orb_true_iff in B. rewrite !N.eqb_eq in B. cbn [app].
            destruct B as [->| ->]; [pre b [32%N] (a1 ++ u ++ q :: t)|pre b [9%N] (a1 ++ u ++ q :: t)].
          * eapply ok_alt_here. eapply ok_act with (c1 := cg g); [eapply ok_plus; [eapply star_cls|]|].
            -- intros y Iy. etransitivity; [apply in_blank|]. now apply Fa.
            -- destruct (u ++ q :: t) as [|y l]; [exact Logic.I|]. cbn in Hu' |- *. change (Bool.eqb (in_cls H [9%N; 32%N] [] [] y) true = false). rewrite in_blank. now rewrite Hu'.
            -- destruct a; [congruence|discriminate].
            -- rewrite slice_app. apply act_text.
        + rewrite <- Ea in O2. eexists _, en2. split; [exact O2|]. split; [now apply car_str|]. intros ->. rewrite app_nil_r in E. 
          destruct (Hl a' x) as [Ax _]; [now rewrite E|]. assert (blankb x = true) as Bx by (apply Fa; rewrite Ea; apply in_or_app; right; now left). rewrite (blank_not_alnum _ Bx) in Ax. discriminate. }
    destruct (IH u t (rev a ++ b) (set_suffix g (last_byte a))) as (vs & g' & Q & F & Nv & S1 & S2 & S3 & V3); auto.
    - intros ->. rewrite app_nil_r in E. destruct (Hl a' x) as [Ax Lx]; [now rewrite E|].
      refine (proj2 (after_word _ (Some x) _ _)); [rewrite Ea; apply suffix_after|]. cbn. destruct (N.ltb_spec x 128); [exact Ax|lia].
    - intros w' y Ey. apply (Hl (a ++ w') y). now rewrite E, Ey, app_assoc.
    - exists (v :: vs), g'. rewrite E. split; [|split; [|split; [discriminate|split; [exact S1|split; [exact S2|split; [exact S3|]]]]]].
      + rewrite <- app_assoc. eapply star_more; [exact O|]. rewrite rev_app_distr, <- app_assoc. exact Q.
      + rewrite map_app. now constructor.
      + intros _. destruct u as [|y u].
        * assert (vs = []) as ->.
          { inversion F as [E1 E2|v1 i1 vs1 i2 C1 F1 E1 E2|vs1 i1 F1 E1 E2|v1 vs1 i1 Hv1 F1 E1 E2]; [reflexivity|]. exfalso. destruct C1 as [l Nl|l Nl|]; [| |discriminate E2]; destruct l; [congruence|discriminate E2|congruence|discriminate E2]. }
          apply valid_one, Vv, eq_refl.
        * rewrite valid_cons; [apply V3; discriminate|apply Nv; discriminate].
  Qed.
  End Marked.
  Lemma words_merged : forall vs w, gives_v vs (map Char w) -> w <> [] -> vs <> [] -> exists l, vals X (Peg.VList vs) = Some l /\ merge [VSlice l] = [StringElement (encode_runes w)].
  Proof.
    intros vs w F Nw Nv. destruct (gives_vals _ _ F) as (l & El & Fl & Nl). exists l. split; [exact El|]. specialize (Nl Nv).
    assert (merge [VSlice l] = mergeFlat (merge l)) as ->.
    { unfold merge at 1. cbn [mloop]. rewrite mstep_slice. destruct l as [|v l]; [congruence|]. reflexivity. }
    assert (forall u p, tight p (map Char u)) as T by (induction u; cbn; auto).
    pose proof (mloop_gives _ _ Fl [] [] [] (T _ _) eq_refl eq_refl) as E. change (encode_runes []) with ""%string in E. cbn [app] in E. unfold merge. rewrite E.
    rewrite <- (app_nil_r (map Char w)), grouped_chars. cbn. destruct w; [congruence|reflexivity].
  Qed.
  Lemma phrase_words : forall w, phrase letter num w -> Forall (fun r => alnum r = true \/ blankb r = true) w /\ w <> [] /\ (exists r u, w = r :: u /\ alnum r = true) /\
    forall w' x, w = w' ++ [x] -> alnum x = true /\ (x < 128)%N.
  Proof.
    intros w (F & N & w1 & x1 & E & A & L). split; [|split; [|split]].
    - eapply Forall_impl; [|exact F]. intros r [W|B]; [now left|right; now apply blankb_spec].
    - intros ->. discriminate N.
    - destruct w as [|r u]; [discriminate N|]. exists r, u. split; auto.
    - intros w' x E'. rewrite E in E'. apply app_inj_tail in E'. destruct E' as [_ <-]. split; auto.
  Qed.
  (** one of the four rules *)
  Section Rule.
  Variable q : rune.
  Hypothesis Hq : In q quote_marks.
  Variables name elems rule kind : string.
  Variable code : string.
  Variables endd : expr.
  Variable ends : list expr.
  Hypothesis Hname : rule_of G name = Some (EAct (AThen "c.trackElement(element)" "element") (ESeq [x_NotEOF; ENot endd; ELab "element" (ERef "QuotedTextElement")])).
  Hypothesis Helems : rule_of G elems = Some (EAct (ALabel "elements") (ESeq [ENot x_Space; ELab "elements" (EPlus (ERef name)); EPred (PHost "return validateSingleQuoteElements(elements.([]interface{}))")])).
  Hypothesis Hrule : rule_of G rule = Some (EAct (AHost code) (ESeq (ELit [q] false :: EPred (PHost "return c.isSingleQuotedTextAllowed(), nil") :: EAnd (ENot (ELit [q] false)) :: ELab "elements" (ERef elems) :: ends))).
  Hypothesis Hcode : assoc known_acts code = Some (KQuoted kind).
  Hypothesis Hno : forall b r t g, alnum r = true \/ blankb r = true -> No_ endd (Pos b (r :: t)) [] (cg g) (cg g).
  Hypothesis Hend : forall b t g, st_subs g = Some subs -> isPrecededBySpace white g = false -> closing letter num q t = true ->
    exists v p' en', Ok_ endd (Pos b (q :: t)) [] (cg g) v p' en' (cg g).
  Hypothesis Hends : forall b t g en, st_subs g = Some subs -> isPrecededBySpace white g = false -> closing letter num q t = true ->
    exists vs, Seq_ ends (Pos b (q :: t)) en (cg g) vs (Pos (q :: b) t) en (cg g).
  Lemma rule_at : forall w t b g, phrase letter num w -> closing letter num q t = true -> st_subs g = Some subs -> isSingleQuotedTextAllowed cls g = true ->
    exists g', st_subs g' = Some subs /\ st_macros g' = st_macros g /\
      Ok_ (ERef rule) (Pos b (q :: w ++ q :: t)) [] (cg g) (elem (QuotedText kind [StringElement (encode_runes w)] [])) (Pos (q :: rev w ++ q :: b) t) [] (cg g').
  Proof.
    intros w t b g Pw Cl Hg Al. destruct (phrase_words w Pw) as (Fw & Nw & (r & u & Er & Ar) & Hl). destruct (mark_not_alnum q Hq) as (Aq & Bq & Lq).
    destruct (words_star q Hq name endd Hname Hno Hend (List.length w) w t (q :: b) g (le_n _) Fw Hg) as (vs & g' & Q & F & Nv & S1 & S2 & S3 & V); auto; [congruence|].
    exists g'. split; [exact S1|split; [exact S2|]]. specialize (Nv Nw). specialize (V Nw). destruct (words_merged vs w F Nw Nv) as (l & El & Em).
    destruct (Hends (rev w ++ q :: b) t g' [("elements"%string, Peg.VList vs)] S1 S3 Cl) as (vs2 & Q2).
    assert (forall g0, alnum r = true -> No_ x_Space (Pos (q :: b) (r :: u ++ q :: t)) [] (cg g0) (cg g0)) as Nsp.
    { intros g0 _. apply no_act, no_cls. etransitivity; [apply in_blank|]. destruct (blankb r) eqn:B; auto. rewrite (blank_not_alnum _ B) in Ar. discriminate. }
    eapply ok_ref; [exact Hrule|]. eapply ok_act with (en' := [("elements"%string, Peg.VList vs)] : labels (hv X)) (c1 := cg g').
    - apply ok_seq. econstructor; [apply (ok_lit H G [q])|]. cbn [rev app].
      econstructor; [apply ok_pred; pose proof (pred_flag g Hg "return c.isSingleQuotedTextAllowed(), nil" _ [] eq_refl) as Qp; rewrite Al in Qp; exact Qp|].
      econstructor; [eapply ok_and_c; apply ok_not_c; rewrite Er; cbn [app]; apply no_lit1; intros Eq; rewrite <- Eq in Ar; congruence|].
      econstructor; [|exact Q2]. eapply ok_lab. eapply ok_ref; [exact Helems|].
      eapply ok_act with (en' := [("elements"%string, Peg.VList vs)] : labels (hv X)) (c1 := cg g'); [|exact (act_label H "elements" [("elements"%string, Peg.VList vs)] _ (cg g'))].
      apply ok_seq. econstructor; [apply ok_not_c; rewrite Er; cbn [app]; now apply Nsp|]. econstructor; [eapply ok_lab; apply ok_plus; [exact Q|exact Nv]|]. econstructor; [|constructor].
      apply ok_pred. apply pred_host with (g' := g'). intros s Es. apply core_store in Es. destruct Es as [<- _].
      change (h_pred H) with (go_pred X cls white). unfold go_pred.
      assert (assoc (known_preds cls white) "return validateSingleQuoteElements(elements.([]interface{}))" = Some QQuoteElements) as -> by reflexivity.
      cbn [run_pkind label String.eqb Ascii.eqb Bool.eqb]. now rewrite V.
    - eapply act_known; [exact Hcode|]. intros s Es _. unfold run_akind. cbn [label String.eqb Ascii.eqb Bool.eqb]. rewrite El, Em. apply core_store in Es. now destruct Es as [-> _].
  Qed.
  End Rule.
  Lemma closing_spec : forall q t, In q quote_marks -> closing letter num q t = true -> P_PegRun.head_not alnum t /\ (forall u, t <> q :: u) /\ (q = 96%N -> forall u, t <> 34%N :: u /\ t <> 39%N :: u).
  Proof.
    intros q t _ Cl. unfold closing in Cl. apply negb_true_iff in Cl. destruct t as [|r t]; [split; [exact Logic.I|split; [discriminate|intros _ u; split; discriminate]]|]. cbn [next_is] in Cl. rewrite !orb_false_iff in Cl. destruct Cl as [[W Nq] T].
    split; [exact W|]. split; [intros u E; injection E as -> _; rewrite N.eqb_refl in Nq; discriminate|]. intros -> u. cbn in T. rewrite !orb_false_iff in T. destruct T as [T1 [T2 _]].
    split; intros E; injection E as -> _; discriminate.
  Qed.
  (** the end of bold, italic and marked texts *)
  Definition plain_ends (q : rune) : list expr :=
    [ELit [q] false; ENot (ELit [q] false); EPred (PHost "return !c.isPrecededBySpace(), nil"); EAnd (ENot (ECls [] [] ["L"; "N"]%string false))].
  Lemma plain_end : forall q b t g en, In q quote_marks -> st_subs g = Some subs -> isPrecededBySpace white g = false -> closing letter num q t = true ->
    exists vs, Seq_ (plain_ends q) (Pos b (q :: t)) en (cg g) vs (Pos (q :: b) t) en (cg g).
  Proof.
    intros q b t g en Hq Hg Sp Cl. destruct (closing_spec q t Hq Cl) as (Ht & Nq & _). eexists.
    econstructor; [apply (ok_lit H G [q])|]. cbn [rev app]. econstructor; [apply ok_not_c; destruct t as [|r t]; [apply no_lit_end; intros En; rewrite En in Hq; cbn in Hq; intuition discriminate|]; apply no_lit1; intros E; subst r; now apply (Nq t)|].
    econstructor; [apply ok_pred; pose proof (pred_flag g Hg "return !c.isPrecededBySpace(), nil" _ en eq_refl) as Qp; cbn beta in Qp; rewrite Sp in Qp; exact Qp|].
    econstructor; [|constructor]. eapply ok_and_c. apply ok_not_c. destruct t as [|r t]; [apply no_cls_end|]. apply no_cls. etransitivity; [apply in_alnum|exact Ht].
  Qed.
  Lemma plain_no : forall q l b r t g, In q quote_marks -> alnum r = true \/ blankb r = true -> No_ (ESeq (ELit [q] false :: l)) (Pos b (r :: t)) [] (cg g) (cg g).
  Proof.
    intros q l b r t g Hq Hr. apply no_seq1_c, no_lit1. intros E. subst r. destruct (mark_not_alnum q Hq) as (A & B & _). destruct Hr; congruence.
  Qed.
  (** of monospace texts *)
  Definition mono_ends : list expr :=
    [ENot (ERef "QuotationMark"); ELit [96%N] false; EPred (PHost "return !c.isPrecededBySpace(), nil"); EAnd (ENot (ECls [] [] ["L"; "N"]%string false))].
  Lemma mono_end : forall b t g en, st_subs g = Some subs -> isPrecededBySpace white g = false -> closing letter num 96%N t = true ->
    exists vs, Seq_ mono_ends (Pos b (96%N :: t)) en (cg g) vs (Pos (96%N :: b) t) en (cg g).
  Proof.
    intros b t g en Hg Sp Cl. destruct (closing_spec 96%N t ltac:(cbn; tauto) Cl) as (Ht & Nq & Nt). specialize (Nt eq_refl). eexists.
    econstructor; [apply ok_not_c|].
    - eapply no_ref; [reflexivity|]. apply no_alt_all. intros e I. cbn [In] in I.
      assert (forall s, In s ["`"""; """`"; "`'"; "'`"]%string -> begins (R s) (96%N :: t) = false) as B.
      { intros s Is. cbn in Is. destruct t as [|r t]; [repeat (destruct Is as [<-|Is]; [reflexivity|]); destruct Is|].
        assert (N.eqb 34 r = false /\ N.eqb 39 r = false) as [B1 B2]. { split; apply N.eqb_neq; intros <-; destruct (Nt t) as [A1 A2]; first [now apply A1|now apply A2]. }
        repeat (destruct Is as [<-|Is]; [cbn -[N.eqb]; rewrite ?B1, ?B2, ?andb_false_r; reflexivity|]). destruct Is. }
      repeat (destruct I as [<-|I]; [apply no_act, no_seq1_c, no_begins; [reflexivity|apply B; cbn; tauto]|]). destruct I.
    - econstructor; [apply (ok_lit H G [96%N])|]. cbn [rev app].
      econstructor; [apply ok_pred; pose proof (pred_flag g Hg "return !c.isPrecededBySpace(), nil" _ en eq_refl) as Qp; cbn beta in Qp; rewrite Sp in Qp; exact Qp|].
      econstructor; [|constructor]. eapply ok_and_c. apply ok_not_c. destruct t as [|r t]; [apply no_cls_end|]. apply no_cls. etransitivity; [apply in_alnum|exact Ht].
  Qed.
  Lemma mono_no : forall b r t g, alnum r = true \/ blankb r = true -> No_ (ESeq mono_ends) (Pos b (r :: t)) [] (cg g) (cg g).
  Proof.
    intros b r t g Hr.
    assert (forall y, (y < 128)%N -> ascii_letter y || ascii_digit y = false -> blankb y = false -> y <> r) as Ne.
    { intros y L A B ->. rewrite <- (ascii_alnum r L) in A. destruct Hr; congruence. }
    eapply (no_seq_c H G [_] _ _); [econstructor; [apply ok_not_c|constructor]|].
    - eapply no_ref; [reflexivity|]. apply no_alt_all. intros e I. cbn [In] in I.
      repeat (destruct I as [<-|I]; [apply no_act, no_seq1_c, no_begins; [reflexivity|cbn [R begins]; match goal with |- (N.eqb ?y r && _)%bool = false => assert (N.eqb y r = false) as -> by (apply N.eqb_neq, Ne; reflexivity) end; reflexivity]|]). destruct I.
    - apply no_lit1. apply Ne; reflexivity.
  Qed.
  (** the four kinds *)
  Lemma single_at : forall q w t b g, In q quote_marks -> phrase letter num w -> closing letter num q t = true -> st_subs g = Some subs -> isSingleQuotedTextAllowed cls g = true ->
    exists g', st_subs g' = Some subs /\ st_macros g' = st_macros g /\
      Ok_ (ERef "SingleQuotedText") (Pos b (q :: w ++ q :: t)) [] (cg g) (elem (QuotedText (encode_runes [q]) [StringElement (encode_runes w)] [])) (Pos (q :: rev w ++ q :: b) t) [] (cg g').
  Proof.
    intros q w t b g Hq Pw Cl Hg Al. assert (In q quote_marks) as Hq0 by exact Hq. unfold quote_marks in Hq. cbn in Hq. destruct Hq as [<-|[<-|[<-|[<-|[]]]]].
    - destruct (rule_at 42%N Hq0 "SingleQuoteBoldTextElement" "SingleQuoteBoldTextElements" "SingleQuoteBoldText" "*" _ (ESeq (plain_ends 42%N)) (plain_ends 42%N) eq_refl eq_refl eq_refl eq_refl) with (w := w) (t := t) (b := b) (g := g) as (g' & S1 & S2 & O); auto.
      + intros. now apply plain_no.
      + intros b0 t0 g0 Hg0 Sp0 Cl0. destruct (plain_end 42%N b0 t0 g0 [] Hq0 Hg0 Sp0 Cl0) as (vs & Q). eexists _, _, _. apply ok_seq. exact Q.
      + intros. now apply plain_end.
      + exists g'. split; [exact S1|split; [exact S2|]]. eapply ok_ref; [reflexivity|]. eapply ok_alt_here. exact O.
    - destruct (rule_at 95%N Hq0 "SingleQuoteItalicTextElement" "SingleQuoteItalicTextElements" "SingleQuoteItalicText" "_" _ (ESeq (plain_ends 95%N)) (plain_ends 95%N) eq_refl eq_refl eq_refl eq_refl) with (w := w) (t := t) (b := b) (g := g) as (g' & S1 & S2 & O); auto.
      + intros. now apply plain_no.
      + intros b0 t0 g0 Hg0 Sp0 Cl0. destruct (plain_end 95%N b0 t0 g0 [] Hq0 Hg0 Sp0 Cl0) as (vs & Q). eexists _, _, _. apply ok_seq. exact Q.
      + intros. now apply plain_end.
      + exists g'. split; [exact S1|split; [exact S2|]]. eapply ok_ref; [reflexivity|]. apply ok_alt_c; [pre b [95%N] (w ++ 95%N :: t)|]. eapply ok_alt_here. exact O.
    - destruct (rule_at 96%N Hq0 "SingleQuoteMonospaceTextElement" "SingleQuoteMonospaceTextElements" "SingleQuoteMonospaceText" "`" _ (ERef "SingleQuoteMonospaceTextEndDelimiter") [ERef "SingleQuoteMonospaceTextEndDelimiter"] eq_refl eq_refl eq_refl eq_refl) with (w := w) (t := t) (b := b) (g := g) as (g' & S1 & S2 & O); auto.
      + intros. eapply no_ref; [reflexivity|]. now apply mono_no.
      + intros b0 t0 g0 Hg0 Sp0 Cl0. destruct (mono_end b0 t0 g0 [] Hg0 Sp0 Cl0) as (vs & Q). eexists _, _, _. eapply ok_ref; [reflexivity|]. apply ok_seq. exact Q.
      + intros b0 t0 g0 en Hg0 Sp0 Cl0. destruct (mono_end b0 t0 g0 [] Hg0 Sp0 Cl0) as (vs & Q). eexists. econstructor; [|constructor]. eapply ok_ref; [reflexivity|]. apply ok_seq. exact Q.
      + exists g'. split; [exact S1|split; [exact S2|]]. eapply ok_ref; [reflexivity|]. do 2 (apply ok_alt_c; [pre b [96%N] (w ++ 96%N :: t)|]). eapply ok_alt_here. exact O.
    - destruct (rule_at 35%N Hq0 "SingleQuoteMarkedTextElement" "SingleQuoteMarkedTextElements" "SingleQuoteMarkedText" "#" _ (ESeq (plain_ends 35%N)) (plain_ends 35%N) eq_refl eq_refl eq_refl eq_refl) with (w := w) (t := t) (b := b) (g := g) as (g' & S1 & S2 & O); auto.
      + intros. now apply plain_no.
      + intros b0 t0 g0 Hg0 Sp0 Cl0. destruct (plain_end 35%N b0 t0 g0 [] Hq0 Hg0 Sp0 Cl0) as (vs & Q). eexists _, _, _. apply ok_seq. exact Q.
      + intros. now apply plain_end.
      + exists g'. split; [exact S1|split; [exact S2|]]. eapply ok_ref; [reflexivity|]. do 3 (apply ok_alt_c; [pre b [35%N] (w ++ 35%N :: t)|]). eapply ok_alt_here. exact O.
  Qed.
  Lemma quotable_allowed : forall p g, suffix_ok p g -> quotable letter num p = true -> isSingleQuotedTextAllowed cls g = true.
  Proof.
    intros [r|] g S E; unfold isSingleQuotedTextAllowed; cbn in S, E; [|now rewrite S]. rewrite !andb_true_iff, !negb_true_iff in E. destruct E as [[L W] D]. apply N.ltb_lt in L. rewrite (S L).
    unfold word_char in W. apply orb_false_iff in W. destruct W as [-> ->]. rewrite !orb_false_iff in D. destruct D as (-> & -> & -> & -> & _). reflexivity.
  Qed.
  Lemma elem_quoted : forall p q w t b g, In q quote_marks -> phrase letter num w -> closing letter num q t = true -> st_subs g = Some subs -> suffix_ok p g -> quotable letter num p = true ->
    exists g', st_subs g' = Some subs /\ st_macros g' = st_macros g /\
      Ok_ (EAlt alts) (Pos b (q :: w ++ q :: t)) [] (cg g) (Peg.VList [Peg.VNil; elem (QuotedText (encode_runes [q]) [StringElement (encode_runes w)] [])]) (Pos (q :: rev w ++ q :: b) t) [] (cg g').
  Proof.
    intros p q w t b g Hq Pw Cl Hg Sg Qp. destruct (single_at q w t b g Hq Pw Cl Hg (quotable_allowed p g Sg Qp)) as (g' & S1 & S2 & O). exists g'. split; [exact S1|split; [exact S2|]].
    destruct (phrase_words w Pw) as (_ & _ & (r & u & Er & Ar) & _).
    set (v := QuotedText (encode_runes [q]) [StringElement (encode_runes w)] []) in *.
    assert (No_ (ERef "Replacement") (Pos b (q :: w ++ q :: t)) [] (cg g) (cg g)) as NR.
    { apply (no_Replacement_at g Hg). assert (N.eqb 34 r = false /\ N.eqb 39 r = false) as [B1 B2] by (split; apply N.eqb_neq; intros <-; rewrite ascii_alnum in Ar by lia; discriminate Ar).
      rewrite Er. cbn [app]. unfold quote_marks in Hq. cbn in Hq. repeat (destruct Hq as [<-|Hq]; [cbn -[N.eqb]; rewrite ?B1, ?B2, ?andb_false_r; reflexivity|]). destruct Hq. }
    assert (No_ x_Punctuation (Pos b (q :: w ++ q :: t)) [] (cg g) (cg g)) as NP.
    { apply no_act, no_alt_all. intros e I. unfold quote_marks in Hq. cbn in Hq. cbn [In] in I. destruct I as [<-|[<-|[<-|[<-|[<-|[]]]]]].
      4:{ apply no_seq1_c, no_pred. pose proof (pred_sub X cls low white other subs g Hg "return c.isSubstitutionDisabled(Quotes), nil" _ [] eq_refl) as Q. cbn beta in Q. now rewrite (sub_is g Hg) in Q by exact Hqu. }
      all: destruct Hq as [<-|[<-|[<-|[<-|[]]]]]; [pre b [42%N] (w ++ 42%N :: t)|pre b [95%N] (w ++ 95%N :: t)|pre b [96%N] (w ++ 96%N :: t)|pre b [35%N] (w ++ 35%N :: t)]. }
    eapply (alt_at 8); [reflexivity| |].
    - intros e I. cbn [firstn alts In] in I. unfold quote_marks in Hq. cbn in Hq.
      repeat (destruct I as [<-|I]; [|]); try (now destruct I); try exact NR; try exact NP;
        (destruct Hq as [<-|[<-|[<-|[<-|[]]]]]; [pre b [42%N] (w ++ 42%N :: t)|pre b [95%N] (w ++ 95%N :: t)|pre b [96%N] (w ++ 96%N :: t)|pre b [35%N] (w ++ 35%N :: t)]).
    - eapply ok_ref; [reflexivity|]. apply ok_seq.
      econstructor; [apply ok_pred; pose proof (pred_sub X cls low white other subs g Hg "return c.isSubstitutionEnabled(Quotes), nil" _ [] eq_refl) as Q; cbn beta in Q; rewrite (sub_is g Hg) in Q by exact Hqu; exact Q|].
      econstructor; [|constructor]. eapply ok_ref; [reflexivity|].
      assert (No_ (ERef "LongHandAttributes") (Pos b (q :: w ++ q :: t)) [] (cg g) (cg g)) as NL.
      { unfold quote_marks in Hq. cbn in Hq. destruct Hq as [<-|[<-|[<-|[<-|[]]]]]; [pre b [42%N] (w ++ 42%N :: t)|pre b [95%N] (w ++ 95%N :: t)|pre b [96%N] (w ++ 96%N :: t)|pre b [35%N] (w ++ 35%N :: t)]. }
      apply ok_alt_c.
      + eapply no_ref; [reflexivity|]. apply no_act. eapply (no_seq_c H G [_] _ _); [econstructor; [eapply ok_lab; apply ok_opt_none; apply no_act; exact NL|constructor]|].
        apply no_and_c. apply no_lit1. unfold quote_marks in Hq. cbn in Hq. intros E. rewrite <- E in Hq. intuition discriminate.
      + eapply ok_alt_here. eapply ok_ref; [reflexivity|]. eapply ok_act with (en' := [("element"%string, elem v); ("attributes"%string, Peg.VNil)] : labels (hv X)) (c1 := cg g').
        * apply ok_seq. econstructor; [eapply ok_lab; apply ok_opt_none; exact NL|]. econstructor; [|constructor]. eapply ok_lab. eapply ok_alt_here. exact O.
        * eapply act_known; [reflexivity|]. intros s Es _. unfold run_akind. cbn [label String.eqb Ascii.eqb Bool.eqb]. apply core_store in Es. now destruct Es as [-> _].
  Qed.
  (** the whole text *)
  Variable user : list string.
  Definition star_from (t : list rune) (its : list item) (g : gstore) (b : list rune) : Prop :=
    exists vs b' g', gives_v vs its /\ (t <> [] -> vs <> []) /\ Star_ bodyE (Pos b t) (false, g, None) vs (Pos b' []) (false, g', None).
  Lemma star_one : forall w x t b g v its0 its, st_subs g = Some subs -> shown v -> carries X v its0 ->
    Ok_ (EAlt alts) (Pos b ((w ++ [x]) ++ t)) [] (false, g, None) v (Pos (rev (w ++ [x]) ++ b) t) [] (false, g, None) ->
    star_from t its (set_suffix g (last_byte (w ++ [x]))) (rev (w ++ [x]) ++ b) -> star_from ((w ++ [x]) ++ t) (its0 ++ its) g b.
  Proof.
    intros w x t b g v its0 its Hg Sv C O (vs & b' & g' & F & _ & Q).
    destruct (body_at g (w ++ [x]) t b (rev (w ++ [x]) ++ b) v) as (en' & B); auto; [destruct w; discriminate|apply slice_app|].
    exists (v :: vs), b', g'. split; [now constructor|split; [discriminate|eapply star_more; eauto]].
  Qed.
  Lemma star_ordinary : forall p t its, ordinary letter num (macro_name user) p t its -> forall g b, st_subs g = Some subs -> st_macros g = user -> suffix_ok p g ->
    star_from t its g b.
  Proof.
    intros p t its O. induction O as [p|p w x t its A Ht Hm He O IH|p w x t its A Ht O IH|p r t its Qc O IH|p r t its Qs O IH|p t its W Ht O IH|p t its Ht W O IH|p s t its Is O IH
        |p t its W Ht O IH|p s t its Bs O IH|p t its Ht O IH|p q w t its Hq Qp Pw Cl O IH]; intros g b Hg Hu Sg.
    - exists [], b, g. split; [constructor|split; [auto|]]. apply star_stop. apply no_act, no_seq1_c, no_NotEOF.
    - change (w ++ x :: t) with (w ++ [x] ++ t). rewrite app_assoc. eapply star_one with (v := elem (StringElement (encode_runes (w ++ [x])))); [exact Hg|exact Logic.I|apply car_elem; destruct w; discriminate| |].
      + apply elem_word; auto. now rewrite Hu.
      + apply IH; auto. apply suffix_after.
    - change (w ++ x :: t) with (w ++ [x] ++ t). rewrite app_assoc. eapply star_one with (v := VStr (w ++ [x])); [exact Hg|exact Logic.I|apply car_str; destruct w; discriminate| |].
      + apply elem_blanks; [destruct w; discriminate| |].
        * intros r Ir. apply blankb_spec. unfold blanks in A. rewrite Forall_forall in A. now apply A.
        * destruct t as [|r t]; [exact Logic.I|]. cbn. destruct (blankb r) eqn:E; auto. apply blankb_spec in E. exfalso. apply (Ht r); auto. cbn. apply N.eqb_refl.
      + apply IH; auto. apply suffix_after.
    - apply (star_one [] r t b g (VStr [r]) [Char r] its Hg Logic.I); [apply (car_str X [r]); discriminate| |].
      + now apply elem_char.
      + apply IH; auto. apply (suffix_after []).
    - apply (star_one [] r t b g (elem (SpecialCharacter (encode_runes [r]))) [Elem (SpecialCharacter (encode_runes [r]))] its Hg Logic.I); [apply car_other; exact Logic.I| |].
      + now apply elem_special.
      + apply IH; auto. apply (suffix_after []).
    - apply (star_one [] 39%N t b g (elem (Symbol "'")) [Elem (Symbol "'")] its Hg Logic.I); [apply car_other; discriminate| |].
      + now apply (elem_apostrophe g Hg p).
      + apply IH; auto. apply (suffix_after []).
    - apply (star_one [] 39%N t b g (VStr [39%N]) [Char 39%N] its Hg Logic.I); [apply (car_str X [39%N]); discriminate| |].
      + now apply (elem_quote g Hg p).
      + apply IH; auto. apply (suffix_after []).
    - assert (exists w x, R s = w ++ [x]) as (w & x & E) by (destruct (@exists_last _ (R s)) as (w & x & E); [|now exists w, x]; unfold symbols in Is; cbn [In] in Is; repeat (destruct Is as [<-|Is]; [discriminate|]); destruct Is).
      assert (solid (Symbol s)) as Ss by (unfold symbols in Is; cbn [In] in Is; repeat (destruct Is as [<-|Is]; [discriminate|]); destruct Is).
      pose proof (elem_symbol g Hg s t b Is) as Os. rewrite E in *. rewrite last_last in IH.
      eapply (star_one w x t b g (elem (Symbol s)) [Elem (Symbol s)]); [exact Hg|exact Logic.I|now apply car_other| |].
      + exact Os.
      + apply IH; auto. apply suffix_after.
    - apply (star_one [45%N] 45%N t b g (elem (Symbol "--")) [Elem (Symbol "--")] its Hg Logic.I); [apply car_other; discriminate| |].
      + now apply (elem_dash g Hg p).
      + apply IH; auto. apply (suffix_after [45%N]).
    - destruct (body_at g [32%N] (45%N :: 45%N :: s :: t) b (32%N :: b) (VStr [32%N])) as (en1 & B1); [discriminate|exact Logic.I|exact (slice_app _ _ [32%N] _)| |].
      { apply (elem_blanks g [32%N]); [discriminate| |reflexivity]. intros r [<-|[]]. reflexivity. }
      destruct (body_at (set_suffix g (last_byte [32%N])) [45%N; 45%N; s] t (32%N :: b) (s :: 45%N :: 45%N :: 32%N :: b) (elem dash)) as (en2 & B2); [discriminate|exact Logic.I|exact (slice_app _ _ [45%N; 45%N; s] _)| |].
      { apply (elem_mdash (set_suffix g (last_byte [32%N])) Hg [s] t (32%N :: b) eq_refl). left. eauto. }
      destruct (IH (set_suffix (set_suffix g (last_byte [32%N])) (last_byte [45%N; 45%N; s])) (s :: 45%N :: 45%N :: 32%N :: b)) as (vs & b' & g' & F & _ & Q); auto; [apply (suffix_after [45%N; 45%N])|].
      exists (Peg.VStr [32%N] :: elem dash :: vs), b', g'. split; [now constructor|split; [discriminate|]]. eapply star_more; [exact B1|]. eapply star_more; [exact B2|exact Q].
    - destruct (body_at g [32%N] (45%N :: 45%N :: t) b (32%N :: b) (VStr [32%N])) as (en1 & B1); [discriminate|exact Logic.I|exact (slice_app _ _ [32%N] _)| |].
      { apply (elem_blanks g [32%N]); [discriminate| |reflexivity]. intros r [<-|[]]. reflexivity. }
      destruct (body_at (set_suffix g (last_byte [32%N])) [45%N; 45%N] t (32%N :: b) (45%N :: 45%N :: 32%N :: b) (elem dash)) as (en2 & B2); [discriminate|exact Logic.I|exact (slice_app _ _ [45%N; 45%N] _)| |].
      { apply (elem_mdash (set_suffix g (last_byte [32%N])) Hg [] t (32%N :: b) eq_refl). right. auto. }
      destruct (IH (set_suffix (set_suffix g (last_byte [32%N])) (last_byte [45%N; 45%N])) (45%N :: 45%N :: 32%N :: b)) as (vs & b' & g' & F & _ & Q); auto; [apply (suffix_after [45%N])|].
      exists (Peg.VStr [32%N] :: elem dash :: vs), b', g'. split; [now constructor|split; [discriminate|]]. eapply star_more; [exact B1|]. eapply star_more; [exact B2|exact Q].
    - destruct (elem_quoted p q w t b g Hq Pw Cl Hg Sg Qp) as (g1 & S1 & S2 & E).
      set (v := QuotedText (encode_runes [q]) [StringElement (encode_runes w)] []) in *.
      destruct (body_to g (q :: w ++ [q]) t b (q :: rev w ++ q :: b) (Peg.VList [Peg.VNil; elem v]) g1) as (en1 & B1); [discriminate|exact Logic.I| | |].
      { replace (q :: rev w ++ q :: b) with (rev (q :: w ++ [q]) ++ b) by (cbn [rev]; rewrite rev_app_distr; cbn; now rewrite <- app_assoc). apply slice_app. }
      { cbn [app]. rewrite <- app_assoc. exact E. }
      destruct (IH (set_suffix g1 (last_byte (q :: w ++ [q]))) (q :: rev w ++ q :: b)) as (vs & b' & g' & F & _ & Q); [exact S1|now rewrite <- Hu|apply (suffix_after (q :: w))|].
      exists (Peg.VList [Peg.VNil; elem v] :: vs), b', g'. split; [apply gv_pair; [exact Logic.I|exact F]|split; [discriminate|]].
      cbn [app] in B1. rewrite <- app_assoc in B1. eapply star_more; [exact B1|exact Q].
  Qed.
  Lemma tight_chars : forall w x its q, tight (Some x) its -> tight q (map Char (w ++ [x]) ++ its).
  Proof. induction w as [|r w IH]; intros x its q T; cbn [app map tight]; auto. Qed.
  Lemma ordinary_tight : forall p t its, ordinary letter num (macro_name user) p t its -> forall q, (q = Some 32%N -> next_is (N.eqb 32) t = false) -> tight q its.
  Proof.
    intros p t its O. induction O as [p|p w x t its A Ht Hm He O IH|p w x t its A Ht O IH|p r t its Qc O IH|p r t its Qs O IH|p t its W Ht O IH|p t its Ht W O IH|p s t its Is O IH
        |p t its W Ht O IH|p s t its Bs O IH|p t its Ht O IH|p mk w t its Imk Qp Pw Cl O IH]; intros q Hq.
    - exact Logic.I.
    - apply tight_chars, IH. intros E. injection E as ->. apply Forall_app in A. destruct A as [_ A]. inversion A as [|? ? A' _]; subst. rewrite word_alnum, ascii_alnum in A' by lia. discriminate A'.
    - apply tight_chars, IH. intros E. injection E as ->. destruct (next_is (N.eqb 32) t) eqn:N; auto. exfalso. apply (Ht 32%N N). now apply blankb_spec.
    - apply IH. intros E. injection E as ->. discriminate Qc.
    - split; [discriminate|]. apply IH. discriminate.
    - split; [discriminate|]. apply IH. discriminate.
    - apply IH. discriminate.
    - split; [|apply IH; discriminate]. unfold symbols in Is; cbn [In] in Is; repeat (destruct Is as [<-|Is]; [discriminate|]); destruct Is.
    - split; [discriminate|]. apply IH. discriminate.
    - split; [intros _ E; specialize (Hq E); discriminate Hq|]. apply IH. discriminate.
    - split; [intros _ E; specialize (Hq E); discriminate Hq|]. apply IH. discriminate.
    - split; [discriminate|]. apply IH. discriminate.
  Qed.
  Lemma ordinary_group : forall g text its b, st_subs g = Some subs -> st_macros g = user -> st_suffix g = None -> text <> [] ->
    ordinary letter num (macro_name user) None text its ->
    exists b' g', Ok_ (ERef "NormalGroup") (Pos b text) [] (false, g, None) (Peg.VList (map elem (grouped [] its))) (Pos b' []) [] (false, g', None).
  Proof.
    intros g text its b Hg Hu Hs Ne O.
    destruct (star_ordinary _ _ _ O g b Hg Hu Hs) as (vs & b' & g' & F & Nv & Q).
    destruct (gives_vals _ _ F) as (l & El & Fl & Nl).
    exists b', g'. eapply ok_ref; [reflexivity|]. eapply ok_act with (en' := [("elements"%string, Peg.VList vs)] : labels (hv X)) (c1 := (false, g', None)).
    - apply ok_seq. econstructor; [eapply ok_lab; apply ok_plus; [exact Q|now apply Nv]|]. econstructor; [apply ok_EOF|constructor].
    - eapply act_known; [reflexivity|]. intros s Es Et. unfold run_akind. cbn [label String.eqb Ascii.eqb Bool.eqb].
      rewrite El. apply core_store in Es. destruct Es as [-> _]. do 4 f_equal. rewrite (newInlineElements_gives _ _ Fl); auto. eapply ordinary_tight; [exact O|discriminate].
  Qed.
End Normal.

(** C68 *)
Theorem C68_ordinary_inline : forall X cls low white other, let H := go_host X cls low white other in unicode_ok H ->
  forall subs g text its, st_subs g = Some subs -> In SpecialCharacters subs -> In Replacements subs -> In Quotes subs -> ~ In Callouts subs -> st_suffix g = None ->
  text <> [] -> ordinary (cls "L"%string) (cls "N"%string) (macro_name (st_macros g)) None text its ->
  exists n0 before s, p_errs s = false /\ forall n, n0 <= n ->
    parse H the_grammar n "NormalGroup" text g = Some (@ROk H (VList (map (@elem X) (grouped [] its))) (Pos before []) [] s).
Proof.
  intros X cls low white other H U subs g text its Hg Hsp Hre Hqu Hco Hs Ne O.
  destruct (ordinary_group X cls low white other U subs Hsp Hre Hqu Hco (st_macros g) g text its [] Hg eq_refl Hs Ne O) as (b' & g' & Q).
  destruct (Q (Soft [] [] false g None) eq_refl) as (s & (n & Rn) & Es).
  exists n, b', s. split; [exact (f_equal (fun c => fst (fst c)) Es)|]. intros m L. exact (eval_mono H the_grammar n m L _ _ _ _ _ Rn).
Qed.
(** a text has at most one reading... as a consequence of the theorem, for each parser *)
Theorem C68_one_reading : forall X cls low white (other : string -> labels (hv X) -> soft gstore (option (list string)) -> option (value (hv X) * bool)),
  unicode_ok (go_host X cls low white other) -> forall user text its its', text <> [] ->
  ordinary (cls "L"%string) (cls "N"%string) (macro_name user) None text its -> ordinary (cls "L"%string) (cls "N"%string) (macro_name user) None text its' -> grouped [] its = grouped [] its'.
Proof.
  intros X cls low white other U user text its its' Ne O O'.
  set (g := GStore None None None None None (Some [SpecialCharacters; Replacements; Quotes]) None None user None).
  assert (~ In Callouts [SpecialCharacters; Replacements; Quotes]) as Nc by (intros [E|[E|[E|[]]]]; discriminate E).
  destruct (C68_ordinary_inline X cls low white other U [SpecialCharacters; Replacements; Quotes] g text its eq_refl) as (n & b & s & _ & Q); auto; [left; reflexivity|right; left; reflexivity|right; right; left; reflexivity|].
  destruct (C68_ordinary_inline X cls low white other U [SpecialCharacters; Replacements; Quotes] g text its' eq_refl) as (n' & b' & s' & _ & Q'); auto; [left; reflexivity|right; left; reflexivity|right; right; left; reflexivity|].
  specialize (Q (n + n') ltac:(lia)). specialize (Q' (n + n') ltac:(lia)). rewrite Q in Q'. injection Q' as E _ _.
  revert E. generalize (grouped [] its), (grouped [] its'). intros l. induction l as [|v l IH]; intros [|v' l'] E; try discriminate E; [reflexivity|].
  injection E as Ev E. f_equal; auto.
Qed.

(** * A paragraph *)
Definition a_paragraph : list rune := R "It's R&D -- (see 3.14, p. 5) x<y
isn't ""a -> b"" (C) me--you... 100% OK: 'done' --".
Definition paragraph_elements (text : list rune) : option (list val * bool) :=
  match parse demo_go the_grammar 200 "NormalGroup" text (verbatim_store normalSubstitutions) with
  | Some (ROk v _ _ s) => match (v : value (hv Empty_set)) with
                          | Peg.VList l => Some (flat_map (fun x => match x with Peg.VHost (HVal v) => [v] | _ => [] end) l, p_errs s)
                          | _ => None
                          end
  | _ => None
  end.
Theorem C68_paragraph_example : paragraph_elements a_paragraph = Some
  ([ StringElement "It"; Symbol "'"; StringElement "s R"; SpecialCharacter "&"; StringElement "D"; Symbol " -- "; StringElement "(see 3.14, p. 5) x";
     SpecialCharacter "<"; StringElement ("y" ++ LF ++ "isn"); Symbol "'"; StringElement "t ""a "; Symbol "->"; StringElement " b"" "; Symbol "(C)";
     StringElement " me"; Symbol "--"; StringElement "you"; Symbol "..."; StringElement " 100% OK: 'done'"; Symbol " -- " ], false).
Proof. vm_compute. reflexivity. Qed.
Ltac wd s := eapply (ord_word _ _ _ _ (removelast (R s)) (last (R s) 0%N)); [repeat constructor|reflexivity|try (intros E; vm_compute in E; discriminate E); reflexivity|intros u Eu; discriminate Eu|].
Ltac sp := eapply (ord_blanks _ _ _ _ [] 32%N); [repeat constructor|intros r Er; apply N.eqb_eq in Er; subst r; intros [Q|Q]; discriminate Q|].
Ltac ch := apply ord_char; [reflexivity|].
Ltac sc := apply ord_special; [reflexivity|].
Ltac ap := apply ord_apostrophe; [reflexivity|reflexivity|].
Ltac qu := apply ord_quote; [reflexivity|reflexivity|].
Ltac sy s := apply (ord_symbol _ _ _ _ s); [cbn; tauto|].
Theorem C68_paragraph_hypotheses : exists its, ordinary (demo_cls "L") (demo_cls "N") (macro_name []) None a_paragraph its /\ In SpecialCharacters normalSubstitutions /\
  In Replacements normalSubstitutions /\ In Quotes normalSubstitutions /\ ~ In Callouts normalSubstitutions.
Proof.
  eexists. split.
  - unfold a_paragraph.
    wd "It"%string. ap. wd "s"%string. sp. wd "R"%string. sc. wd "D"%string. eapply ord_blank_dash; [left; reflexivity|].
    ch. wd "see"%string. sp. wd "3"%string. ch. wd "14"%string. ch. sp. wd "p"%string. ch. sp. wd "5"%string. ch. sp. wd "x"%string. sc. wd "y"%string. ch.
    wd "isn"%string. ap. wd "t"%string. sp. ch. wd "a"%string. sp. sy "->"%string. sp. wd "b"%string. ch. sp. sy "(C)"%string. sp. wd "me"%string.
    apply ord_dash; [reflexivity|right; reflexivity|]. wd "you"%string. sy "..."%string. sp. wd "100"%string. ch. sp. wd "OK"%string. ch. sp. qu. wd "done"%string. qu.
    apply ord_end_dash; [left; reflexivity|]. apply ord_nil.
  - repeat split; [vm_compute; tauto|vm_compute; tauto|vm_compute; tauto|]. intros I. vm_compute in I. repeat destruct I as [I|I]; try discriminate I; auto.
Qed.
(** * What one might expect and is not so *)
(** whether an apostrophe is typographic depends on the last byte of the word, not on its last letter:
    it is after "cafe", not after the same word with an acute accent (bytes 195 169), and it is after
    a final "e" with a circumflex (bytes 195 170, and 170 is a letter) *)
Definition latin_cls (c : string) (r : rune) : bool := demo_cls c r || (String.eqb c "L" && ((N.leb 192 r && N.leb r 255) || N.eqb r 170)).
Definition latin : host := go_host Empty_set latin_cls demo_low demo_white (fun _ _ _ => None).
Definition latin_elements (text : list rune) : option (list val) :=
  match parse latin the_grammar 60 "NormalGroup" text (verbatim_store normalSubstitutions) with
  | Some (ROk v _ _ s) => match (v : value (hv Empty_set)) with
                          | Peg.VList l => Some (flat_map (fun x => match x with Peg.VHost (HVal v) => [v] | _ => [] end) l)
                          | _ => None
                          end
  | _ => None
  end.
Lemma latin_unicode : unicode_ok latin.
Proof.
  split; [|split; [exact (proj1 (proj2 demo_go_unicode))|exact (proj2 (proj2 demo_go_unicode))]].
  intros c r b E. cbn [in_class latin go_host]. unfold latin_cls, demo_cls. rewrite E. unfold known_class in E.
  destruct (N.ltb_spec r 128).
  - assert (N.leb 192 r = false) as -> by (apply N.leb_gt; lia). assert (N.eqb r 170 = false) as -> by (apply N.eqb_neq; lia). now rewrite andb_false_r, orb_false_r.
  - destruct (N.eqb_spec r 160) as [->|]; [|discriminate]. cbn. now rewrite andb_false_r, orb_false_r.
Qed.
Theorem C68_apostrophe_refuted :
  latin_elements (R "cafe's") = Some [StringElement "cafe"; Symbol "'"; StringElement "s"] /\
  latin_elements (R "caf" ++ [233%N] ++ R "'s") = Some [StringElement (encode_runes (R "caf" ++ [233%N] ++ R "'s"))] /\
  latin_elements (R "caf" ++ [234%N] ++ R "'s") = Some [StringElement (encode_runes (R "caf" ++ [234%N])); Symbol "'"; StringElement "s"].
Proof. repeat split; vm_compute; reflexivity. Qed.
(** and the last byte of a final "a" with a grave accent is 160, a white space: a dash directly after it
    is taken for one between blanks *)
Theorem C68_dash_refuted :
  latin_elements (R "a-- b") = Some [StringElement "a-- b"] /\
  latin_elements ([224%N] ++ R "-- b") = Some [StringElement (encode_runes [224%N]); Symbol " -- "; StringElement "b"].
Proof. repeat split; vm_compute; reflexivity. Qed.
(** two blanks before a dash are both lost *)
Theorem C68_two_blanks_refuted : elements_of normalSubstitutions (R "a  -- b") = Some ([StringElement "a"; Symbol " -- "; StringElement "b"], false).
Proof. vm_compute. reflexivity. Qed.
