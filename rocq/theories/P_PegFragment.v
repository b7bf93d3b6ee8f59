(** C65: the delimited blocks of a document. *)
From Coq Require Import List String NArith ZArith Bool Ascii Arith Lia.
From Verif Require Import GoBase Utf8 Types Attrs Elements Subs Peg PegGrammar PegDoc PegHost PegSym PegBlockSpec P_PegRun P_PegLines P_PegBlocks.
Import ListNotations.
Local Open Scope list_scope.

Section Fragment.
  Variable X : Type.
  Variable cls : string -> rune -> bool.
  Variable low : rune -> rune.
  Variable white : rune -> bool.
  Variable other : string -> labels (hv X) -> soft gstore (option (list string)) -> option (value (hv X) * bool).
  Notation H := (go_host X cls low white other).
  Hypothesis U : unicode_ok H.
  Notation G := the_grammar.
  Notation Ok_ := (Ok_ H G).
  Notation No_ := (No_ H G).
  Notation Star_ := (Star_ H G).
  Notation Seq_ := (Seq_ H G).
  Notation core := (core H).

  (** the end of the action of DocumentFragment *)
  Definition after (g : gstore) : gstore := set_header (set_front g (Some false)) (Some false).

  Lemma fragment_any : forall kh es1 e es2 b x t er g st v p' en1 g2,
    fragment_alts = es1 ++ e :: es2 ->
    No_ (ERef "BlockAttributes") (Pos b (x :: t)) [] (er, g, st) (er, g, st) ->
    (forall a, In a es1 -> No_ a (Pos b (x :: t)) [] (er, g, st) (er, g, st)) ->
    Ok_ e (Pos b (x :: t)) [] (er, g, st) (elem v) p' en1 (er, g2, st) ->
    keeps_header X (elem v) = Some kh ->
    Ok_ (ERef "DocumentFragment") (Pos b (x :: t)) [] (er, g, st) (elem v) p' [] (er, if kh then set_front g2 (Some false) else after g2, st).
  Proof.
    intros kh es1 e es2 b x t er g st v p' en1 g2 Ef NB N O K. eapply ok_ref; [reflexivity|].
    eapply ok_act.
    - apply ok_seq. eapply seq_cons; [apply ok_NotEOF|].
      eapply seq_cons; [eapply ok_lab, ok_opt_none, NB|].
      eapply seq_cons; [apply ok_state with (g' := g) (t' := st)|].
      { intros s Es. apply core_store in Es. destruct Es as [<- <-]. reflexivity. }
      eapply seq_cons; [eapply ok_lab, ok_opt_some|].
      { change (EAlt _) with (EAlt fragment_alts). rewrite Ef. eapply ok_alt_skip; [exact N|exact O]. }
      eapply seq_cons; [apply ok_pred with (c' := (er, g2, st))|apply seq_nil].
      intros s Es. exists s. split; [reflexivity|exact Es].
    - change (elem v : value (HV H)) with (updated H (elem v) VNil). apply act_then with (l := "element"%string).
      intros s Es _. apply core_store in Es. destruct Es as [Es _].
      change (h_act H) with (go_act X white other). unfold go_act.
      replace (assoc known_acts _) with (Some KFragment) by reflexivity. unfold run_akind.
      unfold elem in *. cbn [label String.eqb Ascii.eqb Bool.eqb updated]. rewrite K, Es. reflexivity.
  Qed.
  Lemma fragment_ok : forall es1 e es2 b x t er g st v p' en1 g2,
    fragment_alts = es1 ++ e :: es2 ->
    No_ (ERef "BlockAttributes") (Pos b (x :: t)) [] (er, g, st) (er, g, st) ->
    (forall a, In a es1 -> No_ a (Pos b (x :: t)) [] (er, g, st) (er, g, st)) ->
    Ok_ e (Pos b (x :: t)) [] (er, g, st) (elem v) p' en1 (er, g2, st) ->
    keeps_header X (elem v) = Some false ->
    Ok_ (ERef "DocumentFragment") (Pos b (x :: t)) [] (er, g, st) (elem v) p' [] (er, after g2, st).
  Proof. exact (fragment_any false). Qed.

  Lemma no_alts : forall b pre tail c es, forallb (fun e => fails_on G quiet_name 40 e true b pre) es = true ->
    forall a, In a es -> No_ a (Pos b (pre ++ tail)) [] c c.
  Proof.
    intros b pre tail c es F a I. rewrite forallb_forall in F. eapply no_prefix; [exact U|apply F, I|discriminate].
  Qed.
  Lemma repeat_split : forall (x : rune) m n t, m <= n -> repeat x n ++ t = repeat x m ++ repeat x (n - m) ++ t.
  Proof. intros x m n t L. replace n with (m + (n - m)) at 1 by lia. now rewrite repeat_app, app_assoc. Qed.

  (** a rune that is a blank or ends a line *)
  Definition lowb (r : rune) : bool := blankb r || eolb r.
  Lemma low_class : forall r, lowb r = true -> cls "L" r = false /\ cls "N" r = false.
  Proof.
    intros r L. destruct U as (U1 & _). unfold lowb, blankb, eolb in L. rewrite !orb_true_iff, !N.eqb_eq in L.
    destruct L as [[->| ->]|[->| ->]]; split; apply (U1 _ _ false); vm_compute; reflexivity.
  Qed.
  Lemma head_low : forall ws e t, blanks ws -> eol e t -> match ws ++ e ++ t with [] => True | r :: _ => lowb r = true end.
  Proof.
    intros ws e t W E. destruct W as [|r ws Br W].
    - apply eol_at in E. cbn [app]. destruct (e ++ t); [exact Logic.I|]. cbn in E. unfold lowb. now rewrite E, orb_true_r.
    - cbn. unfold lowb. apply blankb_spec in Br. now rewrite Br.
  Qed.

  (** a line of dashes or underscores is not the name of a macro *)
  Lemma no_UserMacro_low : forall x n u b c, x = 45%N \/ x = 95%N -> 1 <= n -> match u with [] => True | r :: _ => lowb r = true end ->
    No_ (ERef "UserMacroBlock") (Pos b (repeat x n ++ u)) [] c c.
  Proof.
    intros x n u b c Hx L Hd.
    eapply no_ref; [reflexivity|]. apply no_act.
    assert (Ok_ x_UserMacroName (Pos b (repeat x n ++ u)) [] c (VStr (repeat x n)) (Pos (rev (repeat x n) ++ b) u) [] c) as O.
    { eapply ok_act; [apply ok_plus with (vs := map (fun r => VBytes [r]) (repeat x n))|rewrite slice_app; apply act_text].
      - apply star_cls.
        + intros r I. apply repeat_spec in I. subst r. destruct Hx as [->| ->]; reflexivity.
        + destruct u as [|r u]; [exact Logic.I|]. cbn [P_PegRun.head_not]. destruct (low_class r Hd) as [C1 C2].
          unfold in_cls. cbn [existsb in_class go_host]. rewrite C1, C2.
          unfold lowb, blankb, eolb in Hd. rewrite !orb_true_iff, !N.eqb_eq in Hd. destruct Hd as [[->| ->]|[->| ->]]; reflexivity.
      - destruct n; [lia|]. discriminate. }
    destruct c as [[er g] st].
    assert (forall s : soft gstore (option (list string)), core_of (H := H) s = (er, g, st) ->
      h_pred H "return c.hasUserMacro(name.(string)), nil" [("name"%string, VStr (repeat x n))] s =
      Some (hasUserMacro g (encode_runes (repeat x n)), false, g)) as Pm.
    { intros s Es. apply core_store in Es. destruct Es as [<- _]. reflexivity. }
    destruct (hasUserMacro g (encode_runes (repeat x n))).
    - eapply (no_seq_c H G [_; _]).
      + eapply seq_cons; [eapply ok_lab, O|]. eapply seq_cons; [apply ok_pred, pred_host; exact Pm|apply seq_nil].
      + destruct u as [|r u]; [apply no_lit_end; discriminate|]. apply no_lit1. intros <-. vm_compute in Hd. discriminate.
    - eapply (no_seq_c H G [_]).
      + eapply seq_cons; [eapply ok_lab, O|apply seq_nil].
      + apply no_pred, pred_host. exact Pm.
  Qed.
  Lemma no_UserMacro : forall x n ws e t b c, x = 45%N \/ x = 95%N -> 1 <= n -> blanks ws -> eol e t ->
    No_ (ERef "UserMacroBlock") (Pos b (repeat x n ++ ws ++ e ++ t)) [] c c.
  Proof. intros x n ws e t b c Hx L W E. apply no_UserMacro_low; auto. now apply head_low. Qed.

  (** a line of equal signs is not a section title *)
  Lemma no_Section : forall n ws e t b er g st, 1 <= n -> blanks ws -> eol e t ->
    No_ (ERef "Section") (Pos b (repeat 61%N n ++ ws ++ e ++ t)) [] (er, g, st) (er, g, st).
  Proof.
    intros n ws e t b er g st L W E. pose proof (eol_at _ _ E) as T.
    pose proof (ok_EOL H G e t (rev ws ++ repeat 61%N n ++ b) [] (er, g, Some headerSubstitutions) E) as E'. set (u := e ++ t) in *. clearbody u.
    eapply no_ref; [reflexivity|]. apply no_act.
    assert (forall s : soft gstore (option (list string)), core_of (H := H) s = (er, g, st) ->
      h_pred H "return !c.isWithinDelimitedBlock(), nil" [] s = Some (negb (isWithinDelimitedBlock g), false, g)) as P1.
    { intros s Es. apply core_store in Es. destruct Es as [<- _]. reflexivity. }
    destruct (negb (isWithinDelimitedBlock g)); [|apply no_seq1_c, no_pred, pred_host; exact P1].
    set (lev := (Z.of_nat n - 1)%Z).
    assert (Ok_ (EAct (ALen 1) (EPlus (ELit (R "=") false))) (Pos b (repeat 61%N n ++ ws ++ u)) [] (er, g, st)
              (VInt lev) (Pos (repeat 61%N n ++ b) (ws ++ u)) [] (er, g, st)) as O.
    { eapply ok_act.
      - apply ok_plus with (vs := repeat (VBytes [61%N]) n); [|destruct n; [lia|discriminate]].
        apply star_lit1; [discriminate|]. destruct ws as [|r ws]; cbn [app].
        + destruct u as [|r u]; [exact Logic.I|]. cbn [at_eol P_PegRun.head_not] in *. apply N.eqb_neq. intros <-. discriminate.
        + inversion W as [|? ? [->| ->] _]; reflexivity.
      - rewrite slice_app. intros s Es Et. exists s. split; [|exact Es]. cbn [run_act]. rewrite Et, byte_len_repeat by reflexivity. reflexivity. }
    assert (forall b', pred_at H (PIntLe "level" 5) [("level"%string, VInt lev)] (er, g, st) b' (er, g, st) \/ b' <> (lev <=? 5)%Z) as P2.
    { intros b'. destruct (Bool.bool_dec b' (lev <=? 5)%Z) as [->|]; [left|now right]. intros s Es. exists s. split; [reflexivity|exact Es]. }
    destruct (lev <=? 5)%Z.
    2:{ eapply (no_seq_c H G [_; _]).
        - eapply seq_cons; [apply ok_pred, pred_host; exact P1|]. eapply seq_cons; [eapply ok_lab, O|apply seq_nil].
        - apply no_pred. destruct (P2 false) as [Q|Q]; [exact Q|congruence]. }
    destruct (P2 true) as [Q|Q]; [|congruence].
    destruct ws as [|w ws].
    - eapply (no_seq_c H G [_; _; _]).
      + eapply seq_cons; [apply ok_pred, pred_host; exact P1|]. eapply seq_cons; [eapply ok_lab, O|].
        eapply seq_cons; [apply ok_pred, Q|apply seq_nil].
      + apply no_act, no_plus. cbn [app]. destruct u as [|r u]; [apply no_cls_end|]. apply no_cls. rewrite in_blank.
        apply (at_eol_not_blank _ T).
    - eapply (no_seq_c H G [_; _; _; _]).
      + eapply seq_cons; [apply ok_pred, pred_host; exact P1|]. eapply seq_cons; [eapply ok_lab, O|].
        eapply seq_cons; [apply ok_pred, Q|].
        eapply seq_cons; [|apply seq_nil]. eapply ok_act; [|rewrite slice_app; apply act_text].
        apply ok_plus with (vs := map (fun r => VBytes [r]) (w :: ws)); [|discriminate]. apply star_cls.
        * intros r I. rewrite in_blank. apply blankb_spec. unfold blanks in W. rewrite Forall_forall in W. apply W, I.
        * apply at_eol_not_blank in T. destruct u as [|r u]; [exact Logic.I|]. cbn [P_PegRun.head_not] in *. rewrite in_blank. now rewrite T.
      + apply no_lab. eapply no_ref; [reflexivity|]. apply no_act.
        change (er, g, st) with (kback (H := H) (er, g, st) (er, g, Some headerSubstitutions)) at 2.
        eapply (no_seq H G [_]).
        * eapply seq_cons; [|apply seq_nil]. apply ok_state with (g' := g) (t' := Some headerSubstitutions). intros s Es. apply core_store in Es. destruct Es as [<- _]. reflexivity.
        * apply no_lab, no_plus. eapply no_ref; [reflexivity|]. apply no_act, no_seq1_c.
          destruct (E') as (v & b' & O'). eapply no_not_c, O'.
  Qed.

  Lemma rep_cons : forall (x : rune) n t, 1 <= n -> exists t', repeat x n ++ t = x :: t'.
  Proof. intros x [|n] t L; [lia|]. eexists. reflexivity. Qed.

  Section Kinds.
    Variables (er : bool) (g : gstore) (st : option (list string)) (b : list rune).
    Notation c := ((er, g, st) : core).
    (** a block with matching delimiters, once the other alternatives are known to fail *)
    Lemma matched_fragment : forall es1 es2 bcode dcode kind dkind x m n ws e body ls tail,
      fragment_alts = es1 ++ matchedE bcode dcode x m :: es2 ->
      assoc known_acts bcode = Some (KBlock kind) -> assoc known_acts dcode = Some (KDelim dkind) -> plain_char x -> 1 <= m ->
      m <= n -> blanks ws -> eol e body -> lines_until (delimiter x n) body ls tail ->
      No_ (ERef "BlockAttributes") (Pos b (repeat x n ++ ws ++ e ++ body)) [] c c ->
      (forall a, In a es1 -> No_ a (Pos b (repeat x n ++ ws ++ e ++ body)) [] c c) ->
      exists b', Ok_ (ERef "DocumentFragment") (Pos b (repeat x n ++ ws ++ e ++ body)) [] c
        (elem (DelimitedBlock kind [] (raw_lines ls))) (Pos b' tail) [] (er, after (set_delim g (Some (Z.of_nat n))), st).
    Proof.
      intros es1 es2 bcode dcode kind dkind x m n ws e body ls tail Ef KB KD P M L W E Q NB N.
      destruct (ok_matchedE X cls low white other G bcode dcode kind dkind x m KB KD P M n ws e body ls tail b er g st L W E Q) as (b' & en' & O).
      exists b'. destruct (rep_cons x n (ws ++ e ++ body) ltac:(lia)) as (t' & Et). rewrite Et in *.
      eapply fragment_ok; eauto.
    Qed.
  End Kinds.

  Lemma no_alts_but : forall b pre tail c l1 bad l2, forallb (fun e => fails_on G quiet_name 40 e true b pre) (l1 ++ l2) = true ->
    No_ bad (Pos b (pre ++ tail)) [] c c -> forall a, In a (l1 ++ bad :: l2) -> No_ a (Pos b (pre ++ tail)) [] c c.
  Proof.
    intros b pre tail c l1 bad l2 F N a I. apply in_app_iff in I. destruct I as [I|[<-|I]]; [|exact N|];
      (eapply no_alts; [exact F|]; rewrite in_app_iff; auto).
  Qed.

  Lemma no_MarkdownCode : forall n ws e t b c, 3 <= n -> blanks ws -> eol e t -> (n = 3 -> match ws with 9%N :: _ => False | _ => True end) ->
    No_ x_MarkdownCodeBlock (Pos b (repeat 96%N n ++ ws ++ e ++ t)) [] c c.
  Proof.
    intros n ws e t b c L W E T. rewrite (repeat_split _ 3) by lia.
    apply no_act, no_seq1_c, no_lab, no_act.
    eapply (no_seq_c H G [_]); [eapply seq_cons; [apply (ok_lit H G (repeat 96%N 3))|apply seq_nil]|].
    apply no_lab, no_act, no_plus. destruct (n - 3) as [|k] eqn:En; cbn [repeat app].
    - specialize (T ltac:(lia)). destruct ws as [|w ws]; cbn [app].
      + apply eol_at in E. destruct (e ++ t) as [|r u]; [apply no_cls_end|]. cbn [at_eol] in E. unfold eolb in E.
        apply orb_true_iff in E. rewrite !N.eqb_eq in E. destruct E as [->| ->]; apply no_cls; reflexivity.
      + inversion W as [|? ? [->| ->] _]; subst; [apply no_cls; reflexivity|destruct T].
    - apply no_cls. reflexivity.
  Qed.

  Lemma fence_ok : forall kind x m n ws e body ls tail b er g st, In (kind, x, m) fences -> m <= n -> blanks ws -> eol e body ->
    (kind = "fenced"%string -> n = 3 -> match ws with 9%N :: _ => False | _ => True end) ->
    lines_until (delimiter x n) body ls tail ->
    exists b', Ok_ (ERef "DocumentFragment") (Pos b (repeat x n ++ ws ++ e ++ body)) [] (er, g, st)
        (elem (DelimitedBlock kind [] (raw_lines ls))) (Pos b' tail) [] (er, after (set_delim g (Some (Z.of_nat n))), st).
  Proof.
    intros kind x m n ws e body ls tail b er g st I L W E T Q. unfold fences in I. cbn [In] in I.
    repeat match type of I with _ \/ _ => destruct I as [I|I] end; try (injection I as <- <- <-); [..|destruct I].
    - eapply (matched_fragment er g st b (firstn 10 fragment_alts) (skipn 11 fragment_alts) _ _ "example" "example" 61%N 4); eauto;
        try (reflexivity || lia || (split; [|split]; reflexivity)).
      + rewrite (repeat_split _ 4) by lia. apply (no_prefix X cls low white other U G 40 _ true b (repeat 61%N 4)); [vm_compute; reflexivity|discriminate].
      + rewrite (repeat_split _ 4) by lia. apply (no_alts_but b (repeat 61%N 4) _ (er, g, st) (firstn 8 fragment_alts) (ERef "Section") [x_CommentBlock]).
        * vm_compute. reflexivity.
        * rewrite <- (repeat_split _ 4) by lia. apply no_Section; auto. lia.
    - eapply (matched_fragment er g st b (firstn 12 fragment_alts) (skipn 13 fragment_alts) _ _ "fenced" "fenced" 96%N 3); eauto;
        try (reflexivity || lia || (split; [|split]; reflexivity)).
      + rewrite (repeat_split _ 3) by lia. apply (no_prefix X cls low white other U G 40 _ true b (repeat 96%N 3)); [vm_compute; reflexivity|discriminate].
      + rewrite (repeat_split _ 3) by lia. apply (no_alts_but b (repeat 96%N 3) _ (er, g, st) (firstn 11 fragment_alts) x_MarkdownCodeBlock []).
        * vm_compute. reflexivity.
        * rewrite <- (repeat_split _ 3) by lia. apply no_MarkdownCode; [lia|exact W|exact E|exact (T eq_refl)].
    - eapply (matched_fragment er g st b (firstn 13 fragment_alts) (skipn 14 fragment_alts) _ _ "listing" "listing" 45%N 4); eauto;
        try (reflexivity || lia || (split; [|split]; reflexivity)).
      + rewrite (repeat_split _ 4) by lia. apply (no_prefix X cls low white other U G 40 _ true b (repeat 45%N 4)); [vm_compute; reflexivity|discriminate].
      + rewrite (repeat_split _ 4) by lia. apply (no_alts_but b (repeat 45%N 4) _ (er, g, st) (firstn 1 fragment_alts) (ERef "UserMacroBlock") (skipn 2 (firstn 13 fragment_alts))).
        * vm_compute. reflexivity.
        * rewrite <- (repeat_split _ 4) by lia. apply no_UserMacro; auto. lia.
    - eapply (matched_fragment er g st b (firstn 14 fragment_alts) (skipn 15 fragment_alts) _ _ "literal" "listing" 46%N 4); eauto;
        try (reflexivity || lia || (split; [|split]; reflexivity)).
      + rewrite (repeat_split _ 4) by lia. apply (no_prefix X cls low white other U G 40 _ true b (repeat 46%N 4)); [vm_compute; reflexivity|discriminate].
      + rewrite (repeat_split _ 4) by lia. apply (no_alts b (repeat 46%N 4)). vm_compute. reflexivity.
    - eapply (matched_fragment er g st b (firstn 17 fragment_alts) (skipn 18 fragment_alts) _ _ "pass" "pass" 43%N 4); eauto;
        try (reflexivity || lia || (split; [|split]; reflexivity)).
      + rewrite (repeat_split _ 4) by lia. apply (no_prefix X cls low white other U G 40 _ true b (repeat 43%N 4)); [vm_compute; reflexivity|discriminate].
      + rewrite (repeat_split _ 4) by lia. apply (no_alts b (repeat 43%N 4)). vm_compute. reflexivity.
    - eapply (matched_fragment er g st b (firstn 18 fragment_alts) (skipn 19 fragment_alts) _ _ "quote" "quote" 95%N 4); eauto;
        try (reflexivity || lia || (split; [|split]; reflexivity)).
      + rewrite (repeat_split _ 4) by lia. apply (no_prefix X cls low white other U G 40 _ true b (repeat 95%N 4)); [vm_compute; reflexivity|discriminate].
      + rewrite (repeat_split _ 4) by lia. apply (no_alts_but b (repeat 95%N 4) _ (er, g, st) (firstn 1 fragment_alts) (ERef "UserMacroBlock") (skipn 2 (firstn 18 fragment_alts))).
        * vm_compute. reflexivity.
        * rewrite <- (repeat_split _ 4) by lia. apply no_UserMacro; auto. lia.
    - eapply (matched_fragment er g st b (firstn 19 fragment_alts) (skipn 20 fragment_alts) _ _ "sidebar" "sidebar" 42%N 4); eauto;
        try (reflexivity || lia || (split; [|split]; reflexivity)).
      + rewrite (repeat_split _ 4) by lia. apply (no_prefix X cls low white other U G 40 _ true b (repeat 42%N 4)); [vm_compute; reflexivity|discriminate].
      + rewrite (repeat_split _ 4) by lia. apply (no_alts b (repeat 42%N 4)). vm_compute. reflexivity.
  Qed.

  (** * The other blocks *)
  (** a line against [m] times [x], blanks and the end of the line *)
  Lemma fixed_cases : forall (x : rune) m l, plain_char x -> one_line l ->
    delimiter x m l \/ (forall e t b, eol e t -> lit_from H (repeat x m) false (Pos b (l ++ e ++ t)) = None) \/
    (exists ws y l', l = repeat x m ++ ws ++ y :: l' /\ blanks ws /\ blankb y = false /\ eolb y = false).
  Proof.
    intros x m l P L.
    assert ((exists l', l = repeat x m ++ l') \/ ~ (exists l', l = repeat x m ++ l')) as [(l' & ->)|N].
    { destruct (span_char x l) as (k & l2 & -> & Hd). destruct (le_lt_dec m k) as [Lk|Lk].
      - left. exists (repeat x (k - m) ++ l2). now apply repeat_split.
      - right. intros (l' & E). rewrite (repeat_split x k m) in E by lia. apply app_inv_head in E. subst l2.
        destruct (m - k) eqn:Em; [lia|]. cbn in Hd. rewrite N.eqb_refl in Hd. discriminate. }
    - destruct (span_blanks l') as (ws & l2 & -> & W & Hb). destruct l2 as [|y l2].
      + left. exists ws. rewrite app_nil_r. auto.
      + right. right. exists ws, y, l2. repeat split; auto. apply (proj1 (one_line_spec _) L). rewrite !in_app_iff. right. right. now left.
    - right. left. intros e t b E. destruct (lit_from H (repeat x m) false (Pos b (l ++ e ++ t))) eqn:El; auto.
      exfalso. apply N. eapply (lit_prefix H x m l (e ++ t) b); [now apply plain_not_error|congruence|now apply eol_at|apply P].
  Qed.
  Definition openE : expr := x_OpenBlockDelimiter.
  Lemma plain_dash : plain_char 45%N. Proof. split; [|split]; reflexivity. Qed.
  Lemma plain_tick : plain_char 96%N. Proof. split; [|split]; reflexivity. Qed.
  Lemma plain_slash : plain_char 47%N. Proof. split; [|split]; reflexivity. Qed.
  Lemma ok_openE : forall ws e t b en er g st, blanks ws -> eol e t -> exists b' en',
    Ok_ openE (Pos b (repeat 45%N 2 ++ ws ++ e ++ t)) en (er, g, st) (delimV X "open" 2) (Pos b' t) en' (er, g, st).
  Proof.
    intros ws e t b en er g st W E.
    destruct (ok_EOL H G e t (rev ws ++ repeat 45%N 2 ++ b) (("delimiter"%string, VStr (repeat 45%N 2)) :: en) (er, g, st) E) as (v & b' & O).
    exists b', (("delimiter"%string, VStr (repeat 45%N 2)) :: en). eapply ok_act.
    - apply ok_seq. eapply seq_cons; [eapply ok_lab; eapply ok_act; [apply (ok_lit H G (repeat 45%N 2))|rewrite slice_app; apply act_text]|].
      eapply seq_cons; [apply ok_Spaces0; [exact W|now apply at_eol_not_blank, eol_at]|].
      eapply seq_cons; [exact O|apply seq_nil].
    - eapply act_known; [vm_compute; reflexivity|]. intros s Es _. unfold run_akind. cbn [label String.eqb Ascii.eqb Bool.eqb].
      apply core_store in Es. destruct Es as [-> _]. reflexivity.
  Qed.
  Lemma no_openE : forall l e t b en c, one_line l -> eol e t -> ~ delimiter 45%N 2 l -> No_ openE (Pos b (l ++ e ++ t)) en c c.
  Proof.
    intros l e t b en c L E N. apply no_act. destruct (fixed_cases 45%N 2 l plain_dash L) as [D|[F|(ws & y & l' & -> & W & By & Ey)]].
    - destruct (N D).
    - apply no_seq1_c, no_lab, no_act, no_lit. now apply F.
    - rewrite <- !app_assoc. cbn [app]. eapply (no_seq_c H G [_; _]).
      + eapply seq_cons; [eapply ok_lab; eapply ok_act; [apply (ok_lit H G (repeat 45%N 2))|rewrite slice_app; apply act_text]|].
        eapply seq_cons; [apply ok_Spaces0; [exact W|exact By]|apply seq_nil].
      + now apply no_EOL.
  Qed.
  Lemma no_eof_alt : forall l e t b c, l ++ e <> [] -> No_ (EAlt [x_EOF]) (Pos b (l ++ e ++ t)) [] c c.
  Proof.
    intros l e t b c Ne. apply no_alt_c; [|apply no_alt_nil]. destruct l as [|y l]; cbn [app]; [|apply no_EOF].
    destruct e as [|y e]; [cbn in Ne; congruence|]. apply no_EOF.
  Qed.
  Lemma ok_OpenBlock : forall ws e body ls tail b er g st, blanks ws -> eol e body -> lines_until (delimiter 45%N 2) body ls tail ->
    exists b' en', Ok_ x_OpenBlock (Pos b (repeat 45%N 2 ++ ws ++ e ++ body)) [] (er, g, st)
        (elem (DelimitedBlock "open" [] (raw_lines ls))) (Pos b' tail) en' (er, g, st).
  Proof.
    intros ws e body ls tail b er g st W E Q.
    destruct (ok_openE ws e body b [] er g st W E) as (b1 & en1 & O1).
    destruct (content_ok X cls low white other G x_OpenBlockEndDelimiter (delimiter 45%N 2) er g st) with (text := body) (ls := ls) (tail := tail) (b := b1)
        as (b2 & t2 & b3 & v & O2 & O3); auto.
    - intros l e' t b' _ _ (w & W' & ->) E'. destruct (ok_openE w e' t b' [] er g st W' E') as (b2 & en2 & O). 
      do 2 eexists. eapply ok_alt_here. rewrite <- app_assoc. exact O.
    - intros l e' t b' Ll Ne S E'. apply no_alt_c; [now apply no_openE|]. now apply no_eof_alt.
    - intros b'. left. eexists. eapply ok_alt_c; [|eapply ok_alt_here, ok_EOF].
      apply no_act, no_seq1_c, no_lab, no_act. apply no_lit_end. discriminate.
    - do 2 eexists. eapply ok_act.
      + apply ok_seq. eapply seq_cons; [eapply ok_lab, O1|].
        eapply seq_cons; [eapply ok_lab, ok_star, O2|].
        eapply seq_cons; [eapply ok_lab, O3|apply seq_nil].
      + eapply act_known; [vm_compute; reflexivity|]. intros s Es _. unfold run_akind. cbn [label String.eqb Ascii.eqb Bool.eqb].
        rewrite vals_lines, end_lines_spec. apply core_store in Es. destruct Es as [-> _]. reflexivity.
  Qed.
  Lemma open_ok : forall ws e body ls tail b er g st, blanks ws -> eol e body -> lines_until (delimiter 45%N 2) body ls tail ->
    exists b', Ok_ (ERef "DocumentFragment") (Pos b (repeat 45%N 2 ++ ws ++ e ++ body)) [] (er, g, st)
        (elem (DelimitedBlock "open" [] (raw_lines ls))) (Pos b' tail) [] (er, after g, st).
  Proof.
    intros ws e body ls tail b er g st W E Q. destruct (ok_OpenBlock ws e body ls tail b er g st W E Q) as (b' & en' & O).
    exists b'. eapply (fragment_ok (firstn 16 fragment_alts) x_OpenBlock (skipn 17 fragment_alts)); [reflexivity| | |exact O|reflexivity].
    - apply (no_prefix X cls low white other U G 40 _ true b [45%N; 45%N]); [vm_compute; reflexivity|discriminate].
    - intros a I. 
      assert (a = ERef "UserMacroBlock" \/ a = x_ListingBlock \/
              In a (firstn 1 fragment_alts ++ skipn 2 (firstn 13 fragment_alts) ++ skipn 14 (firstn 16 fragment_alts))) as [->|[->|I2]].
      { cbn in I |- *. intuition. }
      + apply (no_UserMacro 45%N 2 ws e body b); auto.
      + apply no_act, no_seq1_c, no_lab.
        change (No_ x_ListingBlockDelimiter (Pos b (repeat 45%N 2 ++ ws ++ e ++ body)) [] (er, g, st) (er, g, st)).
        rewrite (app_assoc (repeat 45%N 2)).
        apply (no_delimE H G _ 45%N 4); auto using plain_dash.
        * apply one_line_spec. intros r I2. rewrite in_app_iff in I2. destruct I2 as [I2|I2]; [apply repeat_spec in I2; subst; reflexivity|].
          unfold blanks in W. rewrite Forall_forall in W. destruct (W _ I2) as [->| ->]; reflexivity.
        * intros k K D. assert (2 = k); [|lia]. eapply (delimiter_unique 45%N); [apply plain_dash| |exact D]. exists ws. auto.
      + eapply (no_alts b [45%N; 45%N]); [|exact I2]. vm_compute. reflexivity.
  Qed.

  Lemma ok_CommentBlock : forall n ws e body ls tail b er g st, 4 <= n -> blanks ws -> eol e body -> lines_until comment_end body ls tail ->
    exists b' en', Ok_ x_CommentBlock (Pos b (repeat 47%N n ++ ws ++ e ++ body)) [] (er, g, st)
        (elem (DelimitedBlock "comment" [] (raw_lines ls))) (Pos b' tail) en' (er, g, st).
  Proof.
    intros n ws e body ls tail b er g st L W E Q.
    assert (assoc known_acts "return types.NewBlockDelimiter(types.Comment, len(delimiter.(string)), string(c.text))" = Some (KDelim "comment")) as KD
      by (vm_compute; reflexivity).
    destruct (ok_delimE X cls low white other G _ "comment" 47%N 4 n ws e body b [] er g st KD plain_slash L W E) as (b1 & en1 & O1).
    destruct (content_ok X cls low white other G x_CommentBlockEndDelimiter comment_end er g st) with (text := body) (ls := ls) (tail := tail) (b := b1)
        as (b2 & t2 & b3 & v & O2 & O3); auto.
    - intros l e' t b' _ _ (k & K & (w & W' & ->)) E'.
      destruct (ok_delimE X cls low white other G _ "comment" 47%N 4 k w e' t b' [] er g st KD plain_slash K W' E') as (b2 & en2 & O).
      do 2 eexists. eapply ok_alt_here. rewrite <- app_assoc. exact O.
    - intros l e' t b' Ll Ne S E'. apply no_alt_c; [|now apply no_eof_alt]. apply (no_delimE H G _ 47%N 4); auto using plain_slash.
      intros k K D. apply S. exists k. auto.
    - intros b'. left. eexists. eapply ok_alt_c; [|eapply ok_alt_here, ok_EOF].
      apply no_act, no_seq1_c, no_lab, no_act, no_seq1_c. apply no_lit_end. discriminate.
    - do 2 eexists. eapply ok_act.
      + apply ok_seq. eapply seq_cons; [exact O1|].
        eapply seq_cons; [eapply ok_lab, ok_star, O2|].
        eapply seq_cons; [apply O3|apply seq_nil].
      + eapply act_known; [vm_compute; reflexivity|]. intros s Es _. unfold run_akind. cbn [label String.eqb Ascii.eqb Bool.eqb].
        rewrite vals_lines, end_lines_spec. apply core_store in Es. destruct Es as [-> _]. reflexivity.
  Qed.
  Lemma no_Header : forall b t er g st, isDocumentHeaderAllowed g = false -> No_ (ERef "DocumentHeader") (Pos b t) [] (er, g, st) (er, g, st).
  Proof.
    intros b t er g st N. eapply no_ref; [reflexivity|]. apply no_act, no_seq1_c, no_pred, pred_host.
    intros s Es. apply core_store in Es. destruct Es as [<- _]. cbn. unfold go_pred. cbn. now rewrite N.
  Qed.
  Lemma no_slash_alts : forall b t c, match t with [] => True | r :: _ => r <> 47%N end ->
    No_ (EAlt [x_SinglelineComment; x_CommentBlock]) (Pos b t) [] c c.
  Proof.
    intros b t c T. apply no_alt_c; [|apply no_alt_c; [|apply no_alt_nil]].
    - apply no_act. destruct t as [|r t].
      + apply no_seq1_c. apply no_lit_end. discriminate.
      + apply no_seq1_c. apply no_lit1. intros EQ. apply T. now symmetry.
    - apply no_act, no_seq1_c, no_act, no_seq1_c, no_lab, no_act, no_seq1_c. destruct t as [|r t]; [apply no_lit_end; discriminate|apply no_lit1; intros EQ; apply T; now symmetry].
  Qed.
  Lemma comment_ok : forall n ws e body ls tail b er g st, 4 <= n -> blanks ws -> eol e body -> lines_until comment_end body ls tail ->
    isDocumentHeaderAllowed g = false \/ match tail with 47%N :: _ | 61%N :: _ => False | _ => True end ->
    exists b', Ok_ (ERef "DocumentFragment") (Pos b (repeat 47%N n ++ ws ++ e ++ body)) [] (er, g, st)
        (elem (DelimitedBlock "comment" [] (raw_lines ls))) (Pos b' tail) [] (er, after g, st).
  Proof.
    intros n ws e body ls tail b er g st L W E Q T. destruct (ok_CommentBlock n ws e body ls tail b er g st L W E Q) as (b' & en' & O).
    assert (No_ (ERef "DocumentHeader") (Pos b (repeat 47%N n ++ ws ++ e ++ body)) [] (er, g, st) (er, g, st)) as NH.
    { destruct (isDocumentHeaderAllowed g) eqn:Eh; [|now apply no_Header]. destruct T as [T|T]; [discriminate|].
      eapply no_ref; [reflexivity|]. apply no_act. eapply (no_seq_c H G [_; _]).
      - eapply seq_cons; [apply ok_pred, pred_host with (g' := g)|].
        { intros s Es. apply core_store in Es. destruct Es as [<- _]. cbn. unfold go_pred. cbn. rewrite Eh. reflexivity. }
        eapply seq_cons; [apply ok_star|apply seq_nil]. eapply star_more.
        + eapply ok_alt_c; [|eapply ok_alt_here, O]. rewrite (repeat_split _ 4) by lia.
          apply (no_prefix X cls low white other U G 40 _ true b (repeat 47%N 4)); [vm_compute; reflexivity|discriminate].
        + apply star_stop, no_slash_alts. destruct tail as [|r tail]; auto. intros ->. exact T.
      - apply no_lab. eapply no_ref; [reflexivity|]. apply no_act, no_seq1_c. destruct tail as [|r tail]; [apply no_lit_end; discriminate|].
        apply no_lit1. intros <-. exact T. }
    exists b'. assert (exists t', repeat 47%N n ++ ws ++ e ++ body = 47%N :: t') as (t' & Et) by (destruct n; [lia|]; eexists; reflexivity).
    assert (No_ (ERef "BlockAttributes") (Pos b (repeat 47%N n ++ ws ++ e ++ body)) [] (er, g, st) (er, g, st)) as NB.
    { rewrite (repeat_split _ 4) by lia.
      apply (no_prefix X cls low white other U G 40 _ true b (repeat 47%N 4)); [vm_compute; reflexivity|discriminate]. }
    assert (forall a, In a (firstn 9 fragment_alts) -> No_ a (Pos b (repeat 47%N n ++ ws ++ e ++ body)) [] (er, g, st) (er, g, st)) as NA.
    { rewrite (repeat_split _ 4) by lia.
      apply (no_alts_but b (repeat 47%N 4) _ (er, g, st) (firstn 7 fragment_alts) (ERef "DocumentHeader") (skipn 8 (firstn 9 fragment_alts))).
      - vm_compute. reflexivity.
      - rewrite <- (repeat_split _ 4) by lia. exact NH. }
    rewrite Et in *. eapply (fragment_ok (firstn 9 fragment_alts) x_CommentBlock (skipn 10 fragment_alts)); eauto.
  Qed.

  (** ``` followed by a language *)
  Lemma ok_lang : forall lang t b en c, language lang -> match t with [] => True | r :: _ => r = 10 \/ r = 13 \/ r = 96 \/ r = 32 end%N ->
    Ok_ x_Language (Pos b (lang ++ t)) en c (VStr lang) (Pos (rev lang ++ b) t) en c.
  Proof.
    intros lang t b en c (Ne & F) T. eapply ok_act; [apply ok_plus with (vs := map (fun r => VBytes [r]) lang)|rewrite slice_app; apply act_text].
    - apply star_cls.
      + intros r I. rewrite Forall_forall in F. destruct (F r I) as (A & B & C & D). unfold in_cls. cbn [existsb].
        apply N.eqb_neq in A, B, C, D. now rewrite (N.eqb_sym r 13), (N.eqb_sym r 10), (N.eqb_sym r 96), (N.eqb_sym r 32), (N.eqb_sym 13 r), (N.eqb_sym 10 r), (N.eqb_sym 96 r), (N.eqb_sym 32 r), A, B, C, D.
      + destruct t as [|r t]; [exact Logic.I|]. destruct T as [->|[->|[->| ->]]]; reflexivity.
    - destruct lang; [congruence|discriminate].
  Qed.
  Lemma ok_MarkdownCode : forall lang ws e body ls tail b er g st, language lang -> blanks ws -> match ws with 9%N :: _ => False | _ => True end ->
    eol e body -> lines_until (delimiter 96%N 3) body ls tail ->
    exists b' en', Ok_ x_MarkdownCodeBlock (Pos b (repeat 96%N 3 ++ lang ++ ws ++ e ++ body)) [] (er, g, st)
        (elem (DelimitedBlock "listing" (code_attrs lang) (raw_lines ls))) (Pos b' tail) en' (er, g, st).
  Proof.
    intros lang ws e body ls tail b er g st Lg W T E Q.
    set (D := VHost (HDelim "fenced" 3 (code_attrs lang)) : value (HV H)).
    assert (exists b1 en1, Ok_ x_MarkdownCodeDelimiter (Pos b (repeat 96%N 3 ++ lang ++ ws ++ e ++ body)) [] (er, g, st) D (Pos b1 body) en1 (er, g, st)) as (b1 & en1 & O1).
    { destruct (ok_EOL H G e body (rev ws ++ rev lang ++ repeat 96%N 3 ++ b) [("language"%string, VStr lang)] (er, g, st) E) as (v & b1 & O).
      exists b1, [("language"%string, VStr lang)]. eapply ok_act.
      - apply ok_seq. eapply seq_cons; [apply (ok_lit H G (repeat 96%N 3))|].
        eapply seq_cons; [eapply ok_lab, ok_lang; [exact Lg|]|].
        { destruct ws as [|w ws]; cbn [app].
          - apply eol_at in E. destruct (e ++ body) as [|r u]; [exact Logic.I|]. cbn [at_eol] in E. unfold eolb in E.
            apply orb_true_iff in E. rewrite !N.eqb_eq in E. tauto.
          - inversion W as [|? ? [->| ->] _]; subst; [tauto|destruct T]. }
        eapply seq_cons; [apply ok_Spaces0; [exact W|now apply at_eol_not_blank, eol_at]|].
        eapply seq_cons; [exact O|apply seq_nil].
      - eapply act_known; [vm_compute; reflexivity|]. intros s Es _. unfold run_akind. cbn [label String.eqb Ascii.eqb Bool.eqb].
        apply core_store in Es. destruct Es as [-> _]. reflexivity. }
    destruct (content_ok X cls low white other G x_MarkdownCodeBlockEndDelimiter (delimiter 96%N 3) er g st) with (text := body) (ls := ls) (tail := tail) (b := b1)
        as (b2 & t2 & b3 & v & O2 & O3); auto.
    - intros l e' t b' _ _ (w & W' & ->) E'. destruct (ok_EOL H G e' t (rev w ++ repeat 96%N 3 ++ b') [] (er, g, st) E') as (v & b2 & O).
      do 2 eexists. rewrite <- app_assoc. apply ok_seq. eapply seq_cons; [apply (ok_lit H G (repeat 96%N 3))|].
      eapply seq_cons; [apply ok_Spaces0; [exact W'|now apply at_eol_not_blank, eol_at]|].
      eapply seq_cons; [exact O|apply seq_nil].
    - intros l e' t b' Ll Ne N E'. destruct (fixed_cases 96%N 3 l plain_tick Ll) as [Dl|[F|(w & y & l' & -> & W' & By & Ey)]].
      + destruct (N Dl).
      + apply no_seq1_c, no_lit. now apply F.
      + rewrite <- !app_assoc. cbn [app]. eapply (no_seq_c H G [_; _]).
        * eapply seq_cons; [apply (ok_lit H G (repeat 96%N 3))|].
          eapply seq_cons; [apply ok_Spaces0; [exact W'|exact By]|apply seq_nil].
        * now apply no_EOL.
    - intros b'. right. apply no_seq1_c, no_lit_end. discriminate.
    - do 2 eexists. eapply ok_act.
      + apply ok_seq. eapply seq_cons; [eapply ok_lab, O1|].
        eapply seq_cons; [eapply ok_lab, ok_star, O2|].
        eapply seq_cons; [apply O3|apply seq_nil].
      + eapply act_known; [vm_compute; reflexivity|]. intros s Es _. unfold run_akind, D. cbn [label String.eqb Ascii.eqb Bool.eqb].
        rewrite vals_lines, end_lines_spec. apply core_store in Es. destruct Es as [-> _]. reflexivity.
  Qed.
  Lemma code_ok : forall lang ws e body ls tail b er g st, language lang -> blanks ws -> match ws with 9%N :: _ => False | _ => True end ->
    eol e body -> lines_until (delimiter 96%N 3) body ls tail ->
    exists b', Ok_ (ERef "DocumentFragment") (Pos b (repeat 96%N 3 ++ lang ++ ws ++ e ++ body)) [] (er, g, st)
        (elem (DelimitedBlock "listing" (code_attrs lang) (raw_lines ls))) (Pos b' tail) [] (er, after g, st).
  Proof.
    intros lang ws e body ls tail b er g st Lg W T E Q. destruct (ok_MarkdownCode lang ws e body ls tail b er g st Lg W T E Q) as (b' & en' & O).
    exists b'. eapply (fragment_ok (firstn 11 fragment_alts) x_MarkdownCodeBlock (skipn 12 fragment_alts)); [reflexivity| | |exact O|reflexivity].
    - apply (no_prefix X cls low white other U G 40 _ true b (repeat 96%N 3)); [vm_compute; reflexivity|discriminate].
    - intros a I. eapply (no_alts b (repeat 96%N 3)); [|exact I]. vm_compute. reflexivity.
  Qed.
End Fragment.
