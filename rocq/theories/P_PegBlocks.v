(** The delimited blocks: their content is read verbatim. *)
From Coq Require Import List String NArith ZArith Bool Ascii Arith Lia.
From Verif Require Import GoBase Utf8 Types Attrs Elements Peg PegGrammar PegHost PegSym PegBlockSpec P_PegRun P_PegLines.
Import ListNotations.
Local Open Scope list_scope.

(** * Strings *)
Lemma trim_right_set_app : forall cs a c, existsb (Ascii.eqb c) cs = false ->
  trim_right_set cs (a ++ String c "")%string = (a ++ String c "")%string.
Proof.
  intros cs a c E. induction a as [|x a IH]; cbn [append trim_right_set].
  - cbn. now rewrite E.
  - rewrite IH. destruct a; reflexivity.
Qed.
Lemma trim_right_set_blank : forall cs a c, existsb (Ascii.eqb c) cs = true ->
  trim_right_set cs (a ++ String c "")%string = trim_right_set cs a.
Proof.
  intros cs a c E. induction a as [|x a IH]; cbn [append trim_right_set].
  - cbn. now rewrite E.
  - now rewrite IH.
Qed.
Lemma sapp_assoc : forall a b c, ((a ++ b) ++ c = a ++ (b ++ c))%string.
Proof. induction a as [|x a IH]; intros b c; cbn; congruence. Qed.
Lemma sapp_nil : forall a, (a ++ "" = a)%string.
Proof. induction a; cbn; congruence. Qed.
Lemma encode_runes_app : forall a b, encode_runes (a ++ b) = (encode_runes a ++ encode_runes b)%string.
Proof.
  intros a b. unfold encode_runes, sconcat. rewrite map_app. induction (map encode_rune a) as [|x l IH]; cbn; auto.
  now rewrite IH, sapp_assoc.
Qed.
Lemma encode_one : forall r, encode_runes [r] = encode_rune r.
Proof. intros r. unfold encode_runes. cbn. apply sapp_nil. Qed.
(** the bytes of a rune that is not a blank: the last one is not a blank *)
Lemma encode_last : forall r : N, blankb r = false -> exists a c, encode_rune r = (a ++ String c "")%string /\
  existsb (Ascii.eqb c) [" "%char; "009"%char] = false.
Proof.
  intros r B.
  assert (forall n, (128 <= n < 256)%N -> existsb (Ascii.eqb (chr n)) [" "%char; "009"%char] = false) as Hi.
  { intros n (L1 & L2). cbn. rewrite orb_false_r. apply orb_false_iff.
    split; apply Ascii.eqb_neq; intros E; apply (f_equal N_of_ascii) in E; unfold chr in E; rewrite N_ascii_embedding in E by exact L2;
      cbn in E; lia. }
  assert (forall n, (128 + n mod 64 < 256)%N) as Md by (intros n; pose proof (N.mod_lt n 64 ltac:(lia)); lia).
  unfold encode_rune. destruct (N.ltb_spec r 128) as [L|L].
  - exists ""%string, (chr r). split; [reflexivity|]. cbn. rewrite orb_false_r. unfold blankb in B.
    apply orb_false_iff in B. destruct B as [B1 B2]. apply N.eqb_neq in B1, B2.
    apply orb_false_iff. split; apply Ascii.eqb_neq; intros E; apply (f_equal N_of_ascii) in E; unfold chr in E;
      rewrite N_ascii_embedding in E by lia; cbn in E; congruence.
  - destruct (N.ltb r 2048).
    + eexists (String _ ""), _. split; [reflexivity|]. apply Hi. split; [apply N.le_add_r|apply Md].
    + destruct (((55296 <=? r) && (r <=? 57343))%N || (1114111 <? r)%N).
      * eexists (String _ (String _ "")), _. split; [reflexivity|]. vm_compute. reflexivity.
      * destruct (N.ltb r 65536).
        -- eexists (String _ (String _ "")), _. split; [reflexivity|]. apply Hi. split; [apply N.le_add_r|apply Md].
        -- eexists (String _ (String _ (String _ ""))), _. split; [reflexivity|]. apply Hi. split; [apply N.le_add_r|apply Md].
Qed.
Lemma rstrip_snoc : forall l r, rstrip (l ++ [r]) = if blankb r then rstrip l else l ++ [r].
Proof.
  intros l r. unfold rstrip. rewrite rev_app_distr. cbn [rev app skip_blanks]. unfold blankb. destruct (N.eqb r 32 || N.eqb r 9); auto.
  cbn [rev]. now rewrite rev_involutive.
Qed.
Lemma newRawLine_spec : forall l, newRawLine (encode_runes l) = RawLine (encode_runes (rstrip l)).
Proof.
  intros l. unfold newRawLine. f_equal. induction l as [|r l IH] using rev_ind; [reflexivity|].
  rewrite encode_runes_app, encode_one, rstrip_snoc. destruct (blankb r) eqn:B.
  - unfold blankb in B. apply orb_true_iff in B. rewrite !N.eqb_eq in B. rewrite <- IH.
    destruct B as [->| ->]; apply trim_right_set_blank; reflexivity.
  - destruct (encode_last r B) as (a & c & E & N). rewrite E, <- sapp_assoc, trim_right_set_app by exact N.
    rewrite sapp_assoc, <- E, <- encode_one, <- encode_runes_app. reflexivity.
Qed.
Lemma end_lines_spec : forall ls, end_lines (map (fun l => newRawLine (encode_runes l)) ls) = raw_lines ls.
Proof.
  induction ls as [|l [|l2 ls] IH]; [reflexivity| |].
  - cbn. now rewrite newRawLine_spec.
  - change (map (fun l => newRawLine (encode_runes l)) (l :: l2 :: ls))
      with (newRawLine (encode_runes l) :: map (fun l => newRawLine (encode_runes l)) (l2 :: ls)).
    rewrite newRawLine_spec.
    change (raw_lines (l :: l2 :: ls)) with (RawLine (encode_runes (rstrip l) ++ LF) :: raw_lines (l2 :: ls)). rewrite <- IH.
    reflexivity.
Qed.
Lemma byte_len_repeat : forall x k, (x < 128)%N -> byte_len (repeat x k) = Z.of_nat k.
Proof.
  intros x k L. induction k as [|k IH]; [reflexivity|]. cbn [repeat]. change (byte_len (x :: repeat x k)) with (rune_len x + byte_len (repeat x k))%Z.
  rewrite IH. unfold rune_len. destruct (N.ltb_spec x 128); lia.
Qed.

(** predicates that only read the store, c.state and c.text *)
Definition quiet_name (c : string) : bool := existsb (String.eqb c)
  ["return !c.isPrecededBySpace(), nil"; "return c.isPrecededBySpace(), nil"; "return c.isPrecededByAlphanum(), nil";
   "return c.isSingleQuotedTextAllowed(), nil"; "return !c.isWithinDelimitedBlock(), nil"; "return !c.isWithinLiteralParagraph(), nil";
   "return c.isDocumentHeaderAllowed(), nil"; "return c.isFrontMatterAllowed(), nil"; "return c.isExperimentalEnabled(), nil";
   "return c.isSectionEnabled(), nil"; "return c.allSubstitutionsDisabled(Macros, Quotes), nil"; "return c.isSubstitutionDisabled(Quotes), nil";
   "return c.isSubstitutionEnabled(AttributeRefs), nil"; "return c.isSubstitutionEnabled(Callouts), nil";
   "return c.isSubstitutionEnabled(InlinePassthroughs), nil"; "return c.isSubstitutionEnabled(Macros), nil";
   "return c.isSubstitutionEnabled(PostReplacements), nil"; "return c.isSubstitutionEnabled(Quotes), nil";
   "return c.isSubstitutionEnabled(Replacements), nil"; "return c.isSubstitutionEnabled(SpecialCharacters), nil";
   "return c.isInlineMacro(string(c.text)), nil"]%string.

(** the alternatives of DocumentFragment *)
Definition fragment_alts : list expr :=
  match g_DocumentFragment with
  | EAct _ (ESeq [_; _; _; ELab _ (EOpt (EAlt l)); _]) => l
  | _ => []
  end.

Section Blocks.
  Variable X : Type.
  Variable cls : string -> rune -> bool.
  Variable low : rune -> rune.
  Variable white : rune -> bool.
  Variable other : string -> labels (hv X) -> soft gstore (option (list string)) -> option (value (hv X) * bool).
  Notation H := (go_host X cls low white other).
  Hypothesis U : unicode_ok H.
  Variable G : grammar.
  Notation Ok_ := (Ok_ H G).
  Notation No_ := (No_ H G).
  Notation Star_ := (Star_ H G).
  Notation Seq_ := (Seq_ H G).
  Notation core := (core H).

  Lemma quiet_ok : forall c, quiet_name c = true -> forall en s, exists b, h_pred H c en s = Some (b, false, c_store s).
  Proof.
    intros c Q en s. unfold quiet_name in Q. apply existsb_exists in Q. destruct Q as (n & I & E). apply String.eqb_eq in E. subst n.
    cbn [In] in I. repeat (destruct I as [<-|I]; [eexists; reflexivity|]). destruct I.
  Qed.
  Lemma no_prefix : forall k e (opened : bool) b pre tail c, fails_on G quiet_name k e opened b pre = true -> (opened = false -> tail = []) ->
    No_ e (Pos b (pre ++ tail)) [] c c.
  Proof. intros. eapply no_sym; eauto using quiet_ok. Qed.
  Lemma ok_alt_skip : forall es1 e es2 p en c v p' en' c', (forall x, In x es1 -> No_ x p [] c c) -> Ok_ e p [] c v p' en' c' ->
    Ok_ (EAlt (es1 ++ e :: es2)) p en c v p' en c'.
  Proof.
    induction es1 as [|x es1 IH]; intros e es2 p en c v p' en' c' F O; cbn [app].
    - eapply ok_alt_here; eauto.
    - eapply ok_alt_next; [apply F; now left|]. rewrite kback_id. eapply IH; eauto. intros y I. apply F. now right.
  Qed.

  Lemma act_known : forall code k en text er g t v g', assoc known_acts code = Some k ->
    (forall s : soft gstore (option (list string)), core_of (H := H) s = (er, g, t) -> c_text s = text -> run_akind X white k en s = Some (Some (v, false, g'))) ->
    act_at H (AHost code) en text (er, g, t) v (er, g', t).
  Proof.
    intros code k en text er g t v g' K R. apply act_host. intros s E T. change (h_act H) with (go_act X white other). unfold go_act.
    now rewrite K, (R s E T).
  Qed.

  Lemma core_store : forall (s : soft gstore (option (list string))) er g t,
    core_of (H := H) s = (er, g, t) -> c_store s = g /\ c_state s = t.
  Proof. intros s er g t E. unfold core_of in E. injection E as _ -> ->. auto. Qed.

  (** DelimitedBlockRawLine *)
  Lemma ok_RawLine : forall l e t b en er g st, one_line l -> l ++ e <> [] -> eol e t -> exists b' en',
    Ok_ x_DelimitedBlockRawLine (Pos b (l ++ e ++ t)) en (er, g, st) (elem (newRawLine (encode_runes l))) (Pos b' t) en' (er, g, st).
  Proof.
    intros l e t b en er g st L Ne E. destruct (ok_EOL H G e t (rev l ++ b) (("content"%string, VStr l) :: en) (er, g, st) E) as (v & b' & O).
    assert (Ok_ x_NotEOF (Pos b (l ++ e ++ t)) en (er, g, st) VNil (Pos b (l ++ e ++ t)) en (er, g, st)) as NE.
    { clear - Ne. destruct l as [|x l]; cbn [app]; [|apply ok_NotEOF]. destruct e as [|x e]; [cbn in Ne; congruence|]. cbn [app]. apply ok_NotEOF. }
    exists b', (("content"%string, VStr l) :: en). eapply ok_act.
    - apply ok_seq. eapply seq_cons; [exact NE|].
      eapply seq_cons; [eapply ok_lab, ok_AnyChars; [exact L|now apply eol_at]|].
      eapply seq_cons; [exact O|apply seq_nil].
    - eapply act_known; [vm_compute; reflexivity|]. intros s Es _. unfold run_akind. cbn [label String.eqb Ascii.eqb Bool.eqb].
      apply core_store in Es. destruct Es as [-> _]. reflexivity.
  Qed.

  (** the lines of a block *)
  Section Content.
    Variable endE : expr.
    Variable stop : list rune -> Prop.
    Variables (er : bool) (g : gstore) (st : option (list string)).
    Notation c := ((er, g, st) : core).
    Hypothesis Hstop : forall l e t b, one_line l -> l <> [] -> stop l -> eol e t -> exists v b', Ok_ endE (Pos b (l ++ e ++ t)) [] c v (Pos b' t) [] c.
    Hypothesis Hgo : forall l e t b, one_line l -> l ++ e <> [] -> ~ stop l -> eol e t -> No_ endE (Pos b (l ++ e ++ t)) [] c c.
    Hypothesis Hend : forall b, (exists v, Ok_ endE (Pos b []) [] c v (Pos b []) [] c) \/ No_ endE (Pos b []) [] c c.
    Definition lineE : expr := EAct (ALabel "line") (ESeq [ENot endE; ELab "line" x_DelimitedBlockRawLine]).

    Lemma content_ok : forall text ls tail, lines_until stop text ls tail -> forall b, exists b' t' b'' v,
      Star_ lineE (Pos b text) c (map (fun l => elem (newRawLine (encode_runes l))) ls) (Pos b' t') c /\
      forall en, Ok_ (EOpt endE) (Pos b' t') en c v (Pos b'' tail) en c.
    Proof.
      intros text ls tail Q. induction Q as [|l e tail L Ne S E|l e t ls tail L Ne S E Q IH]; intros b.
      - destruct (Hend b) as [(v & O)|NO].
        2:{ exists b, [], b, VNil. split; [|intros en; now apply ok_opt_none]. apply star_stop, no_act.
            eapply (no_seq_c H G [_]); [eapply seq_cons; [apply ok_not_c, NO|apply seq_nil]|]. 
            apply no_lab, no_act, no_seq1_c, no_NotEOF. }
        exists b, [], b, v. split; [|intros en; eapply ok_opt_some; exact O].
        apply star_stop, no_act. replace c with (kback (H := H) c c) at 2 by apply kback_id. apply no_seq1.
        replace c with (kback (H := H) c c) at 2 by apply kback_id. eapply no_not. exact O.
      - destruct (Hstop l e tail b L Ne S E) as (v & b' & O). exists b, (l ++ e ++ tail), b', v.
        split; [|intros en; eapply ok_opt_some; exact O].
        apply star_stop, no_act. replace c with (kback (H := H) c c) at 2 by apply kback_id. apply no_seq1.
        replace c with (kback (H := H) c c) at 2 by apply kback_id. eapply no_not. exact O.
      - destruct (ok_RawLine l e t b [] er g st L Ne E) as (b1 & en1 & O1).
        destruct (IH b1) as (b' & t' & b'' & v & O2 & O3). exists b', t', b'', v. split; [|exact O3].
        cbn [map]. eapply star_more; [|exact O2]. eapply ok_act.
        + apply ok_seq. eapply seq_cons; [apply ok_not, Hgo; auto|]. rewrite kback_id.
          eapply seq_cons; [eapply ok_lab; exact O1|apply seq_nil].
        + apply act_label.
    Qed.
  End Content.

  (** delimiters *)
  Definition delimV (kind : string) (k : nat) : value (hv X) := VHost (HDelim kind (Z.of_nat k) []).
  Lemma ok_delimE : forall code kind x m k ws e t b en er g st, assoc known_acts code = Some (KDelim kind) -> plain_char x -> 
    m <= k -> blanks ws -> eol e t -> exists b' en',
    Ok_ (delimE code x m) (Pos b (repeat x k ++ ws ++ e ++ t)) en (er, g, st) (delimV kind k) (Pos b' t) en' (er, g, st).
  Proof.
    intros code kind x m k ws e t b en er g st K P L W E. pose proof (eol_at _ _ E) as T.
    destruct (ok_EOL H G e t (rev ws ++ repeat x k ++ b) (("delimiter"%string, VStr (repeat x k)) :: en) (er, g, st) E) as (v & b' & O).
    exists b', (("delimiter"%string, VStr (repeat x k)) :: en). eapply ok_act.
    - apply ok_seq. eapply seq_cons; [eapply ok_lab, ok_delim_text; [exact P|exact L|]|].
      { assert (x <> 10 /\ x <> 13 /\ x <> 32 /\ x <> 9)%N as (A1 & A2 & A3 & A4).
        { destruct P as (P1 & P2 & _). unfold eolb in P1. unfold blankb in P2. apply orb_false_iff in P1, P2.
          destruct P1 as [P1 P3], P2 as [P2 P4]. apply N.eqb_neq in P1, P2, P3, P4. auto. }
        destruct ws as [|y ws]; cbn [app].
        - destruct (e ++ t) as [|y u]; [exact Logic.I|]. cbn in T |- *. apply N.eqb_neq. intros <-. unfold eolb in T.
          apply orb_true_iff in T. rewrite !N.eqb_eq in T. destruct T; congruence.
        - cbn. inversion W as [|? ? [->| ->] _]; subst; now apply N.eqb_neq. }
      eapply seq_cons; [apply ok_Spaces0; [exact W|now apply at_eol_not_blank]|].
      eapply seq_cons; [exact O|apply seq_nil].
    - eapply act_known; [exact K|]. intros s Es _. unfold run_akind. cbn [label String.eqb Ascii.eqb Bool.eqb].
      apply core_store in Es. destruct Es as [-> _]. rewrite byte_len_repeat by apply P. reflexivity.
  Qed.

  (** * Blocks whose closing delimiter has the length of the opening one *)
  Definition matchE (dcode : string) (x : rune) (m : nat) : expr :=
    EAlt [
      (ESeq [
        (ELab "end" (delimE dcode x m));
        (EPred (PHost "return c.matchBlockDelimiterLength(end.(*types.BlockDelimiter).Length)"))]);
      x_EOF].
  Definition matchedE (bcode dcode : string) (x : rune) (m : nat) : expr :=
    EAct (AHost bcode) (ESeq [
      (ELab "start" (delimE dcode x m));
      (EPred (PHost "return c.setBlockDelimiterLength(start.(*types.BlockDelimiter).Length)"));
      (ELab "content" (EStar (lineE (matchE dcode x m))));
      (ELab "end" (EOpt (matchE dcode x m)))]).

  Lemma pred_match : forall kind k en0 er g st n, st_delim g = Some (Z.of_nat n) ->
    pred_at H (PHost "return c.matchBlockDelimiterLength(end.(*types.BlockDelimiter).Length)") (("end"%string, delimV kind k) :: en0)
      (er, g, st) (Nat.eqb n k) (er, g, st).
  Proof.
    intros kind k en0 er g st n D. apply pred_host. intros s Es. apply core_store in Es. destruct Es as [Es _].
    change (h_pred H) with (go_pred X cls white). unfold go_pred. 
    replace (assoc (known_preds cls white) _) with (Some QMatchLength) by reflexivity.
    unfold run_pkind. cbn [label String.eqb Ascii.eqb Bool.eqb delimV]. rewrite Es, D. do 3 f_equal.
    destruct (Z.eqb_spec (Z.of_nat n) (Z.of_nat k)), (Nat.eqb_spec n k); auto; lia.
  Qed.
  Lemma vals_lines : forall ls, vals X (VList (map (fun l => elem (newRawLine (encode_runes l))) ls)) = Some (map (fun l => newRawLine (encode_runes l)) ls).
  Proof.
    intros ls. unfold vals. cbn [to_val]. match goal with |- context [option_map VSlice ?x] => replace x with (Some (map (fun l => newRawLine (encode_runes l)) ls)) end; [reflexivity|].
    induction ls as [|l ls IH]; [reflexivity|]. cbn [map]. rewrite <- IH. reflexivity.
  Qed.

  Lemma span_unique : forall (x : rune) k k' u v, head_not (N.eqb x) u -> head_not (N.eqb x) v -> repeat x k ++ u = repeat x k' ++ v -> k = k' /\ u = v.
  Proof.
    intros x k. induction k as [|k IH]; intros [|k'] u v A B E; auto; cbn [repeat app] in E.
    - subst u. cbn in A. rewrite N.eqb_refl in A. discriminate.
    - subst v. cbn in B. rewrite N.eqb_refl in B. discriminate.
    - injection E as E. destruct (IH _ _ _ A B E). auto.
  Qed.
  Lemma blanks_not : forall x ws, plain_char x -> blanks ws -> head_not (N.eqb x) ws.
  Proof.
    intros x [|y ws] (_ & P & _) W; cbn; auto. inversion W as [|? ? Bx _]; subst. apply blankb_spec in Bx.
    apply N.eqb_neq. intros ->. congruence.
  Qed.
  Lemma delimiter_unique : forall x k k' l, plain_char x -> delimiter x k l -> delimiter x k' l -> k = k'.
  Proof.
    intros x k k' l P (ws & W & ->) (ws' & W' & E). apply span_unique in E; try now apply blanks_not. tauto.
  Qed.
  (** whether a line is a delimiter can be decided *)
  Lemma delimiter_dec : forall x m l, plain_char x -> (exists k, m <= k /\ delimiter x k l) \/ (forall k, m <= k -> ~ delimiter x k l).
  Proof.
    intros x m l P. destruct (span_char x l) as (k & l' & -> & Hx). destruct (span_blanks l') as (ws & l2 & -> & W & Hb).
    assert (forall j, delimiter x j (repeat x k ++ ws ++ l2) -> j = k /\ l2 = []) as Y.
    { intros j (ws' & W' & E). apply span_unique in E; [|exact Hx|now apply blanks_not]. destruct E as [-> E]. split; auto.
      destruct l2 as [|y l2]; auto. exfalso. cbn in Hb. unfold blanks in W'. rewrite Forall_forall in W'.
      assert (In y ws') as I by (rewrite <- E, in_app_iff; right; now left). apply W', blankb_spec in I. congruence. }
    destruct l2 as [|y l2].
    - destruct (le_lt_dec m k) as [L|L].
      + left. exists k. split; auto. exists ws. rewrite app_nil_r. auto.
      + right. intros j J D. apply Y in D. lia.
    - right. intros j J D. apply Y in D. destruct D. discriminate.
  Qed.

  Section Matched.
    Variables (bcode dcode kind dkind : string) (x : rune) (m : nat).
    Hypothesis KB : assoc known_acts bcode = Some (KBlock kind).
    Hypothesis KD : assoc known_acts dcode = Some (KDelim dkind).
    Hypothesis P : plain_char x.
    Hypothesis M : 1 <= m.

    Lemma ok_matchE : forall n l e t b er g st, st_delim g = Some (Z.of_nat n) -> m <= n -> delimiter x n l -> eol e t -> exists v b',
      Ok_ (matchE dcode x m) (Pos b (l ++ e ++ t)) [] (er, g, st) v (Pos b' t) [] (er, g, st).
    Proof.
      intros n l e t b er g st D L (ws & W & ->) E.
      destruct (ok_delimE dcode dkind x m n ws e t b [] er g st KD P L W E) as (b' & en' & O).
      do 2 eexists. eapply ok_alt_here. rewrite <- app_assoc. apply ok_seq. eapply seq_cons; [eapply ok_lab, O|].
      eapply seq_cons; [|apply seq_nil]. apply ok_pred. pose proof (pred_match dkind n [] er g st n D) as Q.
      rewrite Nat.eqb_refl in Q. exact Q.
    Qed.
    Lemma no_matchE : forall n l e t b er g st, st_delim g = Some (Z.of_nat n) -> one_line l -> l ++ e <> [] -> ~ delimiter x n l -> eol e t ->
      No_ (matchE dcode x m) (Pos b (l ++ e ++ t)) [] (er, g, st) (er, g, st).
    Proof.
      intros n l e t b er g st D L Ne ND E.
      assert (No_ (EAlt [x_EOF]) (Pos b (l ++ e ++ t)) [] (er, g, st) (er, g, st)) as NE.
      { eapply no_alt_next; [|rewrite kback_id; apply no_alt_nil]. destruct l as [|y l]; cbn [app]; [|apply no_EOF].
        destruct e as [|y e]; [cbn in Ne; congruence|]. apply no_EOF. }
      destruct (delimiter_dec x m l P) as [(k & K & (ws & W & ->))|ND'].
      - destruct (ok_delimE dcode dkind x m k ws e t b [] er g st KD P K W E) as (b' & en' & O).
        assert (n =? k = false)%nat as Nk.
        { apply Nat.eqb_neq. intros ->. apply ND. exists ws. auto. }
        apply no_alt_c; [|exact NE]. rewrite <- app_assoc.
        eapply (no_seq_c H G [_]); [eapply seq_cons; [eapply ok_lab, O|apply seq_nil]|].
        apply no_pred. pose proof (pred_match dkind k [] er g st n D) as Q. rewrite Nk in Q. exact Q.
      - apply no_alt_c; [|exact NE]. apply no_seq1_c, no_lab. now apply no_delimE.
    Qed.

    Lemma ok_matchedE : forall n ws e body ls tail b er g st, m <= n -> blanks ws -> eol e body ->
      lines_until (delimiter x n) body ls tail -> exists b' en',
      Ok_ (matchedE bcode dcode x m) (Pos b (repeat x n ++ ws ++ e ++ body)) [] (er, g, st)
        (elem (DelimitedBlock kind [] (raw_lines ls))) (Pos b' tail) en' (er, set_delim g (Some (Z.of_nat n)), st).
    Proof.
      intros n ws e body ls tail b er g st L W E Q.
      destruct (ok_delimE dcode dkind x m n ws e body b [] er g st KD P L W E) as (b1 & en1 & O1).
      set (g1 := set_delim g (Some (Z.of_nat n))). assert (st_delim g1 = Some (Z.of_nat n)) as D by reflexivity.
      destruct (content_ok (matchE dcode x m) (delimiter x n) er g1 st) with (text := body) (ls := ls) (tail := tail) (b := b1)
        as (b2 & t2 & b3 & v & O2 & O3); auto.
      - intros l e' t b' _ _ S E'. eapply ok_matchE; eauto.
      - intros l e' t b' Ll Ne S E'. eapply no_matchE; eauto.
      - intros b'. left. eexists. eapply ok_alt_c; [|eapply ok_alt_here, ok_EOF].
        apply no_seq1_c, no_lab, no_act, no_seq1_c, no_lab, no_act, no_seq1_c.
        destruct m as [|m']; [lia|]. apply no_lit_end. now apply plain_not_error.
      - do 2 eexists. eapply ok_act.
        + apply ok_seq. eapply seq_cons; [eapply ok_lab, O1|].
          eapply seq_cons; [eapply ok_pred with (c' := (er, g1, st))|].
          { apply pred_host. intros s Es. apply core_store in Es. destruct Es as [Es _].
            change (h_pred H) with (go_pred X cls white). unfold go_pred.
            replace (assoc (known_preds cls white) _) with (Some QSetLength) by reflexivity.
            unfold run_pkind. cbn [label String.eqb Ascii.eqb Bool.eqb delimV]. now rewrite Es. }
          eapply seq_cons; [eapply ok_lab, ok_star, O2|].
          eapply seq_cons; [eapply ok_lab, O3|apply seq_nil].
        + eapply act_known; [exact KB|]. intros s Es _. unfold run_akind. cbn [label String.eqb Ascii.eqb Bool.eqb].
          rewrite vals_lines, end_lines_spec. apply core_store in Es. destruct Es as [-> _]. reflexivity.
    Qed.
  End Matched.
End Blocks.
