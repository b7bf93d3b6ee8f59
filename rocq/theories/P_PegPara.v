(** C66: paragraphs. *)
From Coq Require Import List String NArith ZArith Bool Ascii Arith Lia.
From Verif Require Import GoBase Utf8 Types Attrs Elements Subs Peg PegGrammar PegDoc PegHost PegSym PegBlockSpec P_PegRun P_PegLines P_PegBlocks P_PegFragment.
Import ListNotations.
Local Open Scope list_scope.

(** * Two colons in the bytes are two colons in the runes *)
Fixpoint high (s : string) : Prop := match s with EmptyString => True | String c s' => (128 <= N_of_ascii c)%N /\ high s' end.
Lemma high_chr : forall n, (128 <= n < 256)%N -> (128 <= N_of_ascii (chr n))%N.
Proof. intros n (A & B). unfold chr. rewrite N_ascii_embedding by exact B. exact A. Qed.
Lemma encode_high : forall r : N, (128 <= r)%N -> high (encode_rune r).
Proof.
  intros r L. unfold encode_rune.
  assert (forall n, (128 <= 128 + n mod 64 < 256)%N) as Md.
  { intros n. pose proof (N.mod_lt n 64 ltac:(discriminate)). split; [apply N.le_add_r|].
    eapply N.lt_trans; [apply N.add_lt_mono_l; eassumption|reflexivity]. }
  destruct (N.ltb_spec r 128) as [L1|L1]; [exfalso; apply (N.lt_irrefl r); eapply N.lt_le_trans; eauto|].
  destruct (N.ltb_spec r 2048) as [L2|L2].
  - cbn [high]. repeat split; auto using high_chr. apply high_chr. split.
    + eapply N.le_trans; [|apply N.le_add_r]. discriminate.
    + assert (r / 64 < 32)%N by (apply N.div_lt_upper_bound; [discriminate|exact L2]). lia.
  - assert (forall q, (q < 16)%N -> (128 <= N_of_ascii (chr (224 + q)))%N) as Q3.
    { intros q Hq. apply high_chr. lia. }
    destruct (((55296 <=? r) && (r <=? 57343))%N || (1114111 <? r)%N) eqn:B.
    + vm_compute. repeat split; discriminate.
    + destruct (N.ltb_spec r 65536) as [L3|L3]; cbn [high]; repeat split; auto using high_chr.
      * apply Q3. apply N.div_lt_upper_bound; [discriminate|exact L3].
      * apply high_chr. apply orb_false_iff in B. destruct B as [_ B]. apply N.ltb_ge in B.
        assert (r / 262144 < 5)%N as Q by (apply N.div_lt_upper_bound; [discriminate|]; eapply N.le_lt_trans; [exact B|reflexivity]).
        revert Q. generalize (r / 262144)%N. intros q Q. lia.
Qed.
Definition cc : string := "::"%string.
Lemma high_skip : forall h s a b, high h -> (h ++ s = a ++ cc ++ b)%string -> exists a', (s = a' ++ cc ++ b)%string.
Proof.
  induction h as [|c h IH]; intros s a b Hh E; cbn [append] in E.
  - exists a. exact E.
  - destruct Hh as [Hc Hh]. destruct a as [|c' a]; cbn [append] in E; injection E as Ec E.
    + subst c. exfalso. apply Hc. reflexivity.
    + eapply IH; eauto.
Qed.
Lemma encode_runes_cons : forall r l, encode_runes (r :: l) = (encode_rune r ++ encode_runes l)%string.
Proof. intros r l. change (r :: l) with ([r] ++ l). now rewrite encode_runes_app, encode_one. Qed.
Lemma encode_head_colon : forall l b, encode_runes l = String ":" b -> exists l', l = 58%N :: l'.
Proof.
  intros [|r l] b E; [discriminate|]. rewrite encode_runes_cons in E. destruct (N.ltb_spec r 128) as [L|L].
  - unfold encode_rune in E. rewrite (proj2 (N.ltb_lt _ _) L) in E. cbn [append] in E. injection E as E _.
    apply (f_equal N_of_ascii) in E. unfold chr in E. rewrite N_ascii_embedding in E by (eapply N.lt_trans; [exact L|reflexivity]).
    change (N_of_ascii ":") with 58%N in E. subst r. eauto.
  - apply encode_high in L. destruct (encode_rune r) as [|c h] eqn:Er.
    + exfalso. clear - Er. unfold encode_rune in Er. destruct (r <? 128)%N, (r <? 2048)%N; try discriminate.
      destruct (((55296 <=? r) && (r <=? 57343))%N || (1114111 <? r)%N), (r <? 65536)%N; discriminate.
    + cbn [append] in E. injection E as -> _. destruct L as [L _]. exfalso. apply L. reflexivity.
Qed.
Lemma colons_bytes : forall l a b, encode_runes l = (a ++ cc ++ b)%string -> ~ no_colons l.
Proof.
  induction l as [|r l IH]; intros a b E N.
  - destruct a; discriminate.
  - rewrite encode_runes_cons in E. destruct (N.ltb_spec r 128) as [L|L].
    + unfold encode_rune in E. rewrite (proj2 (N.ltb_lt _ _) L) in E. cbn [append] in E. destruct a as [|c a]; cbn [append cc] in E; injection E as Ec E.
      * apply encode_head_colon in E. destruct E as (l' & ->). apply N. exists [], l'. cbn [app].
        apply (f_equal N_of_ascii) in Ec. unfold chr in Ec. rewrite N_ascii_embedding in Ec by (eapply N.lt_trans; [exact L|reflexivity]).
        change (N_of_ascii ":") with 58%N in Ec. now subst r.
      * apply (IH _ _ E). intros (u & v & ->). apply N. exists (r :: u), v. reflexivity.
    + apply high_skip in E; [|now apply encode_high]. destruct E as (a' & E). apply (IH _ _ E).
      intros (u & v & ->). apply N. exists (r :: u), v. reflexivity.
Qed.
Lemma has_prefix_split : forall p s, has_prefix s p = true -> exists b, s = (p ++ b)%string.
Proof.
  induction p as [|c p IH]; intros s E; [exists s; reflexivity|]. destruct s as [|d s]; [discriminate|]. cbn [has_prefix] in E.
  destruct (Ascii.eqb_spec d c) as [->|]; [|discriminate]. destruct (IH _ E) as (b & ->). exists b. reflexivity.
Qed.
Lemma contains_split : forall s p, contains s p = true -> exists a b, s = (a ++ p ++ b)%string.
Proof.
  induction s as [|c s IH]; intros p E; cbn [contains] in E; apply orb_true_iff in E; destruct E as [E|E]; try discriminate.
  - apply has_prefix_split in E. destruct E as (b & E). exists ""%string, b. exact E.
  - apply has_prefix_split in E. destruct E as (b & E). exists ""%string, b. exact E.
  - destruct (IH _ E) as (a & b & ->). exists (String c a), b. reflexivity.
Qed.
Lemma sdrop_split : forall n s, exists a, s = (a ++ sdrop n s)%string.
Proof.
  induction n as [|n IH]; intros s; [exists ""%string; reflexivity|]. destruct s as [|c s]; [exists ""%string; reflexivity|].
  cbn [sdrop]. destruct (IH s) as (a & E). exists (String c a). cbn. congruence.
Qed.
Lemma has_suffix_split : forall s x, has_suffix s x = true -> exists a, s = (a ++ x)%string.
Proof.
  intros s x E. unfold has_suffix in E. apply andb_true_iff in E. destruct E as [_ E]. apply String.eqb_eq in E.
  destruct (sdrop_split (String.length s - String.length x) s) as (a & A). exists a. congruence.
Qed.
Lemma rstrip_prefix : forall l, exists w, l = rstrip l ++ w.
Proof.
  intros l. induction l as [|r l (w & IH)] using rev_ind; [exists []; reflexivity|]. rewrite rstrip_snoc. destruct (blankb r).
  - exists (w ++ [r]). rewrite app_assoc. now rewrite <- IH.
  - exists []. now rewrite app_nil_r.
Qed.
Lemma no_colons_term : forall l, no_colons l ->
  contains (encode_runes (rstrip l)) ":: " = false /\ has_suffix (encode_runes (rstrip l)) "::" = false.
Proof.
  intros l N. assert (no_colons (rstrip l)) as N'.
  { intros (a & b & E). apply N. destruct (rstrip_prefix l) as (w & ->). rewrite E. exists a, (b ++ w). now rewrite <- app_assoc. }
  split; apply not_true_iff_false; intros E.
  - apply contains_split in E. destruct E as (a & b & E). revert N'. eapply colons_bytes with (a := a) (b := String " " b). exact E.
  - apply has_suffix_split in E. destruct E as (a & E). revert N'. eapply colons_bytes with (a := a) (b := ""%string). exact E.
Qed.

(** the text of a literal that is read is on the line *)
Lemma lit_starts : forall H w l t b, Forall (fun r => r <> Peg.RuneError /\ eolb r = false) w ->
  lit_from H w false (Pos b (l ++ t)) <> None -> at_eol t -> starts w l.
Proof.
  intros H w. induction w as [|x w IH]; intros l t b F E T; [exists l; reflexivity|].
  inversion F as [|? ? [Nx Ex] F']; subst. cbn [lit_from] in E. destruct l as [|y l].
  - exfalso. unfold peek in E. destruct t as [|y t]; cbn [app rest] in E.
    + destruct (N.eqb_spec Peg.RuneError x); congruence.
    + destruct (N.eqb_spec y x) as [->|]; [|congruence]. cbn [at_eol] in T. congruence.
  - unfold peek, advance in E. cbn [app rest before] in E. destruct (N.eqb_spec y x) as [->|]; [|congruence].
    destruct (IH _ _ _ F' E T) as (l' & ->). exists l'. reflexivity.
Qed.

Section Paragraph.
  Variable X : Type.
  Variable cls : string -> rune -> bool.
  Variable low : rune -> rune.
  Variable white : rune -> bool.
  Variable other : string -> labels (hv X) -> soft gstore (option (list string)) -> option (value (hv X) * bool).
  Notation H := (go_host X cls low white other).
  Hypothesis U : unicode_ok H.
  Notation G := the_grammar.
  Notation Ok_ := (Ok_ H G).
  Notation No_ := (No_ H G).
  Notation Star_ := (Star_ H G).
  Notation Seq_ := (Seq_ H G).
  Notation core := (core H).
  Definition alnum (r : rune) : bool := cls "L" r || cls "N" r.

  Lemma no_lit_line : forall w l t b en c, Forall (fun r => r <> Peg.RuneError /\ eolb r = false) w -> at_eol t -> ~ starts w l ->
    No_ (ELit w false) (Pos b (l ++ t)) en c c.
  Proof.
    intros w l t b en c F T N. apply no_lit. destruct (lit_from H w false (Pos b (l ++ t))) eqn:E; auto.
    exfalso. apply N. apply (lit_starts H w l t b F); [|exact T]. rewrite E. discriminate.
  Qed.
  Lemma white_blank : forall r, blankb r = true -> white r = true.
  Proof.
    intros r B. destruct U as (_ & _ & U3). unfold blankb in B. apply orb_true_iff in B. rewrite !N.eqb_eq in B.
    destruct B as [->| ->]; apply (U3 _ true); vm_compute; reflexivity.
  Qed.
  Lemma alnum_not_low : forall r, alnum r = true -> lowb r = false.
  Proof.
    intros r A. apply not_true_iff_false. intros L. destruct (low_class X cls low white other U r L) as [C1 C2]. unfold alnum in A.
    rewrite C1, C2 in A. discriminate.
  Qed.
  (** an ASCII character that is neither a letter nor a digit *)
  Lemma alnum_ascii : forall r, (known_class "L" r = Some false -> known_class "N" r = Some false -> alnum r = false).
  Proof. intros r A B. destruct U as (U1 & _). unfold alnum. apply U1 in A, B. cbn in A, B. now rewrite A, B. Qed.

  (** ParagraphRawLine *)
  Lemma ok_ParaLine : forall l e t b en er g st, one_line l -> (exists r, In r l /\ white r = false) -> eol e t -> exists b' en',
    Ok_ x_ParagraphRawLine (Pos b (l ++ e ++ t)) en (er, g, st) (elem (newRawLine (encode_runes l))) (Pos b' t) en' (er, g, st).
  Proof.
    intros l e t b en er g st L (r & Ir & Wr) E. pose proof (eol_at _ _ E) as T.
    destruct (ok_EOL H G e t (rev l ++ b) (("content"%string, VStr l) :: en) (er, g, st) E) as (v & b' & O).
    exists b', (("content"%string, VStr l) :: en). eapply ok_act.
    - apply ok_seq. eapply seq_cons.
      { eapply ok_lab. eapply ok_act; [apply ok_plus with (vs := map (fun r => VBytes [r]) l)|rewrite slice_app; apply act_text].
        - apply star_cls.
          + intros q I. rewrite in_eol. apply (proj1 (one_line_spec l) L q I).
          + destruct (e ++ t) as [|q u]; [exact Logic.I|]. cbn [P_PegRun.head_not at_eol] in *. rewrite in_eol, T. reflexivity.
        - destruct l; [destruct Ir|discriminate]. }
      eapply seq_cons; [apply ok_pred|].
      { intros s Es. exists s. split; [|exact Es]. cbn [run_pred label String.eqb Ascii.eqb Bool.eqb]. do 2 f_equal.
        apply existsb_exists. exists r. split; [exact Ir|]. cbn [is_white go_host]. now rewrite Wr. }
      eapply seq_cons; [exact O|apply seq_nil].
    - eapply act_known; [vm_compute; reflexivity|]. intros s Es _. unfold run_akind. cbn [label String.eqb Ascii.eqb Bool.eqb].
      apply core_store in Es. destruct Es as [-> _]. reflexivity.
  Qed.

  Lemma no_BlankLine : forall l e t b en c, one_line l -> (exists r, In r l /\ white r = false) -> No_ x_BlankLine (Pos b (l ++ e ++ t)) en c c.
  Proof.
    intros l e t b en c L (r & Ir & Wr). destruct (span_blanks l) as (ws & l' & -> & W & Hb). destruct l' as [|y l'].
    - exfalso. rewrite app_nil_r in Ir. unfold blanks in W. rewrite Forall_forall in W. apply W, blankb_spec, white_blank in Ir. congruence.
    - apply no_act. assert (exists z u, ws ++ y :: l' = z :: u) as (z & u & Ez) by (destruct ws; eexists _, _; reflexivity).
      eapply (no_seq_c H G [_; _]).
      + eapply seq_cons; [rewrite Ez; cbn [app]; apply ok_NotEOF|]. change (z :: u ++ e ++ t) with ((z :: u) ++ e ++ t). rewrite <- Ez, <- app_assoc.
        eapply seq_cons; [apply ok_Spaces0; [exact W|exact Hb]|apply seq_nil].
      + apply no_EOL. apply (proj1 (one_line_spec _) L). rewrite in_app_iff. right. now left.
  Qed.
  Lemma ok_BlankLine : forall ws e t b en er g st, blanks ws -> ws ++ e <> [] -> eol e t -> exists b' en',
    Ok_ x_BlankLine (Pos b (ws ++ e ++ t)) en (er, g, st) (elem BlankLine) (Pos b' t) en' (er, g, st).
  Proof.
    intros ws e t b en er g st W Ne E. destruct (ok_EOL H G e t (rev ws ++ b) en (er, g, st) E) as (v & b' & O).
    assert (Ok_ x_NotEOF (Pos b (ws ++ e ++ t)) en (er, g, st) VNil (Pos b (ws ++ e ++ t)) en (er, g, st)) as NE.
    { clear - Ne. destruct ws as [|x l]; cbn [app]; [|apply ok_NotEOF]. destruct e as [|x e]; [cbn in Ne; congruence|]. cbn [app]. apply ok_NotEOF. }
    exists b', en. eapply ok_act.
    - apply ok_seq. eapply seq_cons; [exact NE|]. eapply seq_cons; [apply ok_Spaces0; [exact W|now apply at_eol_not_blank, eol_at]|].
      eapply seq_cons; [exact O|apply seq_nil].
    - eapply act_known; [vm_compute; reflexivity|]. intros s Es _. apply core_store in Es. destruct Es as [<- _]. reflexivity.
  Qed.

  (** the rules that a line cannot start, from its first character *)
  Lemma no_BlockAttributes : forall r t b c, r <> 91%N -> r <> 46%N -> No_ (ERef "BlockAttributes") (Pos b (r :: t)) [] c c.
  Proof.
    intros r t b c N1 N2. eapply no_ref; [reflexivity|]. apply no_act, no_lab, no_plus.
    apply no_alt_c; [|apply no_alt_c; [|apply no_alt_c; [|apply no_alt_nil]]].
    - apply no_act, no_seq1_c, no_lab, no_act, no_seq1_c, no_lit1. intros <-. now apply N1.
    - apply no_act, no_seq1_c, no_lab, no_act, no_seq1_c, no_lit1. intros <-. now apply N2.
    - apply no_act, no_seq1_c, no_lab. eapply no_ref; [reflexivity|]. apply no_act.
      destruct (N.eqb_spec 92 r) as [<-|N3].
      + apply no_seq1_c. eapply no_not_c. apply (ok_lit H G [92%N]).
      + eapply (no_seq_c H G [_]); [eapply seq_cons; [apply ok_not_c, no_lit1; exact N3|apply seq_nil]|].
        apply no_lit1. intros <-. now apply N1.
  Qed.
  Lemma no_Delimiters : forall r t b c, ~ In r [46; 47; 61; 96; 45; 43; 95; 42; 91]%N -> No_ x_BlockDelimiter (Pos b (r :: t)) [] c c.
  Proof.
    intros r t b c N. apply no_act.
    destruct (in_cls H [] [] ["L"; "N"]%string r) eqn:A.
    - apply no_seq1_c. eapply no_not_c. apply ok_cls. exact A.
    - eapply (no_seq_c H G [_]); [eapply seq_cons; [apply ok_not_c, no_cls; exact A|apply seq_nil]|].
      assert (forall x w, In x [46; 47; 61; 96; 45; 43; 95; 42; 91]%N -> No_ (ELit (x :: w) false) (Pos b (r :: t)) [] c c) as NL.
      { intros x w I. apply no_lit1. intros <-. exact (N I). }
      apply no_lab. repeat (apply no_alt_c; [|try apply no_alt_nil]).
      all: apply no_act, no_seq1_c; try apply no_lab, no_act, no_seq1_c; apply NL; cbn; tauto.
  Qed.
  Lemma no_ContMarker : forall r t b c, r <> 43%N -> No_ x_ListContinuationMarker (Pos b (r :: t)) [] c c.
  Proof. intros r t b c N. apply no_seq1_c, no_lit1. intros <-. now apply N. Qed.
  Lemma no_Comment : forall r t b c, r <> 47%N -> No_ x_SinglelineComment (Pos b (r :: t)) [] c c.
  Proof. intros r t b c N. apply no_act, no_seq1_c, no_lit1. intros <-. now apply N. Qed.

  Definition otherE : expr := EAct (ALabel "line") (ESeq [
              x_NotEOF;
              (ENot x_BlankLine);
              (ENot (ERef "BlockAttributes"));
              (ENot x_BlockDelimiter);
              (ENot x_ListContinuationMarker);
              (ELab "line" (EAlt [
                  x_SinglelineComment;
                  x_ParagraphRawLine]))]).
  Lemma ok_other : forall l e t b er g st, next_line white l -> eol e t -> exists b' en',
    Ok_ otherE (Pos b (l ++ e ++ t)) [] (er, g, st) (elem (newRawLine (encode_runes l))) (Pos b' t) en' (er, g, st).
  Proof.
    intros l e t b er g st (L & V & Hd) E. destruct (ok_ParaLine l e t b [] er g st L V E) as (b' & en' & O).
    destruct l as [|r l]; [destruct Hd|].
    do 2 eexists. eapply ok_act.
    - apply ok_seq. eapply seq_cons; [apply ok_NotEOF|].
    eapply seq_cons; [apply ok_not_c; exact (no_BlankLine (r :: l) e t b [] _ L V)|].
    eapply seq_cons; [apply ok_not_c, no_BlockAttributes; intros ->; apply Hd; cbn; tauto|].
    eapply seq_cons; [apply ok_not_c, no_Delimiters; exact Hd|].
    eapply seq_cons; [apply ok_not_c, no_ContMarker; intros ->; apply Hd; cbn; tauto|].
    eapply seq_cons; [eapply ok_lab, ok_alt_c; [apply no_Comment; intros ->; apply Hd; cbn; tauto|eapply ok_alt_here, O]|apply seq_nil].
    - apply act_label.
  Qed.

  (** the lines that stop a paragraph *)
  Lemma stop_end : forall b c, No_ otherE (Pos b []) [] c c.
  Proof. intros b c. apply no_act, no_seq1_c, no_NotEOF. Qed.
  Lemma stop_blank : forall ws e t b er g st, blanks ws -> ws ++ e <> [] -> eol e t -> No_ otherE (Pos b (ws ++ e ++ t)) [] (er, g, st) (er, g, st).
  Proof.
    intros ws e t b er g st W Ne E. destruct (ok_BlankLine ws e t b [] er g st W Ne E) as (b' & en' & O). apply no_act.
    assert (Ok_ x_NotEOF (Pos b (ws ++ e ++ t)) [] (er, g, st) VNil (Pos b (ws ++ e ++ t)) [] (er, g, st)) as NE.
    { clear - Ne. destruct ws as [|x l]; cbn [app]; [|apply ok_NotEOF]. destruct e as [|x e]; [cbn in Ne; congruence|]. cbn [app]. apply ok_NotEOF. }
    eapply (no_seq_c H G [_]); [eapply seq_cons; [exact NE|apply seq_nil]|]. eapply no_not_c, O.
  Qed.
  Definition delim_alts : list expr :=
    match x_BlockDelimiter with EAct _ (ESeq [_; ELab _ (EAlt l)]) => l | _ => [] end.
  Lemma delim_split : forall es1 code dkind es2 x m n ws e t b er g st, delim_alts = es1 ++ delimE code x m :: es2 ->
    assoc known_acts code = Some (KDelim dkind) -> plain_char x -> in_cls H [] [] ["L"; "N"]%string x = false -> 1 <= m -> m <= n -> blanks ws -> eol e t ->
    (forall a, In a es1 -> No_ a (Pos b (repeat x n ++ ws ++ e ++ t)) [] (er, g, st) (er, g, st)) ->
    exists v b' en', Ok_ x_BlockDelimiter (Pos b (repeat x n ++ ws ++ e ++ t)) [] (er, g, st) v (Pos b' t) en' (er, g, st).
  Proof.
    intros es1 code dkind es2 x m n ws e t b er g st Ed K P A M L W E N.
    destruct (ok_delimE X cls low white other G code dkind x m n ws e t b [] er g st K P L W E) as (b' & en' & O).
    do 3 eexists. eapply ok_act.
    - apply ok_seq. eapply seq_cons.
      { apply ok_not_c. destruct n as [|n]; [lia|]. cbn [repeat app]. apply no_cls. exact A. }
      eapply seq_cons; [eapply ok_lab|apply seq_nil]. change (EAlt _) with (EAlt delim_alts). rewrite Ed. eapply ok_alt_skip; [exact N|exact O].
    - apply act_label.
  Qed.
  Lemma not_alnum : forall r, known_class "L" r = Some false -> known_class "N" r = Some false -> in_cls H [] [] ["L"; "N"]%string r = false.
  Proof. intros r A B. destruct U as (U1 & _). unfold in_cls. cbn [existsb orb]. now rewrite (U1 _ _ _ A), (U1 _ _ _ B). Qed.
  Lemma no_MarkdownDelim : forall n ws e t b c, 3 <= n -> blanks ws -> eol e t -> (n = 3 -> match ws with 9%N :: _ => False | _ => True end) ->
    No_ x_MarkdownCodeDelimiter (Pos b (repeat 96%N n ++ ws ++ e ++ t)) [] c c.
  Proof.
    intros n ws e t b c L W E T. rewrite (repeat_split _ 3) by lia. apply no_act.
    eapply (no_seq_c H G [_]); [eapply seq_cons; [apply (ok_lit H G (repeat 96%N 3))|apply seq_nil]|].
    apply no_lab, no_act, no_plus. destruct (n - 3) as [|k] eqn:En; cbn [repeat app].
    - specialize (T ltac:(lia)). destruct ws as [|w ws]; cbn [app].
      + apply eol_at in E. destruct (e ++ t) as [|r u]; [apply no_cls_end|]. cbn [at_eol] in E. unfold eolb in E.
        apply orb_true_iff in E. rewrite !N.eqb_eq in E. destruct E as [->| ->]; apply no_cls; reflexivity.
      + inversion W as [|? ? [->| ->] _]; subst; [apply no_cls; reflexivity|destruct T].
    - apply no_cls. reflexivity.
  Qed.
  Lemma ok_BlockDelimiter : forall kind x m n ws e t b er g st, In (kind, x, m) (("comment"%string, 47%N, 4) :: fences) -> m <= n -> blanks ws ->
    (n = 3 -> match ws with 9%N :: _ => False | _ => True end) -> eol e t ->
    exists v b' en', Ok_ x_BlockDelimiter (Pos b (repeat x n ++ ws ++ e ++ t)) [] (er, g, st) v (Pos b' t) en' (er, g, st).
  Proof.
    intros kind x m n ws e t b er g st I L W T E. unfold fences in I. cbn [In] in I.
    repeat match type of I with _ \/ _ => destruct I as [I|I] end; try (injection I as <- <- <-); [..|destruct I].
    - eapply (delim_split (firstn 0 delim_alts) _ "comment" (skipn 1 delim_alts) 47%N 4);
        [reflexivity|reflexivity|split; [|split]; reflexivity|apply not_alnum; reflexivity|lia|exact L|exact W|exact E|].
      rewrite (repeat_split _ 4) by lia. apply (no_alts X cls low white other U b (repeat 47%N 4)). vm_compute. reflexivity.
    - eapply (delim_split (firstn 1 delim_alts) _ "example" (skipn 2 delim_alts) 61%N 4);
        [reflexivity|reflexivity|split; [|split]; reflexivity|apply not_alnum; reflexivity|lia|exact L|exact W|exact E|].
      rewrite (repeat_split _ 4) by lia. apply (no_alts X cls low white other U b (repeat 61%N 4)). vm_compute. reflexivity.
    - eapply (delim_split (firstn 3 delim_alts) _ "fenced" (skipn 4 delim_alts) 96%N 3);
        [reflexivity|reflexivity|split; [|split]; reflexivity|apply not_alnum; reflexivity|lia|exact L|exact W|exact E|].
      rewrite (repeat_split _ 3) by lia. apply (no_alts_but X cls low white other U b (repeat 96%N 3) _ _ (firstn 2 delim_alts) x_MarkdownCodeDelimiter []).
      + vm_compute. reflexivity.
      + rewrite <- (repeat_split _ 3) by lia. now apply no_MarkdownDelim.
    - eapply (delim_split (firstn 4 delim_alts) _ "listing" (skipn 5 delim_alts) 45%N 4);
        [reflexivity|reflexivity|split; [|split]; reflexivity|apply not_alnum; reflexivity|lia|exact L|exact W|exact E|].
      rewrite (repeat_split _ 4) by lia. apply (no_alts X cls low white other U b (repeat 45%N 4)). vm_compute. reflexivity.
    - eapply (delim_split (firstn 5 delim_alts) _ "listing" (skipn 6 delim_alts) 46%N 4);
        [reflexivity|reflexivity|split; [|split]; reflexivity|apply not_alnum; reflexivity|lia|exact L|exact W|exact E|].
      rewrite (repeat_split _ 4) by lia. apply (no_alts X cls low white other U b (repeat 46%N 4)). vm_compute. reflexivity.
    - eapply (delim_split (firstn 6 delim_alts) _ "pass" (skipn 7 delim_alts) 43%N 4);
        [reflexivity|reflexivity|split; [|split]; reflexivity|apply not_alnum; reflexivity|lia|exact L|exact W|exact E|].
      rewrite (repeat_split _ 4) by lia. apply (no_alts X cls low white other U b (repeat 43%N 4)). vm_compute. reflexivity.
    - eapply (delim_split (firstn 7 delim_alts) _ "quote" (skipn 8 delim_alts) 95%N 4);
        [reflexivity|reflexivity|split; [|split]; reflexivity|apply not_alnum; reflexivity|lia|exact L|exact W|exact E|].
      rewrite (repeat_split _ 4) by lia. apply (no_alts X cls low white other U b (repeat 95%N 4)). vm_compute. reflexivity.
    - eapply (delim_split (firstn 8 delim_alts) _ "sidebar" (skipn 9 delim_alts) 42%N 4);
        [reflexivity|reflexivity|split; [|split]; reflexivity|apply not_alnum; reflexivity|lia|exact L|exact W|exact E|].
      rewrite (repeat_split _ 4) by lia. apply (no_alts X cls low white other U b (repeat 42%N 4)). vm_compute. reflexivity.
  Qed.
  Lemma fence_prefix : forall kind x m, In (kind, x, m) (("comment"%string, 47%N, 4) :: fences) -> forall b,
    forallb (fun e => fails_on G quiet_name 40 e true b (repeat x m)) [x_BlankLine; ERef "BlockAttributes"] = true.
  Proof.
    intros kind x m I b. unfold fences in I. cbn [In] in I.
    repeat match type of I with _ \/ _ => destruct I as [I|I] end; try (injection I as <- <- <-); [..|destruct I]; vm_compute; reflexivity.
  Qed.
  Lemma stop_fence : forall kind x m n ws e t b er g st, In (kind, x, m) (("comment"%string, 47%N, 4) :: fences) -> m <= n -> blanks ws ->
    (n = 3 -> match ws with 9%N :: _ => False | _ => True end) -> eol e t ->
    No_ otherE (Pos b (repeat x n ++ ws ++ e ++ t)) [] (er, g, st) (er, g, st).
  Proof.
    intros kind x m n ws e t b er g st I L W T E. destruct (ok_BlockDelimiter kind x m n ws e t b er g st I L W T E) as (v & b' & en' & O).
    assert (1 <= m) as M.
    { clear - I. unfold fences in I. cbn [In] in I.
      repeat match type of I with _ \/ _ => destruct I as [I|I] end; try (injection I as <- <- <-); [..|destruct I]; lia. }
    pose proof (no_alts X cls low white other U b (repeat x m) (repeat x (n - m) ++ ws ++ e ++ t) (er, g, st) _ (fence_prefix kind x m I b)) as N.
    rewrite <- (repeat_split x m n) in N by exact L. apply no_act.
    assert (forall c, Ok_ x_NotEOF (Pos b (repeat x n ++ ws ++ e ++ t)) [] c VNil (Pos b (repeat x n ++ ws ++ e ++ t)) [] c) as NE.
    { intros c. destruct n as [|n]; [lia|]. cbn [repeat app]. apply ok_NotEOF. }
    eapply (no_seq_c H G [_; _; _]).
    - eapply seq_cons; [apply NE|].
      eapply seq_cons; [apply ok_not_c, N; now left|].
      eapply seq_cons; [apply ok_not_c, N; right; now left|apply seq_nil].
    - eapply no_not_c, O.
  Qed.
  Lemma others_ok : forall t ls tail, continued white t ls tail -> forall b er g st, exists b',
    Star_ otherE (Pos b t) (er, g, st) (map (fun l => elem (newRawLine (encode_runes l))) ls) (Pos b' tail) (er, g, st).
  Proof.
    intros t ls tail C. induction C as [|ws e t W Ne E|kind x m n ws e t I L W T E|l e t ls tail Nl E C IH]; intros b er g st.
    - exists b. apply star_stop, stop_end.
    - exists b. apply star_stop. now apply stop_blank.
    - exists b. apply star_stop. eapply stop_fence; eauto.
    - destruct (ok_other l e t b er g st Nl E) as (b1 & en1 & O). destruct (IH b1 er g st) as (b' & Q). exists b'.
      cbn [map]. eapply star_more; [exact O|exact Q].
  Qed.

  (** * The first line *)
  Lemma sub_colons : forall w l, no_colons l -> starts (w ++ [58; 58]%N) l -> False.
  Proof. intros w l N (l' & ->). apply N. exists w, l'. now rewrite <- app_assoc. Qed.
  Lemma no_Image : forall l t b c, no_colons l -> at_eol t -> No_ (ERef "ImageBlock") (Pos b (l ++ t)) [] c c.
  Proof.
    intros l t b c N T. eapply no_ref; [reflexivity|]. apply no_act, no_seq1_c. apply no_lit_line; [|exact T|].
    - repeat constructor; discriminate.
    - change (R "image::") with (R "image" ++ [58; 58]%N). intros S. eapply sub_colons; eauto.
  Qed.
  Lemma span_by : forall (f : rune -> bool) l, exists w l', l = w ++ l' /\ (forall r, In r w -> f r = true) /\ P_PegRun.head_not f l'.
  Proof.
    intros f. induction l as [|x l (w & l' & -> & B & Hd)].
    - exists [], []. repeat split; intros r [].
    - destruct (f x) eqn:E.
      + exists (x :: w), l'. repeat split; auto. intros r [<-|I]; auto.
      + exists [], (x :: w ++ l'). repeat split; [intros r []|exact E].
  Qed.
  Lemma no_Macro : forall l t b er g st, no_colons l -> at_eol t -> No_ (ERef "UserMacroBlock") (Pos b (l ++ t)) [] (er, g, st) (er, g, st).
  Proof.
    intros l t b er g st N T. eapply no_ref; [reflexivity|]. apply no_act.
    destruct (span_by (in_cls H [95; 45]%N [] ["L"; "N"]%string) l) as (w & l' & -> & Hw & Hd).
    assert (P_PegRun.head_not (in_cls H [95; 45]%N [] ["L"; "N"]%string) (l' ++ t)) as Hd'.
    { destruct l' as [|r l']; [|exact Hd]. cbn [app]. destruct t as [|r t]; [exact Logic.I|]. cbn [at_eol P_PegRun.head_not] in *.
      destruct (low_class X cls low white other U r) as [C1 C2]; [unfold lowb; now rewrite T, orb_true_r|].
      unfold in_cls. cbn [existsb in_class go_host]. rewrite C1, C2. unfold eolb in T. apply orb_true_iff in T. rewrite !N.eqb_eq in T.
      destruct T as [->| ->]; reflexivity. }
    rewrite <- app_assoc. destruct w as [|x w].
    { cbn [app]. apply no_seq1_c, no_lab, no_act, no_plus. destruct (l' ++ t) as [|r u]; [apply no_cls_end|]. apply no_cls. exact Hd'. }
    assert (Ok_ x_UserMacroName (Pos b ((x :: w) ++ l' ++ t)) [] (er, g, st) (VStr (x :: w)) (Pos (rev (x :: w) ++ b) (l' ++ t)) [] (er, g, st)) as O.
    { eapply ok_act; [apply ok_plus with (vs := map (fun r => VBytes [r]) (x :: w))|rewrite slice_app; apply act_text]; [|discriminate].
      apply star_cls; [exact Hw|]. destruct (l' ++ t) as [|r u]; [exact Logic.I|]. cbn [P_PegRun.head_not negb] in *. rewrite Hd'. reflexivity. }
    assert (forall s : soft gstore (option (list string)), core_of (H := H) s = (er, g, st) ->
      h_pred H "return c.hasUserMacro(name.(string)), nil" [("name"%string, VStr (x :: w))] s =
      Some (hasUserMacro g (encode_runes (x :: w)), false, g)) as Pm.
    { intros s Es. apply core_store in Es. destruct Es as [<- _]. reflexivity. }
    destruct (hasUserMacro g (encode_runes (x :: w))).
    - eapply (no_seq_c H G [_; _]).
      + eapply seq_cons; [eapply ok_lab, O|]. eapply seq_cons; [apply ok_pred, pred_host; exact Pm|apply seq_nil].
      + apply no_lit_line; [repeat constructor; discriminate|exact T|]. intros (l2 & ->). apply N. exists (x :: w), l2. reflexivity.
    - eapply (no_seq_c H G [_]).
      + eapply seq_cons; [eapply ok_lab, O|apply seq_nil].
      + apply no_pred, pred_host. exact Pm.
  Qed.
  Lemma no_Style : forall l t b er g st, at_eol t -> (forall w, In w labels_of_admonitions -> ~ starts w l) ->
    match l with [] => False | r :: _ => blankb r = false end ->
    No_ x_ParagraphStyle (Pos b (l ++ t)) [] (er, g, st) (er, g, st).
  Proof.
    intros l t b er g st T A Hd. apply no_act.
    assert (forall s : soft gstore (option (list string)), core_of (H := H) s = (er, g, st) ->
      h_pred H "return !c.isWithinLiteralParagraph(), nil" [] s = Some (negb (isWithinLiteralParagraph g), false, g)) as P1.
    { intros s Es. apply core_store in Es. destruct Es as [<- _]. reflexivity. }
    destruct (negb (isWithinLiteralParagraph g)); [|apply no_seq1_c, no_pred, pred_host; exact P1].
    eapply (no_seq_c H G [_]); [eapply seq_cons; [apply ok_pred, pred_host; exact P1|apply seq_nil]|].
    assert (forall w, In w labels_of_admonitions -> forall en c, No_ (ELit w false) (Pos b (l ++ t)) en c c) as NL.
    { intros w I en c. apply no_lit_line; [|exact T|now apply A].
      unfold labels_of_admonitions in I. cbn [In] in I.
      repeat match type of I with _ \/ _ => destruct I as [<-|I] end; [..|destruct I]; repeat constructor; discriminate. }
    apply no_lab. repeat (apply no_alt_c; [|try apply no_alt_nil]).
    1-5: apply no_act, NL; unfold labels_of_admonitions; cbn [In]; tauto.
    apply no_act, no_and_c, no_act, no_plus. destruct l as [|r l]; [destruct Hd|]. cbn [app]. apply no_cls. now rewrite in_blank.
  Qed.

  Lemma ok_Shortcut : forall l e t ls tail b er g st, first_line alnum white l -> eol e t -> continued white t ls tail ->
    exists b' en', Ok_ (ERef "ShortcutParagraph") (Pos b (l ++ e ++ t)) [] (er, g, st)
      (elem (Paragraph [] (raw_lines (l :: ls)))) (Pos b' tail) en' (er, g, st).
  Proof.
    intros l e t ls tail b er g st (L & Nc & A & r & l' & -> & Ar & Wr & Ni) E C. pose proof (eol_at _ _ E) as T.
    assert (exists q, In q (r :: l') /\ white q = false) as V by (exists r; split; [now left|exact Wr]).
    assert (blankb r = false) as Br by (apply alnum_not_low in Ar; unfold lowb in Ar; now apply orb_false_iff in Ar).
    destruct (ok_ParaLine (r :: l') e t b [] er g st L V E) as (b1 & en1 & O1).
    destruct (others_ok t ls tail C b1 er g st) as (b' & O2).
    exists b', []. eapply ok_ref; [reflexivity|]. eapply ok_act.
    - apply ok_seq. eapply seq_cons.
      { eapply ok_and_c, ok_seq. eapply seq_cons; [apply ok_cls|].
        { unfold in_cls. cbn [existsb orb in_class go_host]. unfold alnum in Ar. now rewrite orb_false_r. }
        eapply seq_cons; [apply ok_not_c|apply seq_nil].
        change ((fix app (l m : list rune) {struct l} : list rune := match l with [] => m | a :: l1 => a :: app l1 m end) l' (e ++ t)) with (l' ++ e ++ t).
        assert (forall y : rune, in_cls H [46; 41]%N [] [] y = false \/ in_cls H [46; 41]%N [] [] y = true /\ (y = 46%N \/ y = 41%N)) as D.
        { intros y. unfold in_cls. cbn [existsb]. rewrite !orb_false_r. destruct (N.eqb_spec y 46) as [E1|E1]; [right; auto|].
          destruct (N.eqb_spec y 41) as [E2|E2]; [right; auto|now left]. }
        destruct (l' ++ e ++ t) as [|y u] eqn:Eu; [apply no_seq1_c, no_cls_end|].
        destruct (D y) as [Dy|[Dy Dy']]; [apply no_seq1_c, no_cls; exact Dy|].
        eapply (no_seq_c H G [_]); [eapply seq_cons; [apply ok_cls; exact Dy|apply seq_nil]|].
        apply no_act, no_plus. destruct u as [|z u]; [apply no_cls_end|]. apply no_cls. rewrite in_blank.
        apply not_true_iff_false. intros Bz. destruct l' as [|y' l'].
        - cbn [app] in Eu. rewrite Eu in T. cbn [at_eol] in T. destruct Dy' as [->| ->]; discriminate.
        - cbn [app] in Eu. injection Eu as -> Eu. destruct l' as [|z' l'].
          + cbn [app] in Eu. rewrite Eu in T. apply at_eol_not_blank in T. cbn [P_PegRun.head_not] in T. congruence.
          + cbn [app] in Eu. injection Eu as -> Eu. apply Ni. exists y, z, l'. repeat split; auto. now apply blankb_spec. }
      eapply seq_cons; [eapply ok_lab, ok_opt_none; exact (no_Style (r :: l') (e ++ t) b er g st T A Br)|].
      eapply seq_cons; [eapply ok_lab; exact O1|].
      eapply seq_cons; [apply ok_pred with (c' := (er, g, st)), pred_host|].
      { intros s Es. apply core_store in Es. destruct Es as [<- _]. change (h_pred H) with (go_pred X cls white). unfold go_pred.
        replace (assoc (known_preds cls white) _) with (Some QNotTerm) by reflexivity. unfold run_pkind.
        cbn [label String.eqb Ascii.eqb Bool.eqb]. rewrite newRawLine_spec. unfold elem. cbn [label String.eqb Ascii.eqb Bool.eqb].
        destruct (no_colons_term (r :: l') Nc) as [-> ->]. reflexivity. }
      eapply seq_cons; [eapply ok_lab, ok_star, O2|apply seq_nil].
    - eapply act_known; [vm_compute; reflexivity|]. intros s Es _. apply core_store in Es. destruct Es as [<- _]. unfold run_akind.
      cbn [label String.eqb Ascii.eqb Bool.eqb]. rewrite vals_lines. cbn [to_val elem]. cbn [newParagraph].
      change (newRawLine (encode_runes (r :: l')) :: map (fun l => newRawLine (encode_runes l)) ls) with (map (fun l => newRawLine (encode_runes l)) ((r :: l') :: ls)).
      rewrite end_lines_spec. reflexivity.
  Qed.
  Lemma paragraph_ok : forall l e t ls tail b er g st, first_line alnum white l -> eol e t -> continued white t ls tail ->
    exists b', Ok_ (ERef "DocumentFragment") (Pos b (l ++ e ++ t)) [] (er, g, st)
      (elem (Paragraph [] (raw_lines (l :: ls)))) (Pos b' tail) [] (er, after g, st).
  Proof.
    intros l e t ls tail b er g st F E C. destruct (ok_Shortcut l e t ls tail b er g st F E C) as (b' & en' & O). exists b'.
    destruct F as (L & Nc & A & r & l' & -> & Ar & Wr & Ni). pose proof (eol_at _ _ E) as T. cbn [app] in O |- *.
    eapply (fragment_ok X cls low white other [ERef "ImageBlock"; ERef "UserMacroBlock"] (ERef "ShortcutParagraph") (skipn 3 fragment_alts));
      [reflexivity| | |exact O|reflexivity].
    - apply no_BlockAttributes; intros ->; rewrite alnum_ascii in Ar by reflexivity; discriminate.
    - intros a [<-|[<-|[]]].
      + exact (no_Image (r :: l') (e ++ t) b _ Nc T).
      + exact (no_Macro (r :: l') (e ++ t) b er g st Nc T).
  Qed.
End Paragraph.
