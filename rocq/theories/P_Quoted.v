(** C74: words in bold, italic, monospace or marked, from the text to the HTML. *)
From Coq Require Import List String NArith ZArith Bool Lia.
From Verif Require Import GoBase GoLemmas Utf8 Types Attrs Config Render Convert.
From Verif Require IdsAlpha.
From Verif Require Import Peg PegGrammar PegDoc PegHost PegSym PegBlockSpec PegInlineSpec ConvertSpec QuotedSpec P_PegRun P_PegPara P_PegDocs P_PegNormal P_Convert.
Import ListNotations.
Local Open Scope string_scope.
Local Open Scope list_scope.

Lemma no_lf_app a b : no_lf a -> no_lf b -> no_lf (a ++ b)%string.
Proof. intros A B. induction a as [|c a IH]; [exact B|]. destruct A as [A1 A]. split; [exact A1|now apply IH]. Qed.
Lemma no_lf_encode l : ~ In 10%N l -> no_lf (encode_runes l).
Proof.
  induction l as [|r l IH]; intros N; [exact I|]. rewrite encode_runes_cons. apply no_lf_app; [|apply IH; intros I; apply N; now right].
  destruct (N.ltb_spec r 128) as [L|L].
  - unfold encode_rune. rewrite (proj2 (N.ltb_lt _ _) L). split; [|exact I]. intros E. apply N. left.
    apply (f_equal Ascii.N_of_ascii) in E. unfold chr in E. rewrite !Ascii.N_ascii_embedding in E by lia. exact E.
  - destruct (IdsAlpha.encode_high r L) as [A _]. revert A. generalize (encode_rune r). clear. intros s A.
    induction s as [|c s IH]; [exact I|]. destruct A as [A1 A2]. split; [|now apply IH]. intros ->. vm_compute in A1. now apply A1.
Qed.

Lemma no_lf_trimmed s : no_lf s -> trimmed s s.
Proof.
  intros N. exists 0, 0. split; [cbn; now rewrite sapp_nil_r|]. split; intros u E; rewrite E in N.
  - destruct N as [N _]. now apply N.
  - clear E. induction u as [|c u IH]; [destruct N as [N _]; now apply N|]. apply IH. exact (proj2 N).
Qed.

Section Sentences.
  Variable X : Type.
  Variable cls : string -> rune -> bool.
  Variable low : rune -> rune.
  Variable white : rune -> bool.
  Variable other : string -> Peg.labels (PegHost.hv X) -> Peg.soft PegHost.gstore (option (list string)) -> option (Peg.value (PegHost.hv X) * bool).
  Hypothesis U : unicode_ok (go_host X cls low white other).
  Notation letter := (cls "L").
  Notation number := (cls "N").
  Notation wc := (word_char letter number).
  Lemma no_word r : known_class "L" r = Some false -> known_class "N" r = Some false -> wc r = false.
  Proof. exact (alnum_ascii X cls low white other U r). Qed.
  Lemma not_word r x : wc r = true -> wc x = false -> r <> x.
  Proof. intros A B ->. rewrite A in B. discriminate. Qed.
  Definition bad : list rune := [9; 10; 13; 32; 33; 41; 44; 46; 58; 59; 63; 64; 35; 42; 95; 96]%N.
  Lemma bad_word x : In x bad -> wc x = false.
  Proof. intros I. apply no_word; cbn in I; repeat destruct I as [<-|I]; try reflexivity; destruct I. Qed.
  Lemma next_not (f : rune -> bool) cs : f 32%N = false -> next_is f (chunks_text cs) = false.
  Proof. destruct cs; [reflexivity|]. intros E. exact E. Qed.
  Lemma next_end (f : rune -> bool) p cs : match p with Some r => In r (R ",.;!?") | None => True end ->
    (forall x, In x (32%N :: R ",.;!?") -> f x = false) -> next_is f (end_text p ++ chunks_text cs) = false.
  Proof. intros P F. destruct p as [r|]; [apply F; now right|]. apply next_not. apply F. now left. Qed.
  Definition words_items (c : words) : list item :=
    match c with Plain w => map Char w | Marked q w => [Elem (QuotedText (encode_runes [q]) [StringElement (encode_runes w)] [])] end.
  Fixpoint chunks_items (cs : list chunk) : list item :=
    match cs with [] => [] | c :: r => Char 32%N :: words_items (c_words c) ++ map Char (end_text (c_end c)) ++ chunks_items r end.
  Lemma word_ordinary macro p w t its : word letter number w -> next_is wc t = false -> next_is (N.eqb 58) t = false -> next_is (N.eqb 64) t = false ->
    (forall x, ordinary letter number macro (Some x) t its) -> ordinary letter number macro p (w ++ t) (map Char w ++ its).
  Proof.
    intros [Ne F] N C At O. destruct (exists_last Ne) as (w' & x & ->). rewrite <- app_assoc. apply ord_word; [exact F|exact N| | |apply O].
    - rewrite C. discriminate.
    - intros u ->. discriminate At.
  Qed.
  Lemma chunks_ordinary macro cs : Forall (good_chunk letter number) cs -> forall p, ordinary letter number macro p (chunks_text cs) (chunks_items cs).
  Proof.
    induction 1 as [|[c e] cs [G Ge] F IH]; intros p; [constructor|]. cbn [chunks_text chunks_items c_words c_end] in *.
    apply (ord_blanks _ _ _ p [] 32%N); [repeat constructor| |].
    { intros r Er. assert (~ In r [32; 9]%N) as N; [|intros [-> | ->]; apply N; cbn; tauto].
      destruct c as [w|q w]; cbn [words_text good_words] in *.
      - destruct G as [Ne Fw]. destruct w as [|y w]; [now elim Ne|]. inversion Fw as [|? ? Wy _]; subst. cbn in Er. apply N.eqb_eq in Er. subst y.
        intros I. apply (not_word r r Wy); [|reflexivity]. apply bad_word. cbn in *. intuition.
      - destruct G as [Iq _]. cbn in Er. apply N.eqb_eq in Er. subst q. cbn in Iq. intros I. cbn in I. intuition; subst; discriminate. }
    assert (forall x, ordinary letter number macro x (end_text e ++ chunks_text cs) (map Char (end_text e) ++ chunks_items cs)) as O.
    { intros x. destruct e as [r|]; [|apply IH]. cbn [end_text app map]. apply ord_char; [|apply IH]. unfold quiet_char. cbn in Ge.
      assert (begins (R "..") (chunks_text cs) = false) as B by (destruct cs; reflexivity).
      repeat destruct Ge as [<-|Ge]; try reflexivity; [|destruct Ge]. rewrite B. reflexivity. }
    assert (forall x, In x (32%N :: R ",.;!?") -> wc x = false) as B.
    { intros x I. apply bad_word. cbn in *. intuition. }
    destruct c as [w|q w]; cbn [words_text words_items good_words] in *.
    - apply word_ordinary; [exact G|apply next_end; [exact Ge|exact B]| | |intros; apply O]; (apply next_end; [exact Ge|]); intros x I; cbn in I; repeat destruct I as [<-|I]; try reflexivity; destruct I.
    - destruct G as (Iq & Fw & (y & w1 & Ew & Wy) & (w2 & z & Ez & Wz & Lz)). cbn [app]. rewrite <- app_assoc. cbn [app].
      apply ord_quoted; [exact Iq| | | |apply O].
      + unfold quotable. assert (wc 32%N = false) as -> by (apply B; now left). reflexivity.
      + split; [|split].
        * exact Fw.
        * rewrite Ew. exact Wy.
        * exists w2, z. split; [exact Ez|split; [exact Wz|exact Lz]].
      + unfold closing. apply negb_true_iff. apply next_end; [exact Ge|]. intros x I. rewrite (B x I). cbn in I, Iq. cbn.
        repeat destruct Iq as [<-|Iq]; try destruct Iq; repeat destruct I as [<-|I]; try reflexivity; destruct I.
  Qed.
  Definition sentence_items w cs := map Char w ++ chunks_items cs.
  Lemma written_chars w : Forall2 written (map Char w) (map (fun r => encode_runes [r]) w).
  Proof. induction w; constructor; [apply w_char|assumption]. Qed.
  Lemma concat_chars w : sconcat (map (fun r => encode_runes [r]) w) = encode_runes w.
  Proof. induction w as [|r w IH]; [reflexivity|]. cbn [map]. rewrite encode_runes_cons. unfold sconcat in *. cbn [fold_right]. rewrite IH. f_equal. cbn. now rewrite sapp_nil_r. Qed.
  Lemma words_written c : good_words letter number c -> exists hs, Forall2 written (words_items c) hs /\ sconcat hs = words_html c.
  Proof.
    destruct c as [w|q w]; intros G.
    - exists (map (fun r => encode_runes [r]) w). split; [apply written_chars|apply concat_chars].
    - destruct G as [Iq _]. exists [words_html (Marked q w)]. split; [|cbn; now rewrite sapp_nil_r]. constructor; [|constructor].
      cbn [words_html]. apply w_quoted. cbn in Iq. repeat destruct Iq as [<-|Iq]; try destruct Iq; vm_compute; tauto.
  Qed.
  Lemma sconcat_app' a b : sconcat (a ++ b) = (sconcat a ++ sconcat b)%string.
  Proof. induction a as [|x a IH]; [reflexivity|]. unfold sconcat in *. cbn [app fold_right]. rewrite IH. now rewrite sapp_assoc. Qed.
  Lemma chunks_written cs : Forall (good_chunk letter number) cs -> exists hs, Forall2 written (chunks_items cs) hs /\ sconcat hs = chunks_html cs.
  Proof.
    induction 1 as [|[c e] cs [G Ge] F (hs & W & E)]; [exists []; split; [constructor|reflexivity]|]. cbn [chunks_items chunks_html c_words c_end] in *.
    destruct (words_written c G) as (hw & Ww & Ew). exists (encode_runes [32%N] :: hw ++ map (fun r => encode_runes [r]) (end_text e) ++ hs). split.
    - constructor; [apply w_char|]. apply Forall2_app; [exact Ww|]. apply Forall2_app; [apply written_chars|exact W].
    - change (encode_runes [32%N] :: ?l) with ([encode_runes [32%N]] ++ l). rewrite !sconcat_app', Ew, E, concat_chars. reflexivity.
  Qed.
  Definition plain_rune (r : rune) : Prop := wc r = true \/ In r [9; 32; 33; 44; 46; 59; 63; 35; 42; 95; 96]%N.
  Lemma plain_not r x : plain_rune r -> In x [10; 13; 41; 58; 64]%N -> r <> x.
  Proof.
    intros [W|I] Ix ->; [assert (wc x = false) as B by (apply bad_word; cbn in *; intuition); rewrite W in B; discriminate|].
    cbn in I, Ix. intuition; subst; discriminate.
  Qed.
  Lemma words_plain c : good_words letter number c -> Forall plain_rune (words_text c).
  Proof.
    destruct c as [w|q w]; intros G; cbn [words_text good_words] in *.
    - eapply Forall_impl; [|exact (proj2 G)]. intros r W. now left.
    - destruct G as (Iq & Fw & _). assert (plain_rune q) as Pq by (right; cbn in *; intuition).
      constructor; [exact Pq|]. apply Forall_app. split; [|constructor; [exact Pq|constructor]]. eapply Forall_impl; [|exact Fw].
      intros r [W|[->| ->]]; [now left|right; cbn; tauto|right; cbn; tauto].
  Qed.
  Lemma chunks_plain cs : Forall (good_chunk letter number) cs -> Forall plain_rune (chunks_text cs).
  Proof.
    induction 1 as [|[c e] cs [G Ge] F IH]; [constructor|]. cbn [chunks_text c_words c_end] in *. constructor; [right; cbn; tauto|].
    apply Forall_app. split; [now apply words_plain|]. apply Forall_app. split; [|exact IH]. destruct e as [r|]; [|constructor]. constructor; [|constructor]. right. cbn in *. intuition.
  Qed.
  Lemma sentence_plain w cs : word letter number w -> Forall (good_chunk letter number) cs -> Forall plain_rune (w ++ chunks_text cs).
  Proof. intros W F. apply Forall_app. split; [|now apply chunks_plain]. apply (words_plain (Plain w)). exact W. Qed.
  (** its last character is not a blank *)
  Definition ends_well (t : list rune) : Prop := exists a r, t = a ++ [r] /\ ~ In r [32; 9]%N.
  Lemma ends_app a b : ends_well b -> ends_well (a ++ b).
  Proof. intros (x & r & -> & N). exists (a ++ x), r. now rewrite app_assoc. Qed.
  Lemma word_ends w : word letter number w -> ends_well w.
  Proof.
    intros [Ne F]. destruct (exists_last Ne) as (w' & x & ->). exists w', x. split; [reflexivity|]. apply Forall_app in F. destruct F as [_ F]. inversion F as [|? ? W _]; subst.
    intros I. assert (wc x = false) as B by (apply bad_word; cbn in *; intuition). unfold word_char in B. rewrite W in B. discriminate.
  Qed.
  Lemma words_ends c : good_words letter number c -> ends_well (words_text c).
  Proof.
    destruct c as [w|q w]; intros G; [now apply word_ends|]. exists (q :: w), q. split; [reflexivity|]. destruct G as [Iq _]. cbn in *. intuition; subst; discriminate.
  Qed.
  Lemma sentence_ends cs : Forall (good_chunk letter number) cs -> forall w, ends_well w -> ends_well (w ++ chunks_text cs).
  Proof.
    induction 1 as [|[c e] cs [G Ge] F IH]; intros w W; cbn [chunks_text c_words c_end] in *; [now rewrite app_nil_r|].
    assert (ends_well (words_text c ++ end_text e)) as Ec.
    { destruct e as [r|]; [|cbn; rewrite app_nil_r; now apply words_ends]. exists (words_text c), r. split; [reflexivity|]. cbn in *. intuition; subst; discriminate. }
    apply (ends_app (w ++ [32%N])) in Ec. apply IH in Ec. rewrite <- !app_assoc in Ec. exact Ec.
  Qed.
  Lemma rstrip_ends t : ends_well t -> rstrip t = t.
  Proof.
    intros (a & r & -> & N). unfold rstrip. rewrite rev_app_distr. cbn [rev app skip_blanks].
    assert (N.eqb r 32 || N.eqb r 9 = false) as ->; [|rewrite <- (rev_involutive (a ++ [r])), rev_app_distr; reflexivity].
    apply orb_false_iff. split; apply N.eqb_neq; intros ->; apply N; cbn; tauto.
  Qed.
  Lemma words_no_lf c : good_words letter number c -> no_lf (words_html c).
  Proof.
    intros G. pose proof (words_plain c G) as P. rewrite Forall_forall in P. destruct c as [w|q w]; cbn [words_html words_text] in *.
    - apply no_lf_encode. intros I. apply P in I. apply (plain_not 10%N 10%N I); cbn; tauto.
    - assert (no_lf (encode_runes w)) as Nw.
      { apply no_lf_encode. intros I. apply (plain_not 10%N 10%N); [apply P; right; apply in_or_app; now left|cbn; tauto|reflexivity]. }
      assert (no_lf (tag_of q)) as Nq. { destruct G as [Iq _]. cbn in Iq. repeat destruct Iq as [<-|Iq]; try destruct Iq; vm_compute; repeat split; discriminate. }
      repeat (apply no_lf_app; [try assumption|]); try assumption; vm_compute; repeat split; discriminate.
  Qed.
  Lemma chunks_no_lf cs : Forall (good_chunk letter number) cs -> no_lf (chunks_html cs).
  Proof.
    induction 1 as [|[c e] cs [G Ge] F IH]; [exact I|]. cbn [chunks_html c_words c_end] in *. repeat apply no_lf_app.
    - vm_compute. split; [discriminate|exact I].
    - now apply words_no_lf.
    - apply no_lf_encode. destruct e as [r|]; [|intros []]. intros [->|[]]. cbn in Ge. intuition discriminate.
    - exact IH.
  Qed.
End Sentences.

(** a paragraph of such a sentence *)
Theorem C74_converted : forall X cls low white other, unicode_ok (go_host X cls low white other) ->
  forall E setColumns (c : config) a r w cs,
  c_attrs c = Some a -> (forall n, In n neutral_names -> mget a n = None) -> c_wrap c = false ->
  word (cls "L") (cls "N") (r :: w) -> white r = false -> Forall (good_chunk (cls "L") (cls "N")) cs ->
  characters ((r :: w) ++ chunks_text cs) ->
  exists n0 a', forall n, n0 <= n -> convert X cls low white other E setColumns n c ((r :: w) ++ chunks_text cs) =
    Ok (paragraph_html (encode_runes (r :: w) ++ chunks_html cs), "", a').
Proof.
  intros X cls low white other U E setColumns c a r w cs Ea Na Wr W Wh F Ch. set (t := (r :: w) ++ chunks_text cs).
  set (h := paragraph_html (encode_runes (r :: w) ++ chunks_html cs)).
  pose proof (sentence_plain cls _ _ W F) as P. fold t in P.
  assert (rstrip t = t) as Rs. { apply rstrip_ends. eapply sentence_ends; eauto. eapply word_ends; eauto. }
  apply (C69_converted X cls low white other U E setColumns c a t [Paragraph [] (PegBlockSpec.raw_lines [t])] [h]); auto.
  - assert (t = t ++ [] ++ []) as Et by (now rewrite !app_nil_r). rewrite Et at 1. apply (doc_cons _ _ true _ _ [] []); [discriminate| |constructor].
    apply (piece_para _ _ true t [] [] [] []); [|right; right; right; split; reflexivity|constructor].
    assert (forall x, In x [10; 13; 41; 58; 64]%N -> ~ In x t) as Nt.
    { intros x Ix It. rewrite Forall_forall in P. apply (plain_not X cls low white other U x x (P x It) Ix). reflexivity. }
    split; [|split; [|split]].
    + apply Forall_forall. intros x Ix. split; intros ->; revert Ix; apply Nt; cbn; tauto.
    + intros (x & y & E1). apply (Nt 58%N); [cbn; tauto|]. rewrite E1. apply in_or_app. right. now left.
    + intros l Il (y & E1). apply (Nt 58%N); [cbn; tauto|]. rewrite E1. apply in_or_app. left. cbn in Il. repeat destruct Il as [<-|Il]; try destruct Il; vm_compute; tauto.
    + exists r, (w ++ chunks_text cs). split; [reflexivity|]. destruct W as [_ W]. inversion W as [|? ? W1 W2]; subst. split; [exact W1|]. split; [exact Wh|].
      intros (y & z & u & E1 & Hy & _). destruct w as [|x w].
      * cbn [app] in E1. destruct cs as [|d cs]; [discriminate|]. cbn [chunks_text] in E1. injection E1 as <- _. destruct Hy; discriminate.
      * injection E1 as <- _. inversion W2 as [|? ? Wx _]; subst. assert (word_char (cls "L") (cls "N") x = false) as B by (apply (bad_word X cls low white other U); cbn; intuition).
        unfold word_char in B. rewrite Wx in B. discriminate.
  - apply all_cons; [|constructor]. destruct (chunks_written _ _ F) as (hs & Wh' & Eh).
    apply (s_para _ _ _ _ _ _ [t] (map Char (r :: w) ++ chunks_items cs)); cbn [joined]; try rewrite Rs.
    + exact Ch.
    + apply (word_ordinary cls); [exact W|apply next_not; apply (bad_word X cls low white other U); cbn; tauto|now apply next_not|now apply next_not|].
      intros x. eapply chunks_ordinary; eauto.
    + exists (map (fun r => encode_runes [r]) (r :: w) ++ hs). split; [apply Forall2_app; [apply written_chars|exact Wh']|].
      rewrite concat_sconcat, sconcat_app', concat_chars, Eh. apply no_lf_trimmed. apply no_lf_app; [|eapply chunks_no_lf; eauto].
      apply no_lf_encode. intros I. rewrite Forall_forall in P. assert (In 10%N t) as It by (apply in_or_app; now left).
      apply (plain_not X cls low white other U 10%N 10%N (P _ It)); cbn; tauto.
Qed.

(** * The hypotheses hold of a concrete sentence, and it is converted as the theorem says *)
Definition a_sentence : list chunk :=
  [Chunk (Marked 42%N (R "very bold")) (Some 44%N); Chunk (Plain (R "or")) None; Chunk (Marked 95%N (R "not")) (Some 33%N); Chunk (Marked 96%N (R "code")) None; Chunk (Marked 35%N (R "m4rk")) (Some 46%N)].
Theorem C74_text : R "Is" ++ chunks_text a_sentence = R "Is *very bold*, or _not_! `code` #m4rk#.".
Proof. vm_compute. reflexivity. Qed.
Theorem C74_hypotheses : word (demo_cls "L") (demo_cls "N") (R "Is") /\ Forall (good_chunk (demo_cls "L") (demo_cls "N")) a_sentence /\ characters (R "Is" ++ chunks_text a_sentence).
Proof.
  split; [split; [discriminate|repeat constructor]|]. split; [|repeat constructor].
  repeat (apply Forall_cons || apply Forall_nil); (split; [|cbn; tauto]); cbn [good_words c_words].
  - split; [cbn; tauto|]. split; [|split; [eexists _, _; split; reflexivity|exists (R "very bol"), 100%N; repeat split]].
    repeat (apply Forall_cons; [first [left; reflexivity|right; left; reflexivity]|]). constructor.
  - split; [discriminate|repeat constructor].
  - split; [cbn; tauto|]. split; [repeat constructor|split; [eexists _, _; split; reflexivity|exists (R "no"), 116%N; repeat split]].
  - split; [cbn; tauto|]. split; [repeat constructor|split; [eexists _, _; split; reflexivity|exists (R "cod"), 101%N; repeat split]].
  - split; [cbn; tauto|]. split; [repeat constructor|split; [eexists _, _; split; reflexivity|exists (R "m4r"), 107%N; repeat split]].
Qed.
Theorem C74_run : html_written "Is *very bold*, or _not_! `code` #m4rk#." = Ok
"<div class=""paragraph"">
<p>Is <strong>very bold</strong>, or <em>not</em>! <code>code</code> <mark>m4rk</mark>.</p>
</div>
".
Proof. vm_compute. reflexivity. Qed.

(** * What one might expect and is not so *)
(** whether the words are quoted depends on their last byte: the last byte of an "a" with a grave accent is 160, a white space *)
Theorem C74_accent_refuted :
  latin_elements (R "so *voila* to") = Some [StringElement "so "; QuotedText "*" [StringElement "voila"] []; StringElement " to"] /\
  latin_elements (R "so *voil" ++ [224%N] ++ R "* to") = Some [StringElement (encode_runes (R "so *voil" ++ [224%N] ++ R "* to"))].
Proof. split; vm_compute; reflexivity. Qed.
(** directly after one of ! , ; } a mark is an ordinary character; after ( or : it is not *)
Theorem C74_comma_refuted :
  html_written "a,*b*" = Ok (paragraph_html "a,*b*") /\ html_written "a:*b*" = Ok (paragraph_html "a:<strong>b</strong>") /\ html_written "a;*b* (*b*)" = Ok (paragraph_html "a;*b* (<strong>b</strong>)").
Proof. repeat split; vm_compute; reflexivity. Qed.
Print Assumptions C74_converted.
