(** C28, C29, C50: escaping, ASCII output, predefined attributes and symbols. *)
From Verif Require Import GoBase GoLemmas Utf8 Utf8Lemmas Escape EscapeSpec.
From Coq Require Import Lia.

Lemma chars_app P a b : chars P (a ++ b)%string <-> chars P a /\ chars P b.
Proof. induction a as [|c a IH]; cbn; [tauto|]. rewrite IH. tauto. Qed.
Lemma chars_impl (P Q : ascii -> Prop) s : (forall c, P c -> Q c) -> chars P s -> chars Q s.
Proof. intros H. induction s as [|c s IH]; cbn; [auto|]. intros [A B]. auto. Qed.

(** *** one step of the escaping *)
Lemma replacer_skip ps a s : replacer_from ps (String.length a) (a ++ s) = replacer_from ps 0 s.
Proof. induction a as [|c a IH]; [reflexivity|]. exact IH. Qed.
Lemma replacer_skip1 ps c a s : replacer_from ps (String.length (String c a) - 1) (a ++ s) = replacer_from ps 0 s.
Proof. replace (String.length (String c a) - 1)%nat with (String.length a) by (cbn; lia). apply replacer_skip. Qed.

(** what the escaping does at the beginning of a text *)
Lemma escape_step s : s = EmptyString \/
  (exists r, (s = "&lt;" ++ r /\ escapeString s = "&lt;" ++ escapeString r)%string) \/
  (exists r, (s = "&gt;" ++ r /\ escapeString s = "&gt;" ++ escapeString r)%string) \/
  (exists r, (s = "&amp;" ++ r /\ escapeString s = "&amp;" ++ escapeString r)%string) \/
  (exists r, (s = "&#" ++ r /\ escapeString s = "&#" ++ escapeString r)%string) \/
  (exists r, (s = "&" ++ r /\ ~ entity_at s /\ escapeString s = "&amp;" ++ escapeString r)%string) \/
  (exists r, (s = "<" ++ r /\ escapeString s = "&lt;" ++ escapeString r)%string) \/
  (exists r, (s = ">" ++ r /\ escapeString s = "&gt;" ++ escapeString r)%string) \/
  (exists r, (s = sq ++ r /\ escapeString s = "&#39;" ++ escapeString r)%string) \/
  (exists r, (s = dq ++ r /\ escapeString s = "&#34;" ++ escapeString r)%string) \/
  (exists c r, s = String c r /\ ~ special c /\ c <> "&"%char /\ escapeString s = String c (escapeString r)).
Proof.
  destruct s as [|c s']; [now left|right]. set (s := String c s').
  assert (K : forall old new, first_match htmlEscaper s = Some (old, new) -> has_prefix s old = true).
  { intros old new. unfold htmlEscaper. cbn [first_match fst].
    repeat match goal with |- context [has_prefix s ?o] => destruct (has_prefix s o) eqn:?; [intros [= <- <-]; assumption|] end. discriminate. }
  assert (R : forall old new r, first_match htmlEscaper s = Some (old, new) -> s = (old ++ r)%string -> old <> EmptyString ->
              escapeString s = (new ++ escapeString r)%string).
  { intros old new r M E NE. unfold escapeString, replacer. subst s. cbn [replacer_from]. rewrite M. f_equal.
    destruct old as [|o old]; [congruence|]. cbn [append] in E. injection E as -> ->. apply replacer_skip1. }
  destruct (first_match htmlEscaper s) as [[old new]|] eqn:M.
  - pose proof (K _ _ eq_refl) as P. apply has_prefix_iff in P. destruct P as [r P].
    assert (C : In (old, new) htmlEscaper).
    { clear - M. revert M. generalize htmlEscaper as l. induction l as [|p l IH]; cbn; [discriminate|].
      destruct (has_prefix s (fst p)); [intros [= ->]; now left|right; auto]. }
    unfold htmlEscaper in C. cbn [In] in C.
    repeat (destruct C as [C|C]; [injection C as <- <-|]); try contradiction.
    + left. exists r. split; [exact P|]. eapply R; eauto. discriminate.
    + right; left. exists r. split; [exact P|]. eapply R; eauto. discriminate.
    + do 2 right; left. exists r. split; [exact P|]. eapply R; eauto. discriminate.
    + do 3 right; left. exists r. split; [exact P|]. eapply R; eauto. discriminate.
    + do 4 right; left. exists r. split; [exact P|]. split; [|eapply R; eauto; discriminate].
      intros (r' & H). unfold htmlEscaper in M. cbn [first_match fst] in M.
      assert (HP : forall p q, s = (p ++ q)%string -> has_prefix s p = true) by (intros p q ->; apply has_prefix_iff; eauto).
      destruct H as [H|[H|[H|H]]]; apply HP in H; rewrite H in M;
        repeat match type of M with context [if ?b then _ else _] => destruct b end; discriminate.
    + do 5 right; left. exists r. split; [exact P|]. eapply R; eauto. discriminate.
    + do 6 right; left. exists r. split; [exact P|]. eapply R; eauto. discriminate.
    + do 7 right; left. exists r. split; [exact P|]. eapply R; eauto. discriminate.
    + do 8 right; left. exists r. split; [exact P|]. eapply R; eauto. discriminate.
  - do 9 right. exists c, s'. split; [reflexivity|].
    assert (X : forall o n, In (o, n) htmlEscaper -> has_prefix s o = false).
    { clear - M. revert M. generalize htmlEscaper as l. induction l as [|p l IH]; cbn; [tauto|].
      destruct (has_prefix s (fst p)) eqn:E; [discriminate|]. intros M o n [->|I]; [exact E|eauto]. }
    assert (Y : forall d n, In (String d EmptyString, n) htmlEscaper -> c <> d).
    { intros d n I ->. apply X in I. subst s. cbn in I. now rewrite Ascii.eqb_refl in I. }
    split; [|split].
    + intros [H|[H|[H|H]]]; subst c; eapply Y; try reflexivity; cbn; intuition eauto.
    + eapply (Y "&"%char "&amp;"). cbn. intuition.
    + unfold escapeString, replacer. subst s. cbn [replacer_from]. now rewrite M.
Qed.
Lemma escape_ind (P : string -> Prop) : P EmptyString ->
  (forall s, (forall r, (String.length r < String.length s)%nat -> P r) -> s <> EmptyString -> P s) -> forall s, P s.
Proof.
  intros P0 PS s. remember (String.length s) as n eqn:E. revert s E. induction n as [n IH] using lt_wf_ind. intros s ->.
  destruct s as [|c s]; [exact P0|]. apply PS; [|discriminate]. intros r L. eapply IH; eauto.
Qed.
Lemma slen_app a b : String.length (a ++ b)%string = (String.length a + String.length b)%nat.
Proof. induction a; cbn; auto. Qed.

Local Ltac steps_ s := destruct (escape_step s) as [->|[(r & -> & ->)|[(r & -> & ->)|[(r & -> & ->)|[(r & -> & ->)|[(r & -> & NE & ->)|
  [(r & -> & ->)|[(r & -> & ->)|[(r & -> & ->)|[(r & -> & ->)|(c & r & -> & NS & NA & ->)]]]]]]]]]].

(** ** C28 *)
(** Escaped text has no "<", ">", quote or double quote. *)
Theorem C28_no_special : forall s, no_special (escapeString s).
Proof.
  intros s. induction s as [|s IH NZ] using escape_ind; [exact I|]. unfold no_special in *.
  steps_ s; [exact I|..]; try (apply chars_app; split; [|apply IH; rewrite slen_app; cbn; lia]).
  1-9: cbn; unfold special; repeat split; intros [H|[H|[H|H]]]; discriminate.
  cbn. split; [exact NS|]. apply IH. cbn. lia.
Qed.
(** Text without special characters is left alone. *)
Theorem C28_identity : forall s, plain s -> escapeString s = s.
Proof.
  intros s. induction s as [|s IH NZ] using escape_ind; [reflexivity|]. unfold plain in *. intros P.
  steps_ s; [reflexivity|..].
  1-9: exfalso; destruct P as [[P1 P2] _]; (now apply P2) || (apply P1; unfold special; cbn; auto).
  f_equal. apply IH; [cbn; lia|]. apply P.
Qed.
Lemma escape_entity p r : In p ["&lt;"; "&gt;"; "&amp;"; "&#"]%string -> escapeString (p ++ r) = (p ++ escapeString r)%string.
Proof.
  unfold escapeString. assert (X : forall k, replacer_from htmlEscaper k r = replacer_from htmlEscaper k r) by reflexivity.
  intros [<-|[<-|[<-|[<-|[]]]]]; cbn; destruct r; reflexivity.
Qed.
(** Escaping escaped text changes nothing. *)
Theorem C28_stable : forall s, escapeString (escapeString s) = escapeString s.
Proof.
  intros s. induction s as [|s IH NZ] using escape_ind; [reflexivity|].
  assert (E39 : forall r, escapeString ("&#39;" ++ r) = ("&#39;" ++ escapeString r)%string).
  { intros r. change ("&#39;" ++ r)%string with ("&#" ++ ("39;" ++ r))%string. rewrite escape_entity by (cbn; tauto). destruct r; reflexivity. }
  assert (E34 : forall r, escapeString ("&#34;" ++ r) = ("&#34;" ++ escapeString r)%string).
  { intros r. change ("&#34;" ++ r)%string with ("&#" ++ ("34;" ++ r))%string. rewrite escape_entity by (cbn; tauto). destruct r; reflexivity. }
  assert (EC : forall c r, ~ special c -> c <> "&"%char -> escapeString (String c r) = String c (escapeString r)).
  { intros c r NS NA. destruct (escape_step (String c r)) as [H|[(r' & H & _)|[(r' & H & _)|[(r' & H & _)|[(r' & H & _)|[(r' & H & _)|
      [(r' & H & _)|[(r' & H & _)|[(r' & H & _)|[(r' & H & _)|(c' & r' & H & _ & _ & H')]]]]]]]]]]; cbn in H; try discriminate;
      injection H as H1 H2; subst; try congruence; exfalso; apply NS; unfold special; cbn; auto. }
  steps_ s; try reflexivity; rewrite ?E39, ?E34, ?escape_entity by (cbn; tauto); rewrite ?EC by assumption; f_equal;
    apply IH; rewrite ?slen_app; cbn; lia.
Qed.
(** Every ampersand that is left starts an entity. *)
Lemma amps_app a b : chars (fun c => c <> "&"%char) a -> amps_ok b -> amps_ok (a ++ b)%string.
Proof. induction a as [|c a IH]; cbn; auto. intros [H1 H2] B. split; [now intros|]. auto. Qed.
Theorem C28_ampersands : forall s, amps_ok (escapeString s).
Proof.
  intros s. induction s as [|s IH NZ] using escape_ind; [exact I|].
  assert (EN : forall p r, In p ["lt;"; "gt;"; "amp;"; "#"; "#39;"; "#34;"]%string -> amps_ok r -> amps_ok ("&" ++ (p ++ r))%string).
  { intros p r H A. cbn [append amps_ok]. split.
    - intros _. unfold entity_at. destruct H as [<-|[<-|[<-|[<-|[<-|[<-|[]]]]]]]; cbn [append]; eexists; cbn [append];
        first [left; reflexivity|right; left; reflexivity|right; right; left; reflexivity|right; right; right; reflexivity].
    - apply amps_app; [|exact A]. destruct H as [<-|[<-|[<-|[<-|[<-|[<-|[]]]]]]]; cbn; repeat split; discriminate. }
  steps_ s; [exact I|..].
  1: apply (EN "lt;"). 3: apply (EN "gt;"). 5: apply (EN "amp;"). 7: apply (EN "#"). 9: apply (EN "amp;"). 11: apply (EN "lt;").
  13: apply (EN "gt;"). 15: apply (EN "#39;"). 17: apply (EN "#34;").
  all: try (apply IH; rewrite ?slen_app; cbn; lia). all: try (cbn; tauto).
  cbn. split; [intros H; congruence|]. apply IH. cbn. lia.
Qed.
(** Escaped characters stand for the originals: reading the result gives back the text, if the text itself has no entity. *)
Lemma decode_skip a s : decode_from (String.length a) (a ++ s)%string = decode_from 0 s.
Proof. induction a as [|c a IH]; [reflexivity|]. exact IH. Qed.
Lemma decode_other c r : c <> "&"%char -> decode (String c r) = String c (decode r).
Proof.
  intros N. unfold decode. cbn [decode_from]. cbn [has_prefix]. apply Ascii.eqb_neq in N. rewrite N. reflexivity.
Qed.
Lemma escape_plain c r : ~ special c -> c <> "&"%char -> escapeString (String c r) = String c (escapeString r).
Proof.
  intros NS NA. destruct (escape_step (String c r)) as [H|[(r' & H & _)|[(r' & H & _)|[(r' & H & _)|[(r' & H & _)|[(r' & H & _)|
      [(r' & H & _)|[(r' & H & _)|[(r' & H & _)|[(r' & H & _)|(c' & r' & H & _ & _ & H')]]]]]]]]]]; cbn in H; try discriminate;
      injection H as H1 H2; subst; try congruence; exfalso; apply NS; unfold special; cbn; auto.
Qed.
Lemma escape_prefix p : forall s, plain p -> has_prefix (escapeString s) p = has_prefix s p.
Proof.
  induction p as [|d0 p IH]; intros s P; [destruct s, (escapeString _); reflexivity|]. destruct P as [[P1 P2] P].
  assert (N : forall d, In d ["&"%char; "<"%char; ">"%char; chr 39; chr 34] -> Ascii.eqb d d0 = false).
  { intros d D. apply Ascii.eqb_neq. intros X. subst d. unfold special in P1. destruct D as [D|[D|[D|[D|[D|[]]]]]]; subst d0; tauto. }
  clear P1 P2; steps_ s; [reflexivity|..]; try (cbn [append has_prefix]; unfold sq, dq; cbn [append has_prefix]; rewrite !N by (cbn; tauto); reflexivity).
  cbn [has_prefix]. now rewrite IH.
Qed.
Lemma decode_ref x : decode ("&#" ++ x) =
  if has_prefix x "39;" then String (chr 39) (decode_from 3 x) else if has_prefix x "34;" then String (chr 34) (decode_from 3 x) else ("&#" ++ decode x)%string.
Proof. reflexivity. Qed.
(** Escaped text reads as the source does: for every text. *)
Theorem C28_meaning : forall s, decode (escapeString s) = decode s.
Proof.
  intros s. induction s as [|s IH NZ] using escape_ind; [reflexivity|].
  assert (P39 : plain "39;") by (cbn; unfold special; repeat split; try (intros [H|[H|[H|H]]]; discriminate); discriminate).
  assert (P34 : plain "34;") by (cbn; unfold special; repeat split; try (intros [H|[H|[H|H]]]; discriminate); discriminate).
  steps_ s; [reflexivity|..].
  - change (decode ("&lt;" ++ ?x)) with (String "<" (decode x)). f_equal. apply IH. rewrite slen_app. cbn. lia.
  - change (decode ("&gt;" ++ ?x)) with (String ">" (decode x)). f_equal. apply IH. rewrite slen_app. cbn. lia.
  - change (decode ("&amp;" ++ ?x)) with (String "&" (decode x)). f_equal. apply IH. rewrite slen_app. cbn. lia.
  - rewrite !decode_ref, !escape_prefix by assumption.
    assert (Q : forall p c, plain p -> String.length p = 3%nat -> has_prefix r p = true -> String c (decode_from 3 (escapeString r)) = String c (decode_from 3 r)).
    { intros p c PP L H. apply has_prefix_iff in H. destruct H as [q ->].
      assert (X : escapeString (p ++ q) = (p ++ escapeString q)%string).
      { clear - PP. induction p as [|d p IHp]; [reflexivity|]. cbn [append]. destruct PP as [[A B] PP]. rewrite escape_plain by assumption. now rewrite IHp. }
      rewrite X, <- L, !decode_skip. f_equal. apply IH. rewrite !slen_app. cbn. lia. }
    destruct (has_prefix r "39;") eqn:E1; [exact (Q _ _ P39 eq_refl E1)|]. destruct (has_prefix r "34;") eqn:E2; [exact (Q _ _ P34 eq_refl E2)|].
    f_equal. apply IH. rewrite slen_app. cbn. lia.
  - change (decode ("&amp;" ++ ?x)) with (String "&" (decode x)).
    assert (X : decode ("&" ++ r) = String "&" (decode r)).
    { unfold decode. cbn [append decode_from].
      assert (HP : forall p, In p ["&lt;"; "&gt;"; "&amp;"; "&#39;"; "&#34;"]%string -> has_prefix (String "&" r) p = false).
      { intros p P. destruct (has_prefix (String "&" r) p) eqn:E; [|reflexivity]. exfalso. apply NE. apply has_prefix_iff in E. destruct E as [q E].
        cbn [append]. unfold entity_at. destruct P as [<-|[<-|[<-|[<-|[<-|[]]]]]]; cbn [append] in E; rewrite E;
          [exists q|exists q|exists q|exists ("39;" ++ q)%string|exists ("34;" ++ q)%string]; cbn; tauto. }
      rewrite !HP by (cbn; tauto). reflexivity. }
    rewrite X. f_equal. apply IH. cbn. lia.
  - change (decode ("&lt;" ++ ?x)) with (String "<" (decode x)). change (decode ("<" ++ ?x)) with (String "<" (decode x)). f_equal. apply IH. rewrite slen_app. cbn. lia.
  - change (decode ("&gt;" ++ ?x)) with (String ">" (decode x)). change (decode (">" ++ ?x)) with (String ">" (decode x)). f_equal. apply IH. rewrite slen_app. cbn. lia.
  - change (decode ("&#39;" ++ ?x)) with (String (chr 39) (decode x)). change (decode (sq ++ ?x)) with (String (chr 39) (decode x)). f_equal. apply IH. rewrite slen_app. cbn. lia.
  - change (decode ("&#34;" ++ ?x)) with (String (chr 34) (decode x)). change (decode (dq ++ ?x)) with (String (chr 34) (decode x)). f_equal. apply IH. rewrite slen_app. cbn. lia.
  - rewrite !decode_other by assumption. f_equal. apply IH. cbn. lia.
Qed.
(** In particular the result reads back as the source exactly when the source has no entity that a reader would change, so in
    particular when it has none of "&lt;", "&gt;", "&amp;", "&#". *)
Theorem C28_reads_back : forall s, (decode (escapeString s) = s <-> decode s = s) /\ (no_entity s -> decode s = s).
Proof.
  intros s. split; [now rewrite C28_meaning|]. induction s as [|c s IH]; [reflexivity|]. intros [N NE].
  assert (X : decode (String c s) = String c (decode s)).
  { unfold decode. cbn [decode_from].
    assert (HP : forall p, In p ["&lt;"; "&gt;"; "&amp;"; "&#39;"; "&#34;"]%string -> has_prefix (String c s) p = false).
    { intros p P. destruct (has_prefix (String c s) p) eqn:E; [|reflexivity]. exfalso. apply N. apply has_prefix_iff in E. destruct E as [q E].
      unfold entity_at. rewrite E. destruct P as [<-|[<-|[<-|[<-|[<-|[]]]]]];
        [exists q|exists q|exists q|exists ("39;" ++ q)%string|exists ("34;" ++ q)%string]; cbn; tauto. }
    rewrite !HP by (cbn; tauto). reflexivity. }
  rewrite X. f_equal. now apply IH.
Qed.
Theorem C28_case : escapeString "a < b && 'c' &amp; &#8217; &unknown;" = "a &lt; b &amp;&amp; &#39;c&#39; &amp; &#8217; &amp;unknown;".
Proof. vm_compute. reflexivity. Qed.
Theorem C28_case_meaning : no_entity "a < b && c &x;" /\ plain "text".
Proof.
  split; cbn.
  - repeat split; intros [r [H|[H|[H|H]]]]; discriminate.
  - unfold special. repeat split; try (intros [H|[H|[H|H]]]; discriminate); discriminate.
Qed.
(** In general they do not: a text that already has an entity is not escaped, so two different texts look the same. *)
Theorem C28_meaning_refuted : exists s t, s <> t /\ escapeString s = escapeString t /\ decode (escapeString s) <> s.
Proof. exists "&lt;", "<". repeat split; vm_compute; try reflexivity; discriminate. Qed.

(** ** C29 *)
Lemma itoa_digits n : chars (fun c => 48 <= N_of_ascii c <= 57)%N (itoaN n).
Proof.
  unfold itoaN. assert (X : forall f n acc, chars (fun c => 48 <= N_of_ascii c <= 57)%N acc -> chars (fun c => 48 <= N_of_ascii c <= 57)%N (digits_fuel f n acc)).
  { clear. induction f as [|f IH]; intros n acc H; cbn [digits_fuel]; [exact H|].
    assert (D : chars (fun c => 48 <= N_of_ascii c <= 57)%N (String (digit_ascii (n mod 10)) acc)).
    { cbn. split; [|exact H]. unfold digit_ascii. assert (n mod 10 < 10)%N by (apply N.mod_lt; lia). rewrite N_ascii_embedding by lia. lia. }
    destruct (n <? 10)%N; [exact D|]. now apply IH. }
  apply X. exact I.
Qed.
Lemma encode_ascii r : (r < 128)%N -> encode_rune r = String (chr r) EmptyString.
Proof. intros H. unfold encode_rune. destruct (N.ltb_spec r 128); [reflexivity|lia]. Qed.
Lemma entify_ascii r : ascii_only (entify_rune r).
Proof.
  unfold entify_rune. destruct (N.ltb_spec r 128) as [L|L]; cbn [andb].
  - destruct (ascii_printable r).
    + rewrite encode_ascii by exact L. cbn. split; [|exact I]. rewrite N_chr; lia.
    + unfold ascii_only. rewrite !chars_app. split; [cbn; lia|]. split; [|cbn; lia]. eapply chars_impl; [|apply itoa_digits]. cbv beta. lia.
  - unfold ascii_only. rewrite !chars_app. split; [cbn; lia|]. split; [|cbn; lia]. eapply chars_impl; [|apply itoa_digits]. cbv beta. lia.
Qed.
(** Text elements are rendered as ASCII when Unicode is off, and text of printable ASCII characters is left alone. *)
Theorem C29_text_ascii : forall s, ascii_only (renderStringElement false s).
Proof.
  intros s. unfold renderStringElement, asciiEntify. induction (runes s) as [|r l IH]; cbn; [exact I|]. apply chars_app. split; [apply entify_ascii|exact IH].
Qed.
Lemma runes_ascii s : ascii_only s -> runes s = map N_of_ascii (list_ascii_of_string s).
Proof.
  unfold runes. induction s as [|c s IH]; [reflexivity|]. intros [H1 H2]. cbn [runes_from list_ascii_of_string map].
  unfold decode_rune. destruct (N.ltb_spec (N_of_ascii c) 128) as [L|L]; [|lia]. cbn. f_equal. now apply IH.
Qed.
Theorem C29_printable_unchanged : forall s, chars printable s -> renderStringElement false s = s.
Proof.
  intros s H. unfold renderStringElement, asciiEntify.
  assert (A : ascii_only s) by (eapply chars_impl; [|exact H]; unfold printable; lia).
  rewrite (runes_ascii s A). clear A. induction s as [|c s IH]; [reflexivity|]. destruct H as [H1 H2]. cbn [list_ascii_of_string map sconcat fold_right].
  fold (sconcat (map entify_rune (map N_of_ascii (list_ascii_of_string s)))). rewrite (IH H2).
  unfold entify_rune, printable in *. assert (L : (N_of_ascii c < 128)%N) by lia. destruct (N.ltb_spec (N_of_ascii c) 128); [|lia].
  assert (P : ascii_printable (N_of_ascii c) = true).
  { unfold ascii_printable. apply orb_true_iff. rewrite !andb_true_iff, !N.leb_le. lia. }
  rewrite P, encode_ascii by exact L. cbn. now rewrite ascii_N_embedding.
Qed.
Theorem C29_unicode_unchanged : forall s, renderStringElement true s = s.
Proof. reflexivity. Qed.

(** Nothing is lost: a reader of numeric character references gets the characters back. *)
Fixpoint read_refs (fuel : nat) (s : string) : list N :=
  match fuel with
  | O => []
  | S f =>
      match s with
      | EmptyString => []
      | String c r =>
          if has_prefix s "&#" then
            let (n, rest) := take_digits (sdrop 2 s) 0 in n :: read_refs f (sdrop 1 rest)
          else N_of_ascii c :: read_refs f r
      end
  end.
Lemma take_digits_app ds r : forall acc, chars (fun c => 48 <= N_of_ascii c <= 57)%N ds ->
  take_digits (ds ++ String ";" r) acc = (read_digits ds acc, String ";" r).
Proof.
  induction ds as [|c ds IH]; intros acc H; [reflexivity|]. destruct H as [H1 H2]. cbn [append take_digits read_digits].
  assert (E : ((48 <=? N_of_ascii c) && (N_of_ascii c <=? 57))%N%bool = true) by (rewrite andb_true_iff, !N.leb_le; lia). rewrite E. now apply IH.
Qed.
Theorem C29_faithful : forall s fuel, ~ In (N_of_ascii "&") (runes s) ->
  (String.length (renderStringElement false s) < fuel)%nat ->
  read_refs fuel (renderStringElement false s) = runes s.
Proof.
  intros s. unfold renderStringElement, asciiEntify. induction (runes s) as [|r l IH]; intros fuel N F.
  - destruct fuel; reflexivity.
  - cbn [map sconcat fold_right] in *. fold (sconcat (map entify_rune l)) in *. rewrite slen_app in F.
    assert (N' : ~ In (N_of_ascii "&") l) by (intros H; apply N; now right).
    assert (REF : (r <? 128)%N && ascii_printable r = false -> read_refs fuel (entify_rune r ++ sconcat (map entify_rune l)) = r :: l).
    { intros E. assert (ER : entify_rune r = ("&#" ++ itoaN r ++ ";")%string) by (unfold entify_rune; now rewrite E).
      rewrite ER in *. rewrite !sapp_assoc. cbn [append].
      destruct fuel as [|fuel]; [cbn in F; lia|]. cbn [read_refs].
      match goal with |- context [has_prefix ?x "&#"] => replace (has_prefix x "&#") with true by reflexivity end. cbn [sdrop].
      rewrite take_digits_app by apply itoa_digits. rewrite itoaN_read. f_equal. cbn [sdrop]. apply IH; [exact N'|].
      rewrite !slen_app in F. cbn in F. lia. }
    destruct ((r <? 128)%N && ascii_printable r) eqn:E; [|now apply REF].
    assert (ER : entify_rune r = encode_rune r) by (unfold entify_rune; now rewrite E). rewrite ER in *. clear ER REF.
    apply andb_true_iff in E. destruct E as [E1 E2]. apply N.ltb_lt in E1.
    rewrite encode_ascii in * by exact E1. cbn [append] in *. destruct fuel as [|fuel]; [lia|]. cbn [read_refs].
    assert (HP : has_prefix (String (chr r) (sconcat (map entify_rune l))) "&#" = false).
    { cbn [has_prefix]. destruct (Ascii.eqb_spec (chr r) "&") as [EQ|_]; [|reflexivity]. exfalso. apply N. left. rewrite <- EQ. symmetry. apply N_chr. lia. }
    rewrite HP. rewrite N_chr by lia. f_equal. apply IH; [exact N'|]. cbn in F. lia.
Qed.
Theorem C29_case : renderStringElement false (encode_runes [233; 97; 7; 8364]%N) = "&#233;a&#7;&#8364;".
Proof. vm_compute. reflexivity. Qed.
(** The whole output is not ASCII: only text elements are converted, not, for example, the text of a link. *)
Theorem C29_links_refuted : exists s, ~ ascii_only (link_text s).
Proof. exists (encode_rune 233%N). vm_compute. intros [H _]. discriminate. Qed.

(** ** C50 *)
(** the names that the grammar can give (parser.peg:2446-2457 SpecialCharacter, 2480-2585 TypographicQuote and Symbol) *)
Definition grammar_specials : list string := ["<"; ">"; "&"].
Definition grammar_symbols : list string :=
  [sq; ("`" ++ dq)%string; (dq ++ "`")%string; ("`" ++ sq)%string; (sq ++ "`")%string; "(C)"; "(TM)"; "(R)"; "..."; " -- "; "--"; "->"; "<-"; "=>"; "<="].
Theorem C50_predefined_rendered : forall name, isPredefinedAttribute name = true -> exists s, mget predefined_table name = Some s.
Proof.
  intros name. unfold isPredefinedAttribute, predefined_names. cbn [mem_str].
  repeat match goal with |- (if String.eqb ?y name then true else _) = true -> _ =>
    destruct (String.eqb_spec y name) as [<-|_]; [intros _; vm_compute; eauto|] end. discriminate.
Qed.
Theorem C50_symbols_rendered : forall name, In name grammar_symbols -> exists s, renderSymbol name = Ok s /\ s <> EmptyString.
Proof.
  intros name H. unfold grammar_symbols in H. cbn [In] in H.
  repeat (destruct H as [<-|H]; [vm_compute; eexists; split; [reflexivity|discriminate]|]). contradiction.
Qed.
(** and the rendering of a special character is its escaped form *)
Theorem C50_specials_rendered : forall name, In name grammar_specials -> renderSpecialCharacter name = Ok (escapeString name).
Proof. intros name [<-|[<-|[<-|[]]]]; vm_compute; reflexivity. Qed.
(** conversely, only predefined names have a rendering in the table *)
Theorem C50_no_other : forall name s, mget predefined_table name = Some s -> isPredefinedAttribute name = true.
Proof.
  intros name s H. apply mget_In in H. unfold predefined_table in H. cbn [In] in H.
  repeat (destruct H as [H|H]; [injection H as <- _; vm_compute; reflexivity|]). contradiction.
Qed.

Print Assumptions C28_no_special.
Print Assumptions C28_identity.
Print Assumptions C28_stable.
Print Assumptions C28_ampersands.
Print Assumptions C28_meaning.
Print Assumptions C28_reads_back.
Print Assumptions C28_meaning_refuted.
Print Assumptions C29_text_ascii.
Print Assumptions C29_printable_unchanged.
Print Assumptions C29_faithful.
Print Assumptions C29_links_refuted.
Print Assumptions C50_predefined_rendered.
Print Assumptions C50_symbols_rendered.
Print Assumptions C50_specials_rendered.
Print Assumptions C50_no_other.
