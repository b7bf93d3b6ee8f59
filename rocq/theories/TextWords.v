(** Proofs for C57: the words of a text survive the changes made by the renderer. *)
From Verif Require Import GoBase GoLemmas Attrs Utf8 TocRender Escape Ids Indent Render TextSpec TextTmpl.

Definition ws (l : list string) : Prop := Forall (fun w => all_kept w = true /\ w <> "") l.
Lemma ws_app a b : ws a -> ws b -> ws (a ++ b).
Proof. intros A B. apply Forall_app. now split. Qed.
Lemma ws_nil : ws []. Proof. constructor. Qed.
Lemma ws_flat {A} (f : A -> list string) l : (forall x, In x l -> ws (f x)) -> ws (flat_map f l).
Proof. induction l as [|x l IH]; intros H; [constructor|]. cbn. apply ws_app; [apply H; now left|apply IH; intros; apply H; now right]. Qed.
Lemma all_kept_app a b : all_kept (a ++ b)%string = all_kept a && all_kept b.
Proof. induction a as [|c a IH]; [reflexivity|]. cbn. rewrite IH. now rewrite andb_assoc. Qed.
Lemma words_from_ws s : forall cur, all_kept cur = true -> ws (words_from cur s).
Proof.
  induction s as [|c s IH]; intros cur C; cbn [words_from].
  - destruct cur; [constructor|]. constructor; [split; [exact C|discriminate]|constructor].
  - destruct (kept c) eqn:K; [apply IH; rewrite all_kept_app; cbn; now rewrite C, K|].
    destruct cur; [now apply IH|]. constructor; [split; [exact C|discriminate]|now apply IH].
Qed.
Lemma words_ws s : ws (words s).
Proof. now apply words_from_ws. Qed.
Lemma words_from_appear s : forall cur, appear (words_from cur s) (cur ++ s)%string.
Proof.
  induction s as [|c s IH]; intros cur; cbn [words_from].
  - rewrite sapp_nil_r. destruct cur; [exact I|apply appear_one].
  - destruct (kept c).
    + replace (cur ++ String c s)%string with ((cur ++ String c "") ++ s)%string by now rewrite sapp_assoc. apply IH.
    + destruct cur as [|d cur]; [change ("" ++ String c s)%string with (String c "" ++ s)%string; apply appear_ctx, (IH "")|].
      exists "", (String c s). split; [reflexivity|]. change (String c s) with (String c "" ++ s)%string. apply appear_ctx, (IH "").
Qed.
Lemma words_appear s : appear (words s) s.
Proof. exact (words_from_appear s ""). Qed.

(** ** changes that keep the words *)
Inductive edit : string -> string -> Prop :=
| edit_nil : edit "" ""
| edit_keep c s t : edit s t -> edit (String c s) (String c t)
| edit_replace c u s t : kept c = false -> edit s t -> edit (String c s) (u ++ t)%string.
Lemma edit_refl s : edit s s.
Proof. induction s; constructor; auto. Qed.
Lemma edit_drop c s t : kept c = false -> edit s t -> edit (String c s) t.
Proof. intros K H. exact (edit_replace c "" s t K H). Qed.
Lemma edit_app a b s t : edit a b -> edit s t -> edit (a ++ s)%string (b ++ t)%string.
Proof.
  intros H G. induction H as [|c a b H IH|c u a b K H IH]; cbn [append]; [exact G|now constructor|].
  rewrite sapp_assoc. now constructor.
Qed.
Lemma edit_split a : forall b t, edit (a ++ b)%string t -> exists t1 t2, t = (t1 ++ t2)%string /\ edit a t1 /\ edit b t2.
Proof.
  induction a as [|c a IH]; intros b t H; cbn [append] in H.
  - exists "", t. repeat split; [constructor|exact H].
  - inversion H as [|c' s t' H'|c' u s t' K H']; subst.
    + destruct (IH _ _ H') as (t1 & t2 & -> & A & B). exists (String c t1), t2. repeat split; [now constructor|exact B].
    + destruct (IH _ _ H') as (t1 & t2 & -> & A & B). exists (u ++ t1)%string, t2. repeat split; [now rewrite sapp_assoc|now constructor|exact B].
Qed.
Lemma edit_kept w : forall t, all_kept w = true -> edit w t -> t = w.
Proof.
  induction w as [|c w IH]; intros t K H; inversion H as [|c' s t' H'|c' u s t' K' H']; subst; [reflexivity| |]; cbn in K; apply andb_true_iff in K; destruct K as [K1 K2].
  - f_equal. auto.
  - congruence.
Qed.
Lemma appear_edit l : forall s t, ws l -> edit s t -> appear l s -> appear l t.
Proof.
  induction l as [|w l IH]; intros s t W E H; [exact I|]. inversion W as [|? ? [K NE] W']; subst. destruct H as (a & b & -> & H).
  apply edit_split in E. destruct E as (t1 & t2 & -> & _ & E). apply edit_split in E. destruct E as (w' & t3 & -> & E1 & E2).
  apply edit_kept in E1; [|exact K]. subst w'. exists t1, t3. split; [reflexivity|]. eapply IH; eauto.
Qed.

(** none of the bytes is kept *)
Fixpoint none_kept (s : string) : bool := match s with EmptyString => true | String c r => negb (kept c) && none_kept r end.
Lemma edit_none p : forall u s t, none_kept p = true -> p <> "" -> edit s t -> edit (p ++ s)%string (u ++ t)%string.
Proof.
  induction p as [|c p IH]; intros u s t N NE H; [congruence|]. cbn in N. apply andb_true_iff in N. destruct N as [N1 N2]. apply negb_true_iff in N1. cbn [append].
  apply edit_replace; [exact N1|]. destruct p as [|d p]; [exact H|]. change t with ("" ++ t)%string. apply IH; [exact N2|discriminate|exact H].
Qed.
Lemma edit_dropped p s t : none_kept p = true -> edit s t -> edit (p ++ s)%string t.
Proof. intros N H. destruct p as [|c p]; [exact H|]. apply (edit_none (String c p) ""); [exact N|discriminate|exact H]. Qed.
Lemma edit_to_empty p : none_kept p = true -> edit p "".
Proof. intros N. rewrite <- (sapp_nil_r p). apply edit_dropped; [exact N|constructor]. Qed.
Lemma edit_trim_left c s : kept c = false -> edit s (trim_left_char c s).
Proof.
  intros K. induction s as [|d s IH]; cbn; [constructor|]. destruct (Ascii.eqb_spec d c) as [->|]; [now apply edit_drop|apply edit_refl].
Qed.
Lemma edit_trim_right c s : kept c = false -> edit s (trim_right_char c s).
Proof.
  intros K. induction s as [|d s IH]; cbn; [constructor|]. destruct (trim_right_char c s) as [|e r] eqn:T.
  - destruct (Ascii.eqb_spec d c) as [->|]; [now apply edit_drop|now constructor].
  - now constructor.
Qed.
Lemma has_prefix_drop p : forall s, has_prefix s p = true -> s = (p ++ sdrop (String.length p) s)%string.
Proof.
  induction p as [|c p IH]; intros s H; [now destruct s|]. destruct s as [|d s]; [discriminate|]. cbn in H. apply andb_true_iff in H. destruct H as [H1 H2].
  apply Ascii.eqb_eq in H1. subst d. cbn. f_equal. now apply IH.
Qed.
Lemma edit_trim_prefix p s : none_kept p = true -> edit s (trim_prefix s p).
Proof.
  intros N. unfold trim_prefix. destruct (has_prefix s p) eqn:H; [|apply edit_refl]. rewrite (has_prefix_drop _ _ H) at 1. apply edit_dropped; [exact N|apply edit_refl].
Qed.
Lemma stake_sdrop n : forall s, (stake n s ++ sdrop n s)%string = s.
Proof. induction n as [|n IH]; intros [|c s]; try reflexivity. cbn. now rewrite IH. Qed.
Lemma edit_trim_suffix p s : none_kept p = true -> edit s (trim_suffix s p).
Proof.
  intros N. unfold trim_suffix, has_suffix. destruct ((String.length p <=? String.length s)%nat && _) eqn:H; [|apply edit_refl].
  apply andb_true_iff in H. destruct H as [_ H]. apply String.eqb_eq in H. rewrite <- (stake_sdrop (String.length s - String.length p) s) at 1. rewrite H.
  rewrite <- (sapp_nil_r (stake _ _)) at 2. apply edit_app; [apply edit_refl|now apply edit_to_empty].
Qed.
Lemma space_none p : In p space_runes -> none_kept p = true.
Proof.
  assert (F : forallb none_kept space_runes = true) by (vm_compute; reflexivity). intros H. rewrite forallb_forall in F. now apply F.
Qed.
Lemma find_first_In {A} (f : A -> bool) l x : find_first f l = Some x -> In x l.
Proof. induction l as [|y l IH]; cbn; [discriminate|]. destruct (f y); [intros [= <-]; now left|right; auto]. Qed.
(** composition *)
Definition keeps (f : string -> string) : Prop := forall l s, ws l -> appear l s -> appear l (f s).
Lemma keeps_edit f : (forall s, edit s (f s)) -> keeps f.
Proof. intros H l s W A. eapply appear_edit; eauto. Qed.
Lemma keeps_comp f g : keeps f -> keeps g -> keeps (fun s => g (f s)).
Proof. intros F G l s W A. apply G; [exact W|]. now apply F. Qed.

Lemma none_LF : none_kept LF = true. Proof. reflexivity. Qed.
Lemma keeps_trimLF : keeps trimLF.
Proof. apply (keeps_comp (trim_right_char (chr 10))); apply keeps_edit; intros; [now apply edit_trim_right|now apply edit_trim_left]. Qed.
Lemma keeps_trim_suffix_LF : keeps (fun s => trim_suffix s LF).
Proof. apply keeps_edit. intros s. now apply edit_trim_suffix. Qed.
Lemma keeps_trim_right_space : keeps (trim_right_char " "%char).
Proof. apply keeps_edit. intros s. now apply edit_trim_right. Qed.
Lemma edit_trans a b c : edit a b -> forall (W : edit b c), forall l, ws l -> appear l a -> appear l c.
Proof. intros H W l WL A. eapply appear_edit; [exact WL|exact W|]. eapply appear_edit; eauto. Qed.
Lemma edit_trim_left_space n : forall s, edit s (trim_left_space n s).
Proof.
  induction n as [|n IH]; intros s; cbn [trim_left_space]; [apply edit_refl|]. destruct (find_first (has_prefix s) space_runes) as [p|] eqn:F; [|apply edit_refl].
  assert (N : none_kept p = true) by (apply space_none; eapply find_first_In; eauto).
  assert (HP : has_prefix s p = true).
  { clear - F. revert F. generalize space_runes. induction l as [|y l IH]; cbn; [discriminate|]. destruct (has_prefix s y) eqn:E; [now intros [= <-]|exact IH]. }
  unfold trim_prefix. rewrite HP. rewrite (has_prefix_drop _ _ HP) at 1. apply edit_dropped; [exact N|apply IH].
Qed.
Lemma trim_suffix_eq s p : has_suffix s p = true -> s = (trim_suffix s p ++ p)%string.
Proof.
  intros H. unfold trim_suffix. rewrite H. unfold has_suffix in H. apply andb_true_iff in H. destruct H as [_ H]. apply String.eqb_eq in H.
  rewrite <- (stake_sdrop (String.length s - String.length p) s) at 1. now rewrite H.
Qed.
Lemma edit_trim_right_space n : forall s, edit s (trim_right_space n s).
Proof.
  induction n as [|n IH]; intros s; cbn [trim_right_space]; [apply edit_refl|]. destruct (find_first (has_suffix s) space_runes) as [p|] eqn:F; [|apply edit_refl].
  assert (N : none_kept p = true) by (apply space_none; eapply find_first_In; eauto).
  assert (HP : has_suffix s p = true).
  { clear - F. revert F. generalize space_runes. induction l as [|y l IH]; cbn; [discriminate|]. destruct (has_suffix s y) eqn:E; [now intros [= <-]|exact IH]. }
  rewrite (trim_suffix_eq _ _ HP) at 1. rewrite <- (sapp_nil_r (trim_right_space _ _)). apply edit_app; [apply IH|now apply edit_to_empty].
Qed.
Lemma keeps_trimSpace : keeps trimSpace.
Proof.
  apply (keeps_comp (fun s => trim_left_space (String.length s) s) (fun s => trim_right_space (String.length s) s));
    apply keeps_edit; intros; [apply edit_trim_left_space|apply edit_trim_right_space].
Qed.
(** applied to every line *)
Lemma keeps_lines g : keeps g -> forall lines l, ws l -> appear l (join LF lines) -> appear l (join LF (map g lines)).
Proof.
  intros G. induction lines as [|x lines IH]; intros l W A; [exact A|].
  destruct lines as [|y lines]; [now apply G|].
  change (join LF (map g (x :: y :: lines))) with (g x ++ LF ++ join LF (map g (y :: lines)))%string.
  change (join LF (x :: y :: lines)) with (x ++ LF ++ join LF (y :: lines))%string in A.
  set (rest := join LF (y :: lines)) in *.
  (* the pieces are split between the first line and the others *)
  assert (SP : forall p q l, ws l -> appear l (p ++ LF ++ q)%string -> exists l1 l2, l = l1 ++ l2 /\ appear l1 p /\ appear l2 q).
  { clear. intros p q l W. revert p. induction W as [|w l [K NE] W IH]; intros p A; [exists [], []; repeat split|]. destruct A as (a & b & EQ & A).
    (* where is the line feed? *)
    assert (C : (exists b', b = (b' ++ LF ++ q)%string /\ p = (a ++ w ++ b')%string) \/ (exists a', q = (a' ++ w ++ b)%string)).
    { clear - EQ K. revert a EQ. induction p as [|c p IH]; intros a EQ.
      - destruct a as [|d a].
        + destruct w as [|e w]; [cbn in EQ; left; exists ""; split; [now rewrite <- EQ|reflexivity]|]. cbn in EQ. injection EQ as <- _. discriminate K.
        + cbn in EQ. injection EQ as _ EQ. right. exists a. exact EQ.
      - destruct a as [|d a].
        + left. cbn [append] in *.
          assert (X : forall w p, (p ++ LF ++ q)%string = (w ++ b)%string -> all_kept w = true -> exists b', b = (b' ++ LF ++ q)%string /\ p = (w ++ b')%string).
          { clear. induction w as [|e w IH]; intros p EQ K; [exists p; split; [now rewrite EQ|reflexivity]|]. cbn in K. apply andb_true_iff in K. destruct K as [K1 K2].
            destruct p as [|c p]; cbn in EQ; [injection EQ as <- _; discriminate K1|]. injection EQ as -> EQ. destruct (IH p EQ K2) as (b' & -> & ->). exists b'. now split. }
          apply (X w (String c p)); [exact EQ|exact K].
        + cbn in EQ. injection EQ as -> EQ. destruct (IH a EQ) as [(b' & -> & ->)|(a' & ->)]; [left; exists b'; now split|right; now exists a']. }
    destruct C as [(b' & -> & ->)|(a' & ->)].
    - destruct (IH b' A) as (l1 & l2 & -> & A1 & A2). exists (w :: l1), l2. split; [reflexivity|]. split; [|exact A2]. exists a, b'. now split.
    - exists [], (w :: l). split; [reflexivity|]. split; [exact Logic.I|]. exists a', b. split; [reflexivity|exact A]. }
  destruct (SP _ _ _ W A) as (l1 & l2 & -> & A1 & A2). apply Forall_app in W. destruct W as [W1 W2].
  apply appear_app; [now apply G|]. apply appear_ctx. now apply IH.
Qed.
Lemma keeps_split g : keeps g -> keeps (fun s => join LF (map g (split_char (chr 10) s))).
Proof. intros G l s W A. apply keeps_lines; [exact G|exact W|]. change LF with (String (chr 10) ""); now rewrite join_split_char. Qed.
Lemma keeps_trimSpaces : keeps trimSpaces.
Proof. apply keeps_split, keeps_trimSpace. Qed.
Lemma none_spaces n : none_kept (srepeat " " n) = true.
Proof. induction n; [reflexivity|]. cbn. exact IHn. Qed.
Lemma keeps_heading : keeps adjustHeadingSpaces.
Proof.
  intros l s W A. unfold adjustHeadingSpaces.
  assert (G : forall n, appear l (join LF (map (fun line => trim_prefix line (srepeat " " n)) (split_char (chr 10) s)))).
  { intros n. apply keeps_lines; [apply keeps_edit; intros; apply edit_trim_prefix, none_spaces|exact W|]. change LF with (String (chr 10) ""); now rewrite join_split_char. }
  assert (T : appear l (join LF (map (trim_left_char " "%char) (split_char (chr 10) s)))).
  { apply keeps_lines; [apply keeps_edit; intros; now apply edit_trim_left|exact W|]. change LF with (String (chr 10) ""); now rewrite join_split_char. }
  destruct (split_char (chr 10) s) as [|x [|y r]] eqn:SC; [exact (G O)|exact T|]. exact (G _).
Qed.
(** replacement of line feeds *)
Lemma keeps_replace_LF new : keeps (fun s => replace_all s LF new).
Proof.
  apply keeps_edit. intros s. unfold replace_all. induction s as [|c s IH]; [constructor|]. cbn [replace_all_from].
  destruct (has_prefix (String c s) LF) eqn:H; [|now constructor].
  assert (X : c = chr 10). { apply has_prefix_drop in H. cbn [append LF] in H. unfold LF in H. cbn [append] in H. now injection H. }
  subst c. apply edit_replace; [reflexivity|exact IH].
Qed.
(** escaping *)
Lemma keeps_html_escape : keeps htmlEscapeString.
Proof.
  apply keeps_edit. intros s. induction s as [|c s IH]; [constructor|]. cbn [htmlEscapeString].
  assert (G : html_escape_byte c = String c "" \/ kept c = false).
  { destruct c as [[] [] [] [] [] [] [] []]; vm_compute; auto. }
  destruct G as [->|K]; [now constructor|now apply edit_replace].
Qed.
Lemma replacer_edit pairs : Forall (fun p => fst p <> "" /\ edit (fst p) (snd p)) pairs -> forall s, edit s (replacer pairs s).
Proof.
  intros F.
  assert (G : forall n s, (String.length s <= n)%nat -> edit s (replacer_from pairs 0 s)).
  { induction n as [|n IH]; intros [|c s] L; try (constructor; fail); [cbn in L; lia|]. cbn [replacer_from].
    destruct (first_match pairs (String c s)) as [[old new]|] eqn:M.
    - assert (X : old <> "" /\ edit old new /\ has_prefix (String c s) old = true).
      { clear - F M. induction F as [|p ps [P1 P2] F IH]; cbn in M; [discriminate|]. destruct (has_prefix (String c s) (fst p)) eqn:H; [|auto].
        injection M as ->. auto. }
      destruct X as (NE & ED & HP). apply has_prefix_drop in HP. destruct old as [|o old]; [congruence|]. cbn [append String.length sdrop] in HP. injection HP as -> HP.
      replace (String.length (String o old) - 1)%nat with (String.length old) by (cbn; lia).
      assert (SK : forall a t, replacer_from pairs (String.length a) (a ++ t)%string = replacer_from pairs 0 t).
      { clear. induction a as [|x a IH]; intros t; [reflexivity|]. cbn. apply IH. }
      rewrite HP. rewrite SK. change (String o (old ++ sdrop (String.length old) s))%string with (String o old ++ sdrop (String.length old) s)%string.
      apply edit_app; [exact ED|]. apply IH. rewrite HP in L. cbn in L. rewrite slength_app in L. lia.
    - constructor. apply IH. cbn in L. lia. }
  intros s. exact (G _ s (le_n _)).
Qed.
Lemma keeps_escape : keeps escapeString.
Proof.
  apply keeps_edit. apply replacer_edit.
  assert (R : forall c n, kept c = false -> edit (String c "") n). { intros c n K. rewrite <- (sapp_nil_r n). apply edit_replace; [exact K|constructor]. }
  repeat (apply Forall_cons; [split; cbn [fst snd]; [discriminate|first [apply edit_refl|apply R; reflexivity]]|]). apply Forall_nil.
Qed.
(** ASCII output *)
Lemma keeps_ascii : keeps asciiEntify.
Proof.
  apply keeps_edit. unfold asciiEntify, runes.
  assert (HI : forall c, (128 <= N_of_ascii c)%N -> kept c = false).
  { intros c L. unfold kept. destruct (N.leb_spec (N_of_ascii c) 126); [lia|]. now rewrite andb_false_r. }
  assert (CT : forall lo hi c, (128 <= lo)%N -> ((lo <=? N_of_ascii c) && (N_of_ascii c <=? hi))%N = true -> kept c = false).
  { intros lo hi c L H. apply andb_true_iff in H. destruct H as [H _]. apply N.leb_le in H. apply HI. lia. }
  assert (DC : forall c s r w, (128 <= N_of_ascii c)%N -> decode_rune (String c s) = (r, w) -> none_kept (stake (w - 1) s) = true).
  { intros c s r w L H. cbn [decode_rune] in H. destruct (N.ltb_spec (N_of_ascii c) 128) as [X|_]; [lia|].
    repeat match type of H with
    | (if ?b then _ else _) = _ => let Q := fresh in destruct b eqn:Q
    | (match ?x with _ => _ end) = _ => destruct x
    end; injection H as _ <-; cbn [stake none_kept Nat.sub]; try reflexivity;
    repeat match goal with Q : (_ && _)%bool = true |- _ => apply andb_true_iff in Q; destruct Q end;
    repeat rewrite HI by (repeat match goal with Q : (_ <=? _)%N = true |- _ => apply N.leb_le in Q end;
      repeat match goal with Q : context [if ?b then _ else _] |- _ => destruct b end; lia); reflexivity. }
  assert (PR : forall c, (N_of_ascii c < 128)%N -> edit (String c "") (entify_rune (N_of_ascii c))).
  { intros c L. assert (Q : entify_rune (N_of_ascii c) = String c "" \/ kept c = false).
    { clear - L. destruct c as [[] [] [] [] [] [] [] []]; try (vm_compute in L; discriminate L); vm_compute; auto. }
    destruct Q as [->|K]; [apply edit_refl|]. rewrite <- (sapp_nil_r (entify_rune _)). apply edit_replace; [exact K|constructor]. }
  assert (SK : forall n s, runes_from n s = runes_from 0 (sdrop n s)).
  { induction n as [|n IH]; intros [|c s]; try reflexivity. cbn [runes_from sdrop]. apply IH. }
  assert (G : forall n s, (String.length s <= n)%nat -> edit s (sconcat (map entify_rune (runes_from 0 s)))).
  { induction n as [|n IH]; intros [|c s] L; try (constructor; fail); [cbn in L; lia|]. cbn [String.length] in L.
    assert (LD : forall k, (String.length (sdrop k s) <= n)%nat).
    { intros k. pose proof (f_equal String.length (stake_sdrop k s)) as Q. rewrite slength_app in Q. lia. }
    destruct (N.lt_ge_cases (N_of_ascii c) 128) as [Lo|Hi].
    - assert (D : decode_rune (String c s) = (N_of_ascii c, 1%nat)) by (cbn [decode_rune]; now rewrite (proj2 (N.ltb_lt _ _) Lo)).
      unfold runes_from; fold runes_from. rewrite D. cbn [map sconcat fold_right Nat.sub]. change (String c s) with (String c "" ++ s)%string.
      apply edit_app; [now apply PR|]. apply IH. lia.
    - destruct (decode_rune (String c s)) as [r w] eqn:D. unfold runes_from; fold runes_from. rewrite D. cbn [map sconcat fold_right]. rewrite SK.
      apply edit_replace; [now apply HI|]. rewrite <- (stake_sdrop (w - 1) s) at 1. apply edit_dropped; [eapply DC; eauto|]. apply IH, LD. }
  intros s. exact (G _ s (le_n _)).
Qed.
