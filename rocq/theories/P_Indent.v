(** C43: removal of indentation. *)
From Verif Require Import GoBase GoLemmas Indent.

(** a line of a text, and the text made of lines *)
Definition one_line (s : string) : Prop := ~ In (chr 10) (list_ascii_of_string s).
Definition text_of (lines : list string) : string := join LF lines.
(** [line] is [rest] with [n] spaces in front *)
Definition indented (n : nat) (rest line : string) : Prop := line = (srepeat " " n ++ rest)%string.
Definition column0 (line : string) : Prop := match line with String c _ => c <> " "%char | EmptyString => True end.

Lemma trim_left_space s : exists n, s = (srepeat " " n ++ trim_left_char " " s)%string /\ column0 (trim_left_char " " s) /\
  String.length s = (n + String.length (trim_left_char " " s))%nat.
Proof.
  induction s as [|c r (n & E & C & L)].
  - exists O. repeat split.
  - cbn [trim_left_char]. destruct (Ascii.eqb_spec c " ") as [->|N].
    + exists (S n). cbn [srepeat String.append String.length]. split; [now rewrite <- E|]. split; [exact C|]. lia.
    + exists O. cbn. repeat split. exact N.
Qed.
Lemma leading_spec s : exists rest, indented (leading s) rest s /\ column0 rest.
Proof.
  destruct (trim_left_space s) as (n & E & C & L). exists (trim_left_char " " s).
  unfold leading, indented. replace (String.length s - String.length (trim_left_char " " s))%nat with n by lia. auto.
Qed.
Lemma srepeat_add a b : srepeat " " (a + b) = (srepeat " " a ++ srepeat " " b)%string.
Proof. induction a; cbn; [reflexivity|]. now rewrite IHa. Qed.
Lemma srepeat_length a : String.length (srepeat " " a) = a.
Proof. induction a; cbn; auto. Qed.

Lemma fold_min l : forall n, (fold_left (fun n line => Nat.min n (leading line)) l n <= n)%nat /\
  (forall x, In x l -> (fold_left (fun n line => Nat.min n (leading line)) l n <= leading x)%nat) /\
  (fold_left (fun n line => Nat.min n (leading line)) l n = n \/ exists x, In x l /\ fold_left (fun n line => Nat.min n (leading line)) l n = leading x).
Proof.
  induction l as [|y r IH]; intros n; cbn [fold_left].
  - repeat split; [lia|intros x []|now left].
  - destruct (IH (Nat.min n (leading y))) as (A & B & C). split; [lia|]. split.
    + intros x [<-|I]; [lia|auto].
    + destruct C as [C|(x & I & C)]; [|right; exists x; split; [now right|exact C]].
      destruct (Nat.min_spec n (leading y)) as [[_ M]|[_ M]]; rewrite M in C; [left; congruence|right; exists y; split; [now left|congruence]].
Qed.

Lemma trim_spaces k s : (k <= leading s)%nat -> indented k (trim_prefix s (srepeat " " k)) s /\
  (k = leading s -> column0 (trim_prefix s (srepeat " " k))).
Proof.
  intros K. destruct (leading_spec s) as (rest & E & C). unfold indented in *.
  assert (S : s = (srepeat " " k ++ (srepeat " " (leading s - k) ++ rest))%string).
  { rewrite <- sapp_assoc, <- srepeat_add. replace (k + (leading s - k))%nat with (leading s) by lia. exact E. }
  assert (T : trim_prefix s (srepeat " " k) = (srepeat " " (leading s - k) ++ rest)%string).
  { unfold trim_prefix. assert (P : has_prefix s (srepeat " " k) = true) by (apply has_prefix_iff; eexists; exact S).
    rewrite P. rewrite S at 1. apply sdrop_app. }
  rewrite T. split; [exact S|]. intros ->. rewrite Nat.sub_diag. exact C.
Qed.

Lemma split_lines s : text_of (split_char (chr 10) s) = s /\ Forall one_line (split_char (chr 10) s).
Proof.
  split; [exact (join_split_char (chr 10) s)|]. induction s as [|c r IH].
  - repeat constructor. intros [].
  - cbn [split_char]. destruct (Ascii.eqb_spec c (chr 10)) as [->|N].
    + constructor; [intros []|exact IH].
    + destruct (split_char (chr 10) r) as [|x l]; [repeat constructor; cbn; intros [H|[]]; congruence|].
      inversion IH as [|? ? O F]; subst. constructor; [|exact F]. intros [H|H]; [congruence|exact (O H)].
Qed.

(** Whatever the content: there is a number of spaces such that every line is that many spaces followed by the line of the
    result, and at least one line of the result begins in column 0 (so it is the largest such number). *)
Theorem C43_indentation : forall content, exists n lines lines',
  content = text_of lines /\ adjustHeadingSpaces content = text_of lines' /\ Forall one_line lines /\
  Forall2 (indented n) lines' lines /\ Exists column0 lines'.
Proof.
  intros content. destruct (split_lines content) as [T O]. unfold adjustHeadingSpaces.
  pose proof (split_char_nonempty (chr 10) content) as NE.
  destruct (split_char (chr 10) content) as [|l r] eqn:E; [congruence|]. clear NE.
  assert (G : exists n lines', (match l :: r with
    | [l] => [trim_left_char " "%char l]
    | _ => map (fun line => trim_prefix line (srepeat " " (spaceCount (l :: r)))) (l :: r) end) = lines' /\
    Forall2 (indented n) lines' (l :: r) /\ Exists column0 lines').
  { destruct r as [|l2 r].
    - destruct (trim_left_space l) as (n & Hn & C & _). exists n, [trim_left_char " " l]. split; [reflexivity|]. split.
      + constructor; [exact Hn|constructor].
      + now constructor.
    - set (ls := l :: l2 :: r). exists (spaceCount ls). eexists. split; [reflexivity|].
      destruct (fold_min (l2 :: r) (leading l)) as (A & B & C). change (fold_left _ (l2 :: r) (leading l)) with (spaceCount ls) in *.
      assert (Le : forall x, In x ls -> (spaceCount ls <= leading x)%nat) by (intros x [<-|I]; auto).
      split.
      + revert Le. generalize (spaceCount ls) as k. clear. clearbody ls. intros k. induction ls as [|x xs IH]; intros Le; [constructor|].
        cbn [map]. constructor; [|apply IH; intros; apply Le; now right]. apply trim_spaces, Le. now left.
      + assert (W : exists x, In x ls /\ spaceCount ls = leading x).
        { destruct C as [C|(x & I & C)]; [exists l; split; [now left|exact C]|exists x; split; [now right|exact C]]. }
        destruct W as (x & I & W). apply Exists_exists. exists (trim_prefix x (srepeat " " (spaceCount ls))). split.
        * apply in_map_iff. exists x. auto.
        * apply trim_spaces; [apply Le; exact I|exact W]. }
  destruct G as (n & lines' & G & F & X). exists n, (l :: r), lines'. rewrite G. auto.
Qed.
(** The result is determined by this: two texts with these properties are the same. *)
Theorem C43_unique : forall lines n1 n2 a b, Forall2 (indented n1) a lines -> Exists column0 a -> Forall2 (indented n2) b lines -> Exists column0 b -> a = b.
Proof.
  intros lines n1 n2 a b FA CA FB CB.
  assert (L : forall n m x y, Forall2 (indented n) x lines -> Exists column0 x -> Forall2 (indented m) y lines -> (m <= n)%nat).
  { clear. intros n m x y F C G. revert y G. induction F as [|u l us ls U F IH]; intros y G; [inversion C|].
    inversion G as [|w ? ws ? W G']; subst. inversion C as [? ? C'|? ? C']; subst; [|eapply IH; eauto].
    destruct (Nat.leb_spec m n) as [|H]; [assumption|]. exfalso. unfold indented in *.
    replace m with (n + S (m - n - 1))%nat in W by lia. rewrite srepeat_add in W. rewrite U, sapp_assoc in W.
    apply sapp_inj_l in W. rewrite W in C'. cbn in C'. congruence. }
  assert (E : n1 = n2) by (apply Nat.le_antisymm; [eapply (L n2 n1); eauto|eapply (L n1 n2); eauto]). subst n2. clear CA CB L.
  revert b FB. induction FA as [|u l us ls U F IH]; intros b FB; inversion FB as [|w ? ws ? W FB']; subst; [reflexivity|].
  f_equal; [|now apply IH]. unfold indented in *. rewrite U in W. now apply sapp_inj_l in W.
Qed.
Theorem C43_case : adjustHeadingSpaces (text_of ["    a"; "  b"; "   c "]) = text_of ["  a"; "b"; " c "] /\
  adjustHeadingSpaces "   one" = "one" /\ adjustHeadingSpaces (text_of ["  a"; ""; "  b"]) = text_of ["  a"; ""; "  b"].
Proof. repeat split; vm_compute; reflexivity. Qed.
