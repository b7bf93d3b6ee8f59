(** The effect of the string operations of the renderer on balanced markup. *)
From Verif Require Import GoBase GoLemmas Utf8 Escape TocRender Indent Attrs Tmpl Render HtmlSpec HtmlMachine.
Local Open Scope string_scope.

(** ** the machine and its stack *)
Lemma step_frame m st c m' st' k : step (m, st) c = Some (m', st') -> step (m, st ++ k)%list c = Some (m', st' ++ k)%list.
Proof.
  assert (F : forall n, finish n st = (m', st') -> finish n (st ++ k)%list = (m', st' ++ k)%list).
  { unfold finish. intros n. destruct (is_void n); intros [= <- <-]; reflexivity. }
  unfold step. intros H. destruct m;
    repeat match type of H with context [if ?b then _ else _] => destruct b end; try discriminate H;
    try (injection H as <- <-; reflexivity); try (f_equal; apply F; congruence).
  destruct st as [|t r]; [discriminate H|]. cbn [app]. destruct (String.eqb t n); [|discriminate H]. injection H as <- <-. reflexivity.
Qed.
Lemma run_frame x : forall m st m' st' k, run (m, st) x = Some (m', st') -> run (m, st ++ k)%list x = Some (m', st' ++ k)%list.
Proof.
  induction x as [|c x IH]; intros m st m' st' k H; cbn [run] in *; [injection H as <- <-; reflexivity|].
  destruct (step (m, st) c) as [[m1 st1]|] eqn:S; [|discriminate H]. rewrite (step_frame _ _ _ _ _ k S). now apply IH.
Qed.

(** [tt a b x]: between two texts, [x] turns the stack [a] into [b] *)
Definition tt (a b : list string) (x : string) : Prop := run (MT, a) x = Some (MT, b).
Lemma tt_frame a b k x : tt a b x -> tt (a ++ k)%list (b ++ k)%list x.
Proof. apply run_frame. Qed.
Lemma bal_tt x a : bal x -> tt a a x.
Proof. intros H. exact (tt_frame [] [] a x H). Qed.
Lemma tt_app a b c x y : tt a b x -> tt b c y -> tt a c (x ++ y).
Proof. apply run_app_ok. Qed.
Lemma bal_app x y : bal x -> bal y -> bal (x ++ y).
Proof. apply run_app_ok. Qed.
Lemma bal_nil : bal "".
Proof. reflexivity. Qed.
Lemma tt_text a x : text x -> tt a a x.
Proof.
  unfold text, tt. induction x as [|c x IH]; intros H; [reflexivity|]. cbn [all_chars] in H. apply andb_true_iff in H as [H1 H2].
  cbn [run step]. apply negb_true_iff in H1. rewrite H1. auto.
Qed.
Lemma bal_text x : text x -> bal x.
Proof. apply (tt_text []). Qed.

Lemma all_impl (f g : ascii -> bool) x : (forall c, f c = true -> g c = true) -> all_chars f x = true -> all_chars g x = true.
Proof. intros H. induction x as [|c x IH]; [auto|]. cbn [all_chars]. rewrite !andb_true_iff. intros [A B]. auto. Qed.
Lemma safe_text x : safe x -> text x.
Proof. apply all_impl. intros c. unfold safe_char. rewrite !negb_orb, !andb_true_iff. tauto. Qed.
Lemma safe_app x y : safe x -> safe y -> safe (x ++ y).
Proof. unfold safe. rewrite all_app. intros -> ->. reflexivity. Qed.
Lemma text_app x y : text x -> text y -> text (x ++ y).
Proof. unfold text. rewrite all_app. intros -> ->. reflexivity. Qed.

(** ** completeness: every well-formed string is accepted *)
Inductive intag (n : string) : mode -> Prop :=
| in_o : intag n (MO n) | in_s : intag n (MS n) | in_a : intag n (MA n) | in_x : intag n (MX n).
Lemma run_name_a n k st : all_chars name_char k = true -> run (MA n, st) k = Some (MA n, st).
Proof.
  induction k as [|c k IH]; intros H; [reflexivity|]. cbn [all_chars] in H. apply andb_true_iff in H as [H1 H2]. cbn [run step]. rewrite H1. auto.
Qed.
Lemma run_name_s n k st : is_name k -> run (MS n, st) k = Some (MA n, st).
Proof.
  intros [H0 H]. destruct k as [|c k]; [congruence|]. cbn [all_chars] in H. apply andb_true_iff in H as [H1 H2]. cbn [run step]. rewrite H1.
  now apply run_name_a.
Qed.
Lemma run_name_o k st : forall n, all_chars name_char k = true -> run (MO n, st) k = Some (MO (n ++ k), st).
Proof.
  induction k as [|c k IH]; intros n H; [now rewrite app_nil_s|]. cbn [all_chars] in H. apply andb_true_iff in H as [H1 H2]. cbn [run step].
  rewrite H1, IH by exact H2. now rewrite snoc_app.
Qed.
Lemma run_name_c k st : forall n, all_chars name_char k = true -> run (MC n, st) k = Some (MC (n ++ k), st).
Proof.
  induction k as [|c k IH]; intros n H; [now rewrite app_nil_s|]. cbn [all_chars] in H. apply andb_true_iff in H as [H1 H2]. cbn [run step].
  rewrite H1, IH by exact H2. now rewrite snoc_app.
Qed.
Lemma run_safe_q n v st : safe v -> run (MQ n, st) v = Some (MQ n, st).
Proof.
  unfold safe. induction v as [|c v IH]; intros H; [reflexivity|]. cbn [all_chars] in H. apply andb_true_iff in H as [H1 H2]. cbn [run step].
  assert (Q : Ascii.eqb c quot = false).
  { unfold safe_char in H1. apply negb_true_iff in H1. apply orb_false_iff in H1 as [H1 _]. apply orb_false_iff in H1. tauto. }
  rewrite Q, H1. auto.
Qed.
Lemma intag_space n m st : intag n m -> run (m, st) " " = Some (MS n, st).
Proof. intros []; reflexivity. Qed.
Lemma tag_attrs_run n st a : tag_attrs a -> forall m, intag n m -> exists m', intag n m' /\ run (m, st) a = Some (m', st).
Proof.
  induction 1 as [|s H IH|k v s K V H IH|k s K H IH]; intros m Hm.
  - exists m. now split.
  - destruct (IH (MS n) (in_s n)) as (m' & M & R). exists m'. split; [exact M|]. rewrite run_app, (intag_space n m st Hm). exact R.
  - destruct (IH (MX n) (in_x n)) as (m' & M & R). exists m'. split; [exact M|].
    rewrite run_app, (intag_space n m st Hm), run_app, (run_name_s n k st K), run_app.
    change (run (MA n, st) "=""") with (Some (MQ n, st)). cbv iota beta. rewrite run_app, (run_safe_q n v st V), run_app.
    change (run (MQ n, st) """") with (Some (MX n, st)). cbv iota beta. exact R.
  - destruct (IH (MA n) (in_a n)) as (m' & M & R). exists m'. split; [exact M|].
    rewrite run_app, (intag_space n m st Hm), run_app, (run_name_s n k st K). exact R.
Qed.
Lemma intag_gt n m st : intag n m -> run (m, st) ">" = Some (finish n st).
Proof. intros []; reflexivity. Qed.
Lemma intag_slash n m st : is_void n = true -> intag n m -> run (m, st) "/>" = Some (MT, st).
Proof. intros V []; cbn -[is_void]; now rewrite V. Qed.
Lemma run_open n st : is_name n -> run (MT, st) ("<" ++ n) = Some (MO n, st).
Proof.
  intros [H0 H]. destruct n as [|c n]; [congruence|]. cbn [all_chars] in H. apply andb_true_iff in H as [H1 H2]. cbn [run append step].
  change (Ascii.eqb "<" lt) with true. cbv iota. change (step (ML, st) c) with (if Ascii.eqb c "/" then Some (MC "", st) else if name_char c then Some (MO (snoc "" c), st) else None).
  destruct (Ascii.eqb_spec c "/") as [->|]; [discriminate H1|]. rewrite H1, run_name_o by exact H2. reflexivity.
Qed.
Lemma run_close n st : is_name n -> run (MT, n :: st) ("</" ++ n ++ ">") = Some (MT, st).
Proof.
  intros [H0 H]. rewrite run_app. change (run (MT, n :: st) "</") with (Some (MC "", n :: st)). cbv iota beta.
  rewrite run_app, run_name_c by exact H. cbn. now rewrite String.eqb_refl.
Qed.
Lemma void_name n : In n void_elements -> is_name n.
Proof. cbn [void_elements In]. intros H. repeat (destruct H as [<-|H]; [split; [discriminate|reflexivity]|]). destruct H. Qed.
Theorem wf_tt x : wf x -> forall st, tt st st x.
Proof.
  unfold tt. induction 1 as [|c s N H IH|n a s V A H IH|n a s V A H IH|n a b s N NV A Hb IHb H IH]; intros st.
  - reflexivity.
  - cbn [run step]. destruct (Ascii.eqb_spec c lt) as [E|]; [congruence|]. apply IH.
  - rewrite <- app_assoc_s, run_app, run_open by now apply void_name. rewrite run_app.
    destruct (tag_attrs_run n st a A (MO n) (in_o n)) as (m & M & R). rewrite R, run_app, (intag_gt n m st M).
    unfold finish. apply is_void_In in V. rewrite V. apply IH.
  - rewrite <- app_assoc_s, run_app, run_open by now apply void_name. rewrite run_app.
    destruct (tag_attrs_run n st a A (MO n) (in_o n)) as (m & M & R). apply is_void_In in V. rewrite R, run_app, (intag_slash n m st V M). apply IH.
  - rewrite <- app_assoc_s, run_app, run_open by assumption. rewrite run_app.
    destruct (tag_attrs_run n st a A (MO n) (in_o n)) as (m & M & R). rewrite R, run_app, (intag_gt n m st M).
    unfold finish. destruct (is_void n) eqn:V; [apply is_void_In in V; tauto|].
    rewrite run_app, IHb. rewrite <- !app_assoc_s, run_app, app_assoc_s, run_close by exact N. apply IH.
Qed.
Theorem wf_bal x : wf x <-> bal x.
Proof. split; [intros H; now apply (wf_tt x H [])|apply bal_wf]. Qed.

(** ** removing the ends of a string *)
Definition inert (x : string) : Prop := all_chars (fun c => negb (Ascii.eqb c lt) && negb (Ascii.eqb c gt)) x = true.
Lemma inert_text x : inert x -> text x.
Proof. apply all_impl. intros c. rewrite andb_true_iff. tauto. Qed.
Lemma tt_drop_prefix a b p q : text p -> tt a b (p ++ q) -> tt a b q.
Proof. unfold tt. intros H. rewrite run_app. pose proof (tt_text a p H) as T. unfold tt in T. now rewrite T. Qed.
Lemma inert_back q : forall m st b, inert q -> run (m, st) q = Some (MT, b) -> m = MT /\ st = b.
Proof.
  unfold inert. induction q as [|c q IH]; intros m st b H R; cbn [run] in R; [injection R as -> ->; auto|].
  cbn [all_chars] in H. apply andb_true_iff in H as [H1 H2]. apply andb_true_iff in H1 as [H0 H1]. apply negb_true_iff in H0, H1.
  destruct (step (m, st) c) as [[m1 st1]|] eqn:S; [|discriminate R]. apply IH in R as [-> ->]; [|exact H2].
  unfold step in S. rewrite H0, H1 in S. cbn [andb] in S. destruct m;
    repeat match type of S with context [if ?b then _ else _] => destruct b end; try discriminate S.
  injection S as ->. auto.
Qed.
Lemma tt_drop_suffix a b p q : inert q -> tt a b (p ++ q) -> tt a b p.
Proof.
  unfold tt. intros H. rewrite run_app. destruct (run (MT, a) p) as [[m st]|]; [|discriminate]. intros R.
  apply inert_back in R as [-> ->]; [reflexivity|exact H].
Qed.
(** line feeds are in texts only *)
Lemma tt_split a b x y : tt a b (x ++ LF ++ y) -> exists c, tt a c x /\ tt c b y.
Proof.
  unfold tt. rewrite run_app. destruct (run (MT, a) x) as [[m st]|]; [|discriminate]. cbn [append LF run].
  destruct (step (m, st) (chr 10)) as [[m1 st1]|] eqn:S; [|discriminate]. intros R.
  assert (G : m = MT /\ m1 = MT /\ st1 = st).
  { destruct m; try discriminate S. - injection S as <- <-. auto. }
  destruct G as (-> & -> & ->). exists st. auto.
Qed.
Lemma tt_lf a : tt a a LF.
Proof. reflexivity. Qed.

Lemma trim_left_dec c x : exists p, x = p ++ trim_left_char c x /\ all_chars (fun d => Ascii.eqb d c) p = true.
Proof.
  induction x as [|d x (p & H & P)]; [exists ""; auto|]. cbn [trim_left_char]. destruct (Ascii.eqb d c) eqn:E; [|exists ""; auto].
  exists (String d p). split; [cbn [append]; congruence|]. cbn [all_chars]. now rewrite E.
Qed.
Lemma trim_right_dec c x : exists p, x = trim_right_char c x ++ p /\ all_chars (fun d => Ascii.eqb d c) p = true.
Proof.
  induction x as [|d x (p & H & P)]; [exists ""; auto|]. cbn [trim_right_char]. destruct (trim_right_char c x) as [|e r] eqn:T.
  - cbn [append] in H. destruct (Ascii.eqb d c) eqn:E.
    + exists (String d p). split; [cbn [append]; congruence|]. cbn [all_chars]. now rewrite E.
    + exists p. split; [cbn [append]; congruence|exact P].
  - exists p. split; [cbn [append] in *; congruence|exact P].
Qed.
Lemma tt_trim_left c a b x : c <> lt -> tt a b x -> tt a b (trim_left_char c x).
Proof.
  intros N H. destruct (trim_left_dec c x) as (p & E & P). rewrite E in H. apply tt_drop_prefix in H; [exact H|].
  eapply all_impl; [|exact P]. intros d D. apply ch_eq in D. subst d. apply negb_true_iff. now apply Ascii.eqb_neq.
Qed.
Lemma tt_trim_right c a b x : c <> lt -> c <> gt -> tt a b x -> tt a b (trim_right_char c x).
Proof.
  intros N N' H. destruct (trim_right_dec c x) as (p & E & P). rewrite E in H. apply tt_drop_suffix in H; [exact H|].
  eapply all_impl; [|exact P]. intros d D. apply ch_eq in D. subst d.
  now rewrite (proj2 (Ascii.eqb_neq c lt) N), (proj2 (Ascii.eqb_neq c gt) N').
Qed.
Lemma tt_trim_suffix q a b x : inert q -> tt a b x -> tt a b (trim_suffix x q).
Proof.
  intros Q H. unfold trim_suffix. destruct (has_suffix x q) eqn:E; [|exact H]. pose proof E as E'. apply has_suffix_iff in E as (r & ->).
  rewrite sapp_len, Nat.add_sub, stake_app. now apply tt_drop_suffix in H.
Qed.
Lemma tt_trim_prefix q a b x : text q -> tt a b x -> tt a b (trim_prefix x q).
Proof.
  intros Q H. unfold trim_prefix. destruct (has_prefix x q) eqn:E; [|exact H]. apply has_prefix_iff in E as (r & ->).
  rewrite sdrop_app. now apply tt_drop_prefix in H.
Qed.
Lemma bal_trimLF x : bal x -> bal (trimLF x).
Proof. intros H. apply tt_trim_left; [discriminate|]. apply tt_trim_right; [discriminate|discriminate|exact H]. Qed.
Lemma find_first_In {A} f (l : list A) x : find_first f l = Some x -> In x l /\ f x = true.
Proof. induction l as [|y l IH]; cbn [find_first]; [discriminate|]. destruct (f y) eqn:E; [intros [= ->]; split; [now left|exact E]|]. intros H. destruct (IH H). split; [now right|auto]. Qed.
Lemma space_inert x : In x space_runes -> inert x.
Proof.
  assert (H : forallb (all_chars (fun c => negb (Ascii.eqb c lt) && negb (Ascii.eqb c gt))) space_runes = true) by (vm_compute; reflexivity).
  rewrite forallb_forall in H. exact (H x).
Qed.
Lemma tt_trim_left_space a b k : forall x, tt a b x -> tt a b (trim_left_space k x).
Proof.
  induction k as [|k IH]; intros x H; cbn [trim_left_space]; [exact H|]. destruct (find_first (has_prefix x) space_runes) as [p|] eqn:F; [|exact H].
  apply find_first_In in F as [F _]. apply IH. apply tt_trim_prefix; [now apply inert_text, space_inert|exact H].
Qed.
Lemma tt_trim_right_space a b k : forall x, tt a b x -> tt a b (trim_right_space k x).
Proof.
  induction k as [|k IH]; intros x H; cbn [trim_right_space]; [exact H|]. destruct (find_first (has_suffix x) space_runes) as [p|] eqn:F; [|exact H].
  apply find_first_In in F as [F _]. apply IH. apply tt_trim_suffix; [now apply space_inert|exact H].
Qed.
Lemma tt_trimSpace a b x : tt a b x -> tt a b (trimSpace x).
Proof. intros H. unfold trimSpace. now apply tt_trim_right_space, tt_trim_left_space. Qed.

(** ** lines *)
Lemma tt_lines (f : string -> string) sep : (forall a b x, tt a b x -> tt a b (f x)) -> (forall a, tt a a sep) ->
  forall ls a b, tt a b (join LF ls) -> ls <> [] -> tt a b (join sep (map f ls)).
Proof.
  intros Hf Hs. induction ls as [|x ls IH]; intros a b H N; [congruence|]. destruct ls as [|y ls].
  - cbn [join map] in *. now apply Hf.
  - change (join LF (x :: y :: ls)) with (x ++ LF ++ join LF (y :: ls)) in H. apply tt_split in H as (c & H1 & H2).
    change (join sep (map f (x :: y :: ls))) with (f x ++ sep ++ join sep (map f (y :: ls))).
    eapply tt_app; [apply Hf; exact H1|]. eapply tt_app; [apply Hs|]. apply IH; [exact H2|discriminate].
Qed.
Lemma tt_map_lines f sep a b x : (forall a b x, tt a b x -> tt a b (f x)) -> (forall a, tt a a sep) -> tt a b x ->
  tt a b (join sep (map f (split_char (chr 10) x))).
Proof. intros Hf Hs H. apply tt_lines; auto; [|apply split_char_nonempty]. unfold LF. now rewrite join_split_char. Qed.
Lemma bal_trimSpaces x : bal x -> bal (trimSpaces x).
Proof. intros H. apply tt_map_lines; auto using tt_trimSpace, tt_lf. Qed.
Lemma text_spaces n : text (srepeat " " n).
Proof. induction n; [reflexivity|]. cbn [srepeat]. apply text_app; [reflexivity|exact IHn]. Qed.
Lemma bal_adjust x : bal x -> bal (adjustHeadingSpaces x).
Proof.
  intros H. unfold adjustHeadingSpaces. destruct (split_char (chr 10) x) as [|l [|l' r]] eqn:S.
  - now apply split_char_nonempty in S.
  - cbn [join]. apply tt_trim_left; [discriminate|]. pose proof (join_split_char (chr 10) x) as J. rewrite S in J. cbn [join] in J. now subst l.
  - rewrite <- S. apply tt_map_lines; [|apply tt_lf|exact H]. intros a b y Y. apply tt_trim_prefix; [apply text_spaces|exact Y].
Qed.
Lemma replace_lines new x : replace_all x LF new = join new (split_char (chr 10) x).
Proof.
  unfold replace_all. induction x as [|c x IH]; [reflexivity|]. cbn [replace_all_from]. change (has_prefix (String c x) LF) with (if Ascii.eqb c (chr 10) then true else false).
  cbn [split_char]. destruct (Ascii.eqb c (chr 10)) eqn:E.
  - change (String.length LF - 1) with 0. rewrite IH. destruct (split_char (chr 10) x) eqn:S; [now apply split_char_nonempty in S|]. reflexivity.
  - rewrite IH. destruct (split_char (chr 10) x) as [|l ls] eqn:S; [now apply split_char_nonempty in S|]. destruct ls; reflexivity.
Qed.
Lemma bal_replace_lf new x : bal new -> bal x -> bal (replace_all x LF new).
Proof.
  intros N H. rewrite replace_lines. rewrite <- (map_id (split_char (chr 10) x)). apply tt_map_lines; auto. intros a. now apply bal_tt.
Qed.

(** ** escaping, numbers and other functions *)
Definition no_lf (x : string) : Prop := all_chars (fun c => negb (Ascii.eqb c lf)) x = true.
Lemma first_match_In ps s p : first_match ps s = Some p -> In p ps.
Proof. induction ps as [|q ps IH]; cbn [first_match]; [discriminate|]. destruct (has_prefix s (fst q)); [intros [= ->]; now left|right; auto]. Qed.
Lemma first_match_None ps s p : first_match ps s = None -> In p ps -> has_prefix s (fst p) = false.
Proof. induction ps as [|q ps IH]; cbn [first_match In]; [tauto|]. destruct (has_prefix s (fst q)) eqn:E; [discriminate|]. intros H [->|I]; auto. Qed.
Lemma escape_chars (f : ascii -> bool) : (forall c, f c = true -> c <> lt -> c <> quot -> safe_char c = true \/ c = lf) ->
  (forall p, In p htmlEscaper -> all_chars f (snd p) = true) ->
  forall x k (g : ascii -> bool), (forall c, g c = true -> c <> lt -> c <> quot -> f c = true) -> all_chars g x = true ->
  all_chars f (replacer_from htmlEscaper k x) = true.
Proof.
  intros _ Hp. induction x as [|c x IH]; intros k g Hg H; [reflexivity|]. cbn [all_chars] in H. apply andb_true_iff in H as [H1 H2].
  cbn [replacer_from]. destruct k as [|k]; [|eauto]. destruct (first_match htmlEscaper (String c x)) as [[old new]|] eqn:M.
  - rewrite all_app, andb_true_iff. split; [|eauto]. apply first_match_In in M. exact (Hp _ M).
  - cbn [all_chars]. rewrite andb_true_iff. split; [|eauto]. apply Hg; [exact H1| |].
    + intros ->. assert (I : In ("<", "&lt;") htmlEscaper) by (cbn; tauto). pose proof (first_match_None _ _ _ M I) as X. discriminate X.
    + intros ->. assert (I : In (dq, "&#34;") htmlEscaper) by (cbn; tauto). pose proof (first_match_None _ _ _ M I) as X. discriminate X.
Qed.
Lemma safe_char_iff c : safe_char c = true <-> c <> lt /\ c <> quot /\ c <> lf.
Proof.
  unfold safe_char. rewrite negb_true_iff, !orb_false_iff, !Ascii.eqb_neq. tauto.
Qed.
Lemma safe_escape x : safe x -> safe (escapeString x).
Proof.
  intros H. eapply (escape_chars safe_char); [auto| |intros c C _ _; exact C|exact H].
  assert (G : forallb (fun p => all_chars safe_char (snd p)) htmlEscaper = true) by (vm_compute; reflexivity). now rewrite forallb_forall in G.
Qed.
Lemma text_escape x : text (escapeString x).
Proof.
  eapply (escape_chars _ ); [| |intros c _ C _; apply negb_true_iff; now apply Ascii.eqb_neq|instantiate (1 := fun _ => true); clear; now induction x].
  - intros c _ C1 C2. destruct (Ascii.eqb_spec c lf); [now right|left]. apply safe_char_iff. auto.
  - assert (G : forallb (fun p => all_chars (fun c => negb (Ascii.eqb c lt)) (snd p)) htmlEscaper = true) by (vm_compute; reflexivity). now rewrite forallb_forall in G.
Qed.
Lemma html_escape_chars (f : ascii -> bool) x : (forall p, In p ["&#34;"; "&#39;"; "&amp;"; "&lt;"; "&gt;"; String (chr 239) (String (chr 191) (String (chr 189) EmptyString))] -> all_chars f p = true) ->
  (forall c, c <> lt -> c <> quot -> c <> lf -> f c = true) -> (f lf = true \/ no_lf x) -> all_chars f (htmlEscapeString x) = true.
Proof.
  intros Hp Hc. induction x as [|c x IH]; intros HL; [reflexivity|]. cbn [htmlEscapeString]. rewrite all_app, andb_true_iff. split.
  - unfold html_escape_byte.
    destruct (Ascii.eqb_spec c (chr 34)); [apply Hp; cbn; tauto|]. destruct (Ascii.eqb c (chr 39)); [apply Hp; cbn; tauto|].
    destruct (Ascii.eqb c "&"); [apply Hp; cbn; tauto|]. destruct (Ascii.eqb_spec c "<"); [apply Hp; cbn; tauto|].
    destruct (Ascii.eqb c ">"); [apply Hp; cbn; tauto|]. destruct (Ascii.eqb c (chr 0)); [apply Hp; cbn; tauto|].
    cbn [all_chars]. rewrite andb_true_r. destruct (Ascii.eqb_spec c lf) as [->|NL].
    + destruct HL as [HL|HL]; [exact HL|]. discriminate HL.
    + apply Hc; auto.
  - apply IH. destruct HL as [HL|HL]; [now left|right]. unfold no_lf in HL. cbn [all_chars] in HL. apply andb_true_iff in HL. tauto.
Qed.
Lemma safe_html_escape x : no_lf x -> safe (htmlEscapeString x).
Proof.
  intros H. apply html_escape_chars; [|intros; apply safe_char_iff; auto|now right].
  intros p P. cbn [In] in P. repeat (destruct P as [<-|P]; [reflexivity|]). destruct P.
Qed.
Lemma text_html_escape x : text (htmlEscapeString x).
Proof.
  apply html_escape_chars; [|intros; apply negb_true_iff; now apply Ascii.eqb_neq|now left].
  intros p P. cbn [In] in P. repeat (destruct P as [<-|P]; [reflexivity|]). destruct P.
Qed.
Lemma safe_no_lf x : safe x -> no_lf x.
Proof. apply all_impl. intros c. rewrite safe_char_iff. intros (_ & _ & H). apply negb_true_iff. now apply Ascii.eqb_neq. Qed.

Lemma digit_name d : name_char (digit_ascii (N.modulo d 10)) = true.
Proof.
  assert (H : (N.modulo d 10 < 10)%N) by (apply N.mod_lt; lia). revert H. generalize (N.modulo d 10) as n. intros n H.
  assert (G : forallb (fun k => name_char (digit_ascii (N.of_nat k))) (seq 0 10) = true) by (vm_compute; reflexivity).
  rewrite forallb_forall in G. rewrite <- (N2Nat.id n). apply G. apply in_seq. lia.
Qed.
Lemma itoaN_name n : all_chars name_char (itoaN n) = true.
Proof.
  unfold itoaN. assert (G : forall k n acc, all_chars name_char acc = true -> all_chars name_char (digits_fuel k n acc) = true).
  { induction k as [|k IH]; intros m acc H; cbn [digits_fuel]; [exact H|].
    assert (A : all_chars name_char (String (digit_ascii (m mod 10)) acc) = true) by (cbn [all_chars]; now rewrite digit_name, H).
    destruct (m <? 10)%N; [exact A|now apply IH]. }
  now apply G.
Qed.
Lemma itoa_name z : all_chars name_char (itoa z) = true.
Proof. destruct z; cbn [itoa]; apply itoaN_name || (cbn [all_chars]; now rewrite itoaN_name). Qed.
Lemma name_safe x : all_chars name_char x = true -> safe x.
Proof.
  apply all_impl. intros c H. apply safe_char_iff. repeat split; intros ->; discriminate H.
Qed.
Lemma safe_itoa z : safe (itoa z).
Proof. apply name_safe, itoa_name. Qed.
Lemma safe_itoaN z : safe (itoaN z).
Proof. apply name_safe, itoaN_name. Qed.

Lemma all_stake f n x : all_chars f x = true -> all_chars f (stake n x) = true.
Proof.
  revert x. induction n as [|n IH]; intros [|c x] H; cbn [stake]; auto. cbn [all_chars] in *. rewrite andb_true_iff in *. destruct H. auto.
Qed.
Lemma all_trim_suffix f x q : all_chars f x = true -> all_chars f (trim_suffix x q) = true.
Proof. intros H. unfold trim_suffix. destruct (has_suffix x q); [now apply all_stake|exact H]. Qed.
Lemma all_replace f old new : all_chars f new = true -> forall x k, all_chars f x = true -> all_chars f (replace_all_from k x old new) = true.
Proof.
  intros N. induction x as [|c x IH]; intros k H; [reflexivity|]. cbn [all_chars] in H. apply andb_true_iff in H as [H1 H2].
  cbn [replace_all_from]. destruct k; [|auto]. destruct (has_prefix (String c x) old).
  - rewrite all_app, N. apply IH. exact H2.
  - cbn [all_chars]. rewrite H1. apply IH. exact H2.
Qed.
Lemma all_join f sep ls : all_chars f sep = true -> Forall (fun x => all_chars f x = true) ls -> all_chars f (join sep ls) = true.
Proof.
  intros S. induction 1 as [|x ls H Hs IH]; [reflexivity|]. destruct ls as [|y ls]; [exact H|].
  change (join sep (x :: y :: ls)) with (x ++ sep ++ join sep (y :: ls)). rewrite !all_app, H, S. exact IH.
Qed.
Lemma safe_join ls : Forall safe ls -> safe (join " " ls).
Proof. now apply all_join. Qed.

(** ** text without Unicode *)
Lemma decode_rune_ascii s r w : decode_rune s = (r, w) -> (r < 128)%N -> exists c s', s = String c s' /\ N_of_ascii c = r.
Proof.
  destruct s as [|c s]; cbn [decode_rune]; [intros [= <- <-]; discriminate|]. intros H L. exists c, s. split; [reflexivity|].
  set (b0 := N_of_ascii c) in *.
  destruct (N.ltb_spec b0 128). { now injection H. }
  exfalso.
  assert (R : (r = RuneError \/ 128 <= r)%N).
  { destruct (((194 <=? b0) && (b0 <=? 223))%N) eqn:B1.
    { apply andb_true_iff in B1 as [B1 B1']. apply N.leb_le in B1. destruct s as [|c1 s]; [injection H as <- _; now left|].
      destruct (((128 <=? N_of_ascii c1) && (N_of_ascii c1 <=? 191))%N); injection H as <- _; [right; lia|now left]. }
    destruct (((224 <=? b0) && (b0 <=? 239))%N) eqn:B2.
    { apply andb_true_iff in B2 as [B2 _]. apply N.leb_le in B2. destruct s as [|c1 [|c2 s]]; try (injection H as <- _; now left).
      match type of H with (if ?b then _ else _) = _ => destruct b eqn:B3 end; injection H as <- _; [right|now left].
      apply andb_true_iff in B3 as [B3 _]. apply andb_true_iff in B3 as [B3 _]. apply N.leb_le in B3.
      destruct (b0 =? 224)%N eqn:E; [apply N.eqb_eq in E; lia|apply N.eqb_neq in E; lia]. }
    destruct (((240 <=? b0) && (b0 <=? 244))%N) eqn:B4.
    { apply andb_true_iff in B4 as [B4 _]. apply N.leb_le in B4. destruct s as [|c1 [|c2 [|c3 s]]]; try (injection H as <- _; now left).
      match type of H with (if ?b then _ else _) = _ => destruct b eqn:B5 end; injection H as <- _; [right|now left].
      apply andb_true_iff in B5 as [B5 _]. apply andb_true_iff in B5 as [B5 _]. apply andb_true_iff in B5 as [B5 _]. apply N.leb_le in B5.
      destruct (b0 =? 240)%N eqn:E; [apply N.eqb_eq in E; lia|apply N.eqb_neq in E; lia]. }
    injection H as <- _. now left. }
  destruct R as [->|R]; [discriminate L|lia].
Qed.
Lemma runes_no_lt x : text x -> forall k, ~ In 60%N (runes_from k x).
Proof.
  unfold text. induction x as [|c x IH]; intros H k; [intros []|]. cbn [all_chars] in H. apply andb_true_iff in H as [H1 H2].
  cbn [runes_from]. destruct k as [|k]; [|auto]. destruct (decode_rune (String c x)) as [r w] eqn:D. intros [E|E]; [|now apply IH in E].
  subst r. apply decode_rune_ascii in D as (c' & x' & E & N); [|reflexivity]. injection E as <- <-.
  apply negb_true_iff, Ascii.eqb_neq in H1. apply H1. unfold lt, chr. now rewrite <- N, ascii_N_embedding.
Qed.
Lemma text_entify r : r <> 60%N -> text (entify_rune r).
Proof.
  intros N. unfold entify_rune. destruct ((r <? 128)%N && ascii_printable r) eqn:B.
  - apply andb_true_iff in B as [B _]. unfold encode_rune. rewrite B. unfold text. cbn [all_chars]. rewrite andb_true_r, negb_true_iff, Ascii.eqb_neq.
    intros E. apply N. apply N.ltb_lt in B. apply (f_equal N_of_ascii) in E. unfold lt, chr in E. rewrite !N_ascii_embedding in E; lia.
  - apply text_app; [reflexivity|]. apply text_app; [apply safe_text, safe_itoaN|reflexivity].
Qed.
Lemma text_asciiEntify x : text x -> text (asciiEntify x).
Proof.
  intros H. unfold asciiEntify. pose proof (runes_no_lt x H 0) as G. fold (runes x) in G. induction (runes x) as [|r l IH]; [reflexivity|].
  cbn [map sconcat fold_right]. apply text_app; [apply text_entify; intros ->; apply G; now left|apply IH; intros I; apply G; now right].
Qed.
Lemma text_renderString u x : text x -> text (renderStringElement u x).
Proof. intros H. unfold renderStringElement. destruct u; [exact H|now apply text_asciiEntify]. Qed.
