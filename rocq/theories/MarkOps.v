(** Proofs for C59: marks survive the changes made by the renderer; which marks a template writes. *)
From Verif Require Import GoBase GoLemmas Attrs Utf8 TocRender Escape Ids Indent Templates Tmpl HtmlTmpl Render TextSpec TextTmpl TextWords TextDocSpec MarkSpec.

Definition solid (c : ascii) : bool := let n := N_of_ascii c in ((33 <=? n) && (n <=? 126))%N.
Fixpoint solids (s : string) : bool := match s with EmptyString => true | String c r => solid c && solids r end.
Fixpoint gaps (s : string) : bool := match s with EmptyString => true | String c r => negb (solid c) && gaps r end.
Definition ms (l : list string) : Prop := Forall (fun m => solids m = true /\ m <> "") l.
Lemma ms_nil : ms []. Proof. constructor. Qed.
Lemma ms_app a b : ms a -> ms b -> ms (a ++ b).
Proof. intros A B. apply Forall_app. now split. Qed.
Lemma ms_flat {A} (f : A -> list string) l : (forall x, In x l -> ms (f x)) -> ms (flat_map f l).
Proof. induction l as [|x l IH]; intros H; [constructor|]. cbn. apply ms_app; [apply H; now left|apply IH; intros; apply H; now right]. Qed.
Lemma solids_app a b : solids (a ++ b)%string = solids a && solids b.
Proof. induction a as [|c a IH]; [reflexivity|]. cbn. rewrite IH. now rewrite andb_assoc. Qed.
Lemma kept_solid c : kept c = true -> solid c = true.
Proof. unfold kept, solid. intros H. apply andb_true_iff in H. tauto. Qed.
Lemma kept_solids s : all_kept s = true -> solids s = true.
Proof. induction s as [|c s IH]; [reflexivity|]. cbn. intros H. apply andb_true_iff in H. destruct H as [A B]. now rewrite (kept_solid _ A), IH. Qed.
Lemma solids_quoted n v : solids n = true -> solids v = true -> solids (quoted n v) = true /\ quoted n v <> "".
Proof. intros A B. unfold quoted. split; [rewrite !solids_app; now rewrite A, B|now destruct n]. Qed.
Lemma plain_kept v : plain_value v = true -> all_kept v = true /\ v <> "".
Proof. unfold plain_value. intros H. apply andb_true_iff in H. destruct H as [A B]. split; [exact B|]. intros ->. discriminate. Qed.
Lemma ms_mark n v : solids n = true -> ms (mark n v).
Proof.
  intros H. unfold mark. destruct (plain_value v) eqn:P; [|constructor]. apply plain_kept in P. constructor; [|constructor]. apply solids_quoted; [exact H|]. now apply kept_solids.
Qed.
Lemma ms_attr n a k : solids n = true -> ms (attr_mark n a k).
Proof. intros H. unfold attr_mark. destruct (mget a k) as [[]|]; try constructor. now apply ms_mark. Qed.
Lemma ms_id a : ms (id_mark a). Proof. now apply ms_attr. Qed.
Lemma ms_prefixed n p v : solids n = true -> solids p = true -> ms (prefixed n p v).
Proof.
  intros H G. unfold prefixed. destruct (plain_value v) eqn:P; [|constructor]. apply plain_kept in P. constructor; [|constructor]. apply solids_quoted; [exact H|].
  rewrite solids_app, G. now apply kept_solids.
Qed.
Lemma solids_itoa z : solids (itoa z) = true.
Proof.
  assert (X : forall d, (d < 10)%N -> solid (digit_ascii d) = true).
  { intros d L. assert (C : In d [0; 1; 2; 3; 4; 5; 6; 7; 8; 9]%N) by (cbn; lia). cbn in C. decompose [or] C; subst; try reflexivity; contradiction. }
  assert (D : forall f n acc, solids acc = true -> solids (digits_fuel f n acc) = true).
  { induction f as [|f IH]; intros n acc H; [exact H|]. cbn [digits_fuel].
    assert (Y : solids (String (digit_ascii (N.modulo n 10)) acc) = true). { cbn [solids]. rewrite H, X; [reflexivity|]. apply N.mod_lt. discriminate. }
    destruct (n <? 10)%N; [exact Y|]. now apply IH. }
  destruct z; [|now apply D|]; [reflexivity|]. change (solid "-"%char && solids (itoaN (N.pos p)) = true). unfold itoaN. now rewrite (D _ _ "" eq_refl).
Qed.

(** ** parts *)
Lemma part_refl m : part m m. Proof. exists "", "". now rewrite sapp_nil_r. Qed.
Lemma part_in m s a b : part m s -> part m (a ++ s ++ b)%string.
Proof. intros (x & y & ->). exists (a ++ x)%string, (y ++ b)%string. now rewrite !sapp_assoc. Qed.
Lemma part_l m s b : part m s -> part m (s ++ b)%string.
Proof. intros H. apply (part_in m s "" b H). Qed.
Lemma part_r m s a : part m s -> part m (a ++ s)%string.
Proof. intros H. pose proof (part_in m s a "" H) as K. now rewrite sapp_nil_r in K. Qed.
Lemma part_trans a b c : part a b -> part b c -> part a c.
Proof. intros H (x & y & ->). now apply part_in. Qed.
Lemma part_appear a b : appear [a] b -> part a b.
Proof. intros (x & y & -> & _). now exists x, y. Qed.
Lemma has_nil s : has [] s. Proof. constructor. Qed.
Lemma has_part l a b : part a b -> has l a -> has l b.
Proof. intros P H. refine (Forall_impl _ _ H). intros m M. exact (part_trans _ _ _ M P). Qed.
Lemma has_app l l' s : has l s -> has l' s -> has (l ++ l') s.
Proof. intros A B. apply Forall_app. now split. Qed.
Lemma has_cat l l' a b : has l a -> has l' b -> has (l ++ l') (a ++ b)%string.
Proof. intros A B. apply has_app; [eapply has_part; [|exact A]|eapply has_part; [|exact B]]; [apply part_l|apply part_r]; apply part_refl. Qed.
Lemma has_l l a b : has l a -> has l (a ++ b)%string.
Proof. apply has_part, part_l, part_refl. Qed.
Lemma has_r l a b : has l b -> has l (a ++ b)%string.
Proof. apply has_part, part_r, part_refl. Qed.
Lemma has_nonempty l s : has l s -> l <> [] -> ms l -> s <> "".
Proof. intros H N F ->. destruct l as [|m l]; [congruence|]. inversion H as [|? ? (a & b & E) _]; inversion F as [|? ? [_ ?] _]; subst. destruct a; [|discriminate]. destruct m; [congruence|discriminate]. Qed.

(** ** changes that keep the marks *)
Inductive medit : string -> string -> Prop :=
| medit_nil : medit "" ""
| medit_keep c s t : medit s t -> medit (String c s) (String c t)
| medit_replace c u s t : solid c = false -> medit s t -> medit (String c s) (u ++ t)%string.
Lemma medit_refl s : medit s s.
Proof. induction s; constructor; auto. Qed.
Lemma medit_drop c s t : solid c = false -> medit s t -> medit (String c s) t.
Proof. intros K H. exact (medit_replace c "" s t K H). Qed.
Lemma medit_app a b s t : medit a b -> medit s t -> medit (a ++ s)%string (b ++ t)%string.
Proof.
  intros H G. induction H as [|c a b H IH|c u a b K H IH]; cbn [append]; [exact G|now constructor|].
  rewrite sapp_assoc. now constructor.
Qed.
Lemma medit_split a : forall b t, medit (a ++ b)%string t -> exists t1 t2, t = (t1 ++ t2)%string /\ medit a t1 /\ medit b t2.
Proof.
  induction a as [|c a IH]; intros b t H; cbn [append] in H.
  - exists "", t. repeat split; [constructor|exact H].
  - inversion H as [|c' s t' H'|c' u s t' K H']; subst.
    + destruct (IH _ _ H') as (t1 & t2 & -> & A & B). exists (String c t1), t2. repeat split; [now constructor|exact B].
    + destruct (IH _ _ H') as (t1 & t2 & -> & A & B). exists (u ++ t1)%string, t2. repeat split; [now rewrite sapp_assoc|now constructor|exact B].
Qed.
Lemma medit_solid w : forall t, solids w = true -> medit w t -> t = w.
Proof.
  induction w as [|c w IH]; intros t K H; inversion H as [|c' s t' H'|c' u s t' K' H']; subst; [reflexivity| |]; cbn in K; apply andb_true_iff in K; destruct K as [K1 K2].
  - f_equal. auto.
  - congruence.
Qed.
Definition keepm (f : string -> string) : Prop := forall m s, solids m = true -> part m s -> part m (f s).
Lemma keepm_edit f : (forall s, medit s (f s)) -> keepm f.
Proof.
  intros E m s S (a & b & ->). specialize (E (a ++ m ++ b)%string). apply medit_split in E. destruct E as (t1 & t2 & -> & _ & E).
  apply medit_split in E. destruct E as (m' & t3 & -> & E1 & _). apply medit_solid in E1; [|exact S]. subst m'. now exists t1, t3.
Qed.
Lemma keepm_comp f g : keepm f -> keepm g -> keepm (fun s => g (f s)).
Proof. intros F G m s S P. apply G; [exact S|]. now apply F. Qed.
Lemma has_keep f l s : keepm f -> ms l -> has l s -> has l (f s).
Proof. unfold ms, has. rewrite !Forall_forall. intros K M H m I. apply K; [apply M|]; auto. Qed.
Lemma medit_gaps p s t : gaps p = true -> medit s t -> medit (p ++ s)%string t.
Proof.
  induction p as [|c p IH]; intros N H; [exact H|]. cbn in N. apply andb_true_iff in N. destruct N as [N1 N2]. apply negb_true_iff in N1. cbn [append].
  apply medit_drop; [exact N1|auto].
Qed.
Lemma medit_to_empty p : gaps p = true -> medit p "".
Proof. intros N. rewrite <- (sapp_nil_r p). apply medit_gaps; [exact N|constructor]. Qed.
Lemma medit_trim_left c s : solid c = false -> medit s (trim_left_char c s).
Proof.
  intros K. induction s as [|d s IH]; cbn; [constructor|]. destruct (Ascii.eqb_spec d c) as [->|]; [now apply medit_drop|apply medit_refl].
Qed.
Lemma medit_trim_right c s : solid c = false -> medit s (trim_right_char c s).
Proof.
  intros K. induction s as [|d s IH]; cbn; [constructor|]. destruct (trim_right_char c s) as [|e r] eqn:T.
  - destruct (Ascii.eqb_spec d c) as [->|]; [now apply medit_drop|now constructor].
  - now constructor.
Qed.
Lemma medit_trim_prefix p s : gaps p = true -> medit s (trim_prefix s p).
Proof.
  intros N. unfold trim_prefix. destruct (has_prefix s p) eqn:H; [|apply medit_refl]. rewrite (has_prefix_drop _ _ H) at 1. apply medit_gaps; [exact N|apply medit_refl].
Qed.
Lemma medit_trim_suffix p s : gaps p = true -> medit s (trim_suffix s p).
Proof.
  intros N. destruct (has_suffix s p) eqn:H.
  - rewrite (trim_suffix_eq _ _ H) at 1. rewrite <- (sapp_nil_r (trim_suffix s p)) at 2. apply medit_app; [apply medit_refl|now apply medit_to_empty].
  - unfold trim_suffix. rewrite H. apply medit_refl.
Qed.
Lemma space_gaps p : In p space_runes -> gaps p = true.
Proof.
  assert (F : forallb gaps space_runes = true) by (vm_compute; reflexivity). intros H. rewrite forallb_forall in F. now apply F.
Qed.
Lemma keepm_trimLF : keepm trimLF.
Proof. apply (keepm_comp (trim_right_char (chr 10))); apply keepm_edit; intros; [now apply medit_trim_right|now apply medit_trim_left]. Qed.
Lemma keepm_trim_suffix_LF : keepm (fun s => trim_suffix s LF).
Proof. apply keepm_edit. intros s. now apply medit_trim_suffix. Qed.
Lemma keepm_trim_right_space : keepm (trim_right_char " "%char).
Proof. apply keepm_edit. intros s. now apply medit_trim_right. Qed.
Lemma find_first_eq {A} (f : A -> bool) l x : find_first f l = Some x -> f x = true.
Proof. induction l as [|y l IH]; cbn; [discriminate|]. destruct (f y) eqn:E; [now intros [= <-]|exact IH]. Qed.
Lemma medit_trim_left_space n : forall s, medit s (trim_left_space n s).
Proof.
  induction n as [|n IH]; intros s; cbn [trim_left_space]; [apply medit_refl|]. destruct (find_first (has_prefix s) space_runes) as [p|] eqn:F; [|apply medit_refl].
  assert (N : gaps p = true) by (apply space_gaps; eapply find_first_In; eauto). apply find_first_eq in F.
  unfold trim_prefix. rewrite F. rewrite (has_prefix_drop _ _ F) at 1. apply medit_gaps; [exact N|apply IH].
Qed.
Lemma medit_trim_right_space n : forall s, medit s (trim_right_space n s).
Proof.
  induction n as [|n IH]; intros s; cbn [trim_right_space]; [apply medit_refl|]. destruct (find_first (has_suffix s) space_runes) as [p|] eqn:F; [|apply medit_refl].
  assert (N : gaps p = true) by (apply space_gaps; eapply find_first_In; eauto). apply find_first_eq in F.
  rewrite (trim_suffix_eq _ _ F) at 1. rewrite <- (sapp_nil_r (trim_right_space _ _)). apply medit_app; [apply IH|now apply medit_to_empty].
Qed.
Lemma keepm_trimSpace : keepm trimSpace.
Proof.
  apply (keepm_comp (fun s => trim_left_space (String.length s) s) (fun s => trim_right_space (String.length s) s));
    apply keepm_edit; intros; [apply medit_trim_left_space|apply medit_trim_right_space].
Qed.
Lemma part_join x l : In x l -> part x (join LF l).
Proof.
  induction l as [|y l IH]; intros I; [destruct I|]. destruct l as [|z l]; [destruct I as [->|[]]; apply part_refl|].
  change (join LF (y :: z :: l)) with (y ++ LF ++ join LF (z :: l))%string. destruct I as [->|I]; [apply part_l, part_refl|apply part_r, part_r; auto].
Qed.
Lemma part_line m p q : solids m = true -> m <> "" -> part m (p ++ LF ++ q)%string -> part m p \/ part m q.
Proof.
  intros S NE (a & b & EQ). revert a EQ. induction p as [|c p IH]; intros a EQ.
  - right. destruct a as [|d a]; cbn in EQ; [destruct m as [|e m]; [congruence|cbn in EQ; injection EQ as <- _; discriminate S]|]. injection EQ as _ EQ. exists a, b. exact EQ.
  - destruct a as [|d a].
    + left. cbn [append] in EQ.
      assert (X : forall m p, (p ++ LF ++ q)%string = (m ++ b)%string -> solids m = true -> exists b', p = (m ++ b')%string).
      { clear. induction m as [|e w IH]; intros p EQ K; [now exists p|]. cbn in K. apply andb_true_iff in K. destruct K as [K1 K2].
        destruct p as [|c p]; cbn in EQ; [injection EQ as <- _; discriminate K1|]. injection EQ as -> EQ. destruct (IH p EQ K2) as (b' & ->). now exists b'. }
      destruct (X m (String c p) EQ S) as (b' & ->). now exists "", b'.
    + cbn in EQ. injection EQ as -> EQ. destruct (IH a EQ) as [P|Q]; [left; now apply (part_r _ _ (String d ""))|now right].
Qed.
Lemma keepm_lines g : keepm g -> forall lines m, solids m = true -> part m (join LF lines) -> part m (join LF (map g lines)).
Proof.
  intros G lines m S P. destruct m as [|c m]; [now exists "", (join LF (map g lines))|].
  assert (X : exists x, In x lines /\ part (String c m) x).
  { induction lines as [|x lines IH]; [destruct P as ([] & b & E); discriminate|]. destruct lines as [|y lines]; [exists x; split; [now left|exact P]|].
    change (join LF (x :: y :: lines)) with (x ++ LF ++ join LF (y :: lines))%string in P. apply part_line in P; [|exact S|discriminate].
    destruct P as [P|P]; [exists x; split; [now left|exact P]|]. destruct (IH P) as (z & I & Z). exists z. split; [now right|exact Z]. }
  destruct X as (x & I & X). eapply part_trans; [apply (G _ _ S X)|]. apply part_join. now apply in_map.
Qed.
Lemma keepm_split g : keepm g -> keepm (fun s => join LF (map g (split_char (chr 10) s))).
Proof. intros G m s W A. apply keepm_lines; [exact G|exact W|]. change LF with (String (chr 10) ""); now rewrite join_split_char. Qed.
Lemma keepm_trimSpaces : keepm trimSpaces.
Proof. apply keepm_split, keepm_trimSpace. Qed.
Lemma gaps_spaces n : gaps (srepeat " " n) = true.
Proof. induction n; [reflexivity|]. cbn. exact IHn. Qed.
Lemma keepm_heading : keepm adjustHeadingSpaces.
Proof.
  intros l s W A. unfold adjustHeadingSpaces.
  assert (G : forall n, part l (join LF (map (fun line => trim_prefix line (srepeat " " n)) (split_char (chr 10) s)))).
  { intros n. apply keepm_lines; [apply keepm_edit; intros; apply medit_trim_prefix, gaps_spaces|exact W|]. change LF with (String (chr 10) ""); now rewrite join_split_char. }
  assert (T : part l (join LF (map (trim_left_char " "%char) (split_char (chr 10) s)))).
  { apply keepm_lines; [apply keepm_edit; intros; now apply medit_trim_left|exact W|]. change LF with (String (chr 10) ""); now rewrite join_split_char. }
  destruct (split_char (chr 10) s) as [|x [|y r]] eqn:SC; [exact (G O)|exact T|]. exact (G _).
Qed.
Lemma keepm_replace_LF new : keepm (fun s => replace_all s LF new).
Proof.
  apply keepm_edit. intros s. unfold replace_all. induction s as [|c s IH]; [constructor|]. cbn [replace_all_from].
  destruct (has_prefix (String c s) LF) eqn:H; [|now constructor].
  assert (X : c = chr 10). { apply has_prefix_drop in H. cbn [append LF] in H. unfold LF in H. cbn [append] in H. now injection H. }
  subst c. apply medit_replace; [reflexivity|exact IH].
Qed.

(** ** escaping does not change plain values *)
Lemma html_escape_kept s : all_kept s = true -> htmlEscapeString s = s.
Proof.
  induction s as [|c s IH]; [reflexivity|]. cbn [all_kept htmlEscapeString]. intros H. apply andb_true_iff in H. destruct H as [A B]. rewrite (IH B).
  assert (G : html_escape_byte c = String c "" \/ kept c = false).
  { destruct c as [[] [] [] [] [] [] [] []]; vm_compute; auto. }
  destruct G as [->|K]; [reflexivity|congruence].
Qed.
Lemma escape_kept s : all_kept s = true -> escapeString s = s.
Proof.
  intros H. apply edit_kept; [exact H|]. apply replacer_edit.
  assert (R : forall c n, kept c = false -> edit (String c "") n). { intros c n K. rewrite <- (sapp_nil_r n). apply edit_replace; [exact K|constructor]. }
  repeat (apply Forall_cons; [split; cbn [fst snd]; [discriminate|first [apply edit_refl|apply R; reflexivity]]|]). apply Forall_nil.
Qed.

(** ** the marks written by a template *)
Section Prints.
Variable ne : list string.                    (* the fields known not to be empty *)
Variables (pre : string) (fn f post : string).  (* fn: "" or the function applied to the field *)
Definition is_field (n : node) : bool :=
  match n with NField g => String.eqb fn "" && String.eqb f g | NFn h g => String.eqb fn h && String.eqb f g && negb (String.eqb fn "") | _ => false end.
Definition here (ns : list node) : bool :=
  match ns with NLit a :: x :: NLit b :: _ => has_suffix a pre && is_field x && has_prefix b post | _ => false end.
Definition true_cond (c : cond) : bool :=
  match c with CField g => existsb (String.eqb g) ne | CNe g s => String.eqb s "" && existsb (String.eqb g) ne | _ => false end.
Fixpoint prints_node (n : node) : bool :=
  let fix go (ns : list node) : bool := match ns with [] => false | n :: r => here ns || prints_node n || go r end in
  match n with NIf c a b => go a && (true_cond c || go b) | _ => false end.
Fixpoint prints (ns : list node) : bool := match ns with [] => false | n :: r => here ns || prints_node n || prints r end.
Lemma prints_if c a b : prints_node (NIf c a b) = prints a && (true_cond c || prints b).
Proof. reflexivity. Qed.

Variable toLower : string -> string.
Variable e : fields.
Hypothesis known : forall g, In g ne -> exists s, mget e g = Some (FS s) /\ s <> "".
Variable v : string.
Hypothesis value : exists x, mget e f = Some x /\ (if String.eqb fn "" then show x else call toLower fn x) = Ok v.
Lemma known_truth g : existsb (String.eqb g) ne = true -> exists s, mget e g = Some (FS s) /\ s <> "".
Proof. intros H. apply existsb_exists in H. destruct H as (h & I & E). apply String.eqb_eq in E. subst h. auto. Qed.
Lemma field_value n s : is_field n = true -> exec_node toLower n e = Ok s -> s = v.
Proof.
  destruct value as (x & G & X). destruct n; try discriminate; cbn [is_field exec_node]; intros A B.
  - apply andb_true_iff in A. destruct A as [A1 A2]. rewrite A1 in X. apply String.eqb_eq in A2. subst f0. unfold field in B. rewrite G in B. cbn in B. congruence.
  - apply andb_true_iff in A. destruct A as [A A3]. apply andb_true_iff in A. destruct A as [A1 A2]. apply String.eqb_eq in A1, A2. subst fn0 f0.
    unfold field in B. rewrite G in B. cbn in B. apply negb_true_iff in A3. rewrite A3 in X. congruence.
Qed.
Lemma prints_sound k : forall ns out, (nsizes ns < k)%nat -> prints ns = true -> exec_nodes toLower ns e = Ok out -> part (pre ++ v ++ post) out.
Proof.
  induction k as [|k IH]; intros ns out L H X; [lia|]. destruct ns as [|n r]; [discriminate|]. cbn [nsizes] in L. pose proof (nsize_pos n) as NP.
  cbn [prints] in H. apply orb_true_iff in H. destruct H as [H|H]; [apply orb_true_iff in H; destruct H as [H|H]|].
  - (* here *) destruct n; try discriminate. destruct r as [|x [|[] r]]; try discriminate. cbn [here] in H. apply andb_true_iff in H. destruct H as [H H3]. apply andb_true_iff in H. destruct H as [H1 H2].
    cbn [exec_nodes] in X. destruct (exec_node toLower x e) as [y| |] eqn:Y; try (cbn in X; discriminate). cbn [exec_node bind] in X.
    destruct (exec_nodes toLower r e) as [q| |]; try discriminate. cbn [bind] in X. injection X as <-. pose proof (field_value _ _ H2 Y) as ->.
    rewrite (trim_suffix_eq _ _ H1), (has_prefix_drop _ _ H3). exists (trim_suffix s pre), (sdrop (String.length post) s0 ++ q)%string. now rewrite !sapp_assoc.
  - cbn [exec_nodes] in X. destruct (exec_node toLower n e) as [s| |] eqn:N; try discriminate. cbn [bind] in X. destruct (exec_nodes toLower r e) as [t| |] eqn:R; try discriminate.
    cbn [bind] in X. injection X as <-. apply part_l. clear R t. destruct n; try discriminate. rewrite prints_if in H. rewrite nsize_if in L. apply andb_true_iff in H. destruct H as [HA HB].
    assert (Y : exists t, eval e c = Ok t /\ exec_nodes toLower (if t then a else b) e = Ok s).
    { cbn [exec_node] in N. destruct (eval e c) as [t|?|?]; try discriminate. cbn [bind] in N. exists t. split; [reflexivity|]. destruct t; exact N. }
    destruct Y as (t & EV & Y). destruct t; [apply (IH a); [lia|exact HA|exact Y]|]. apply orb_true_iff in HB. destruct HB as [HB|HB]; [|apply (IH b); [lia|exact HB|exact Y]].
    exfalso. destruct c; try discriminate HB; cbn [true_cond] in HB; [|apply andb_true_iff in HB; destruct HB as [HS HB]; apply String.eqb_eq in HS; subst s0];
      destruct (known_truth _ HB) as (q & Q & NE); cbn in EV; unfold field in EV; rewrite Q in EV; cbn in EV; destruct (String.eqb_spec q ""); try contradiction; cbn in EV; discriminate EV.
  - cbn [exec_nodes] in X. destruct (exec_node toLower n e) as [s| |] eqn:N; try discriminate. cbn [bind] in X. destruct (exec_nodes toLower r e) as [t| |] eqn:R; try discriminate.
    cbn [bind] in X. injection X as <-. apply part_r. apply (IH r); [lia|exact H|exact R].
Qed.
End Prints.
Definition prints_if_known (ne : list string) (pre fn f post : string) (t : tname) : bool :=
  prints ne pre fn f post (nodes false t) && prints ne pre fn f post (nodes true t).
Theorem template_prints toLower (x : bool) t ne pre fn f post e v out : prints_if_known ne pre fn f post t = true ->
  (forall g, In g ne -> exists s, mget e g = Some (FS s) /\ s <> "") ->
  (exists y, mget e f = Some y /\ (if String.eqb fn "" then show y else call toLower fn y) = Ok v) ->
  execute toLower (if x then xhtml5 t else html5 t) e = Ok out -> part (pre ++ v ++ post) out.
Proof.
  intros P K V H. unfold execute in H. destruct (String.eqb (if x then _ else _) ""); [discriminate|].
  destruct (parse (if x then xhtml5 t else html5 t)) as [ns|] eqn:Q; [|discriminate].
  assert (N : nodes x t = ns) by (unfold nodes; now rewrite Q). unfold prints_if_known in P. apply andb_true_iff in P. destruct P as [P1 P2].
  eapply (prints_sound ne pre fn f post toLower e K v V (S (nsizes ns))); [apply Nat.lt_succ_diag_r| |exact H]. rewrite <- N. now destruct x.
Qed.
