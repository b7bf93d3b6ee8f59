(** Proofs about the alphabet and the shape of generated ids. *)
From Verif Require Import GoBase GoLemmas Types Attrs Utf8 Ids IdsSpec.
From Coq Require Import ZifyN ZifyBool.
Ltac Zify.zify_post_hook ::= Z.div_mod_to_equations.

Fixpoint all_high (s : string) : Prop :=
  match s with EmptyString => True | String c r => (128 <= N_of_ascii c)%N /\ all_high r end.

Lemma chr_N n : (n < 256)%N -> N_of_ascii (chr n) = n.
Proof. intros H. unfold chr. apply N_ascii_embedding. exact H. Qed.

Lemma N_of_ascii_lt c : (N_of_ascii c < 256)%N.
Proof. apply N_ascii_bounded. Qed.

Lemma encode_ascii r : (r < 128)%N -> encode_rune r = String (chr r) "".
Proof. intros H. unfold encode_rune. destruct (N.ltb_spec r 128); [reflexivity|lia]. Qed.

Lemma encode_high r : (128 <= r)%N -> all_high (encode_rune r) /\ encode_rune r <> "".
Proof.
  intros H. unfold encode_rune.
  destruct (N.ltb_spec r 128); [lia|].
  destruct (N.ltb_spec r 2048).
  { split; [|discriminate]. cbn [all_high]. rewrite !chr_N by lia. lia. }
  destruct (((55296 <=? r) && (r <=? 57343))%N || (1114111 <? r)%N) eqn:E.
  { split; [|discriminate]. vm_compute. repeat split; discriminate. }
  destruct (N.ltb_spec r 65536); (split; [|discriminate]); cbn [all_high];
    rewrite !chr_N by lia; lia.
Qed.

Lemma encode_runes_cons r rs : encode_runes (r :: rs) = (encode_rune r ++ encode_runes rs)%string.
Proof. reflexivity. Qed.
Lemma encode_runes_app a b : encode_runes (a ++ b) = (encode_runes a ++ encode_runes b)%string.
Proof.
  induction a as [|x a IH]; [reflexivity|]. cbn [app]. rewrite !encode_runes_cons, IH.
  now rewrite sapp_assoc.
Qed.

Lemma encode_sep c : (N_of_ascii c < 128)%N -> encode_runes [N_of_ascii c] = String c "".
Proof.
  intros H. rewrite encode_runes_cons, encode_ascii by exact H. unfold chr.
  rewrite ascii_N_embedding. reflexivity.
Qed.

Definition wf (P : N -> Prop) (s : string) : Prop := exists rs, s = encode_runes rs /\ Forall P rs.

Lemma wf_nil P : wf P "".
Proof. exists []. split; [reflexivity|constructor]. Qed.
Lemma wf_app P a b : wf P a -> wf P b -> wf P (a ++ b)%string.
Proof.
  intros (x & -> & HX) (y & -> & HY). exists (x ++ y). rewrite encode_runes_app.
  split; [reflexivity|]. apply Forall_app; auto.
Qed.
Lemma wf_rune (P : N -> Prop) r : P r -> wf P (encode_rune r).
Proof. intros H. exists [r]. rewrite encode_runes_cons. cbn. rewrite sapp_nil_r. auto. Qed.

(** *** trimming and deduplication of an ASCII separator *)
Lemma app_last_inv (a b : string) x c :
  (a ++ x)%string = (b ++ String c "")%string -> x <> "" ->
  exists x', x = (x' ++ String c "")%string /\ b = (a ++ x')%string.
Proof.
  revert b. induction a as [|d a IH]; intros b H NE.
  - cbn in H. exists b. auto.
  - destruct b as [|e b]; cbn in H.
    + injection H as -> H. destruct a; [cbn in H; congruence|discriminate].
    + injection H as -> H. destruct (IH _ H NE) as (x' & -> & ->). exists x'. auto.
Qed.

Lemma all_high_app a b : all_high (a ++ b)%string <-> all_high a /\ all_high b.
Proof. induction a as [|c a IH]; cbn; [tauto|]. rewrite IH. tauto. Qed.

Lemma encode_last rs b c : (N_of_ascii c < 128)%N ->
  encode_runes rs = (b ++ String c "")%string ->
  exists rs', rs = rs' ++ [N_of_ascii c] /\ b = encode_runes rs'.
Proof.
  intros HC E. destruct rs as [|r0 rs0] using rev_ind.
  - cbn in E. destruct b; discriminate.
  - rewrite encode_runes_app, encode_runes_cons in E. cbn [encode_runes map sconcat fold_right] in E.
    rewrite sapp_nil_r in E. clear IHrs0.
    destruct (N.ltb_spec r0 128) as [L|L].
    + rewrite encode_ascii in E by exact L.
      destruct (app_last_inv _ _ _ _ E) as (x' & X & ->); [discriminate|].
      destruct x' as [|y x']; [|destruct x'; discriminate].
      cbn in X. injection X as X. exists rs0. subst c. rewrite chr_N by lia.
      split; [reflexivity|]. now rewrite sapp_nil_r.
    + destruct (encode_high r0 L) as [HH NE].
      destruct (app_last_inv _ _ _ _ E NE) as (x' & X & _). rewrite X in HH.
      apply all_high_app in HH. cbn in HH. lia.
Qed.

Lemma trim_suffix_nil s : trim_suffix s "" = s.
Proof.
  unfold trim_suffix, has_suffix. cbn. rewrite Nat.sub_0_r.
  assert (E : sdrop (String.length s) s = "") by (induction s; auto).
  rewrite E. cbn. induction s; cbn; auto. now rewrite IHs by exact E.
Qed.

Lemma trim_suffix_cases s x : (exists r, s = (r ++ x)%string /\ trim_suffix s x = r) \/
  (trim_suffix s x = s /\ ~ exists r, s = (r ++ x)%string).
Proof.
  destruct (has_suffix s x) eqn:E.
  - left. apply has_suffix_iff in E. destruct E as [r ->]. exists r. split; auto using trim_suffix_app.
  - right. split; [unfold trim_suffix; now rewrite E|].
    intros H. apply has_suffix_iff in H. congruence.
Qed.

Lemma wf_trim P s sep : simple_sep sep -> wf P s -> wf P (trim_suffix s sep).
Proof.
  intros [->|(c & HC & ->)] (rs & -> & HF).
  - rewrite trim_suffix_nil. exists rs; auto.
  - destruct (trim_suffix_cases (encode_runes rs) (String c "")) as [(r & E & ->)|[-> _]].
    + destruct (encode_last _ _ _ HC E) as (rs' & -> & ->). exists rs'. split; [reflexivity|].
      apply Forall_app in HF. apply HF.
    + exists rs; auto.
Qed.

(** the same deduplication on runes *)
Fixpoint dedup_runes_fuel (n : nat) (c : N) (rs : list N) : list N :=
  match n with
  | O => []
  | S n => match rs with
           | [] => []
           | x :: r =>
               match r with
               | y :: r' => if ((x =? c) && (y =? c))%N then c :: dedup_runes_fuel n c r'
                            else x :: dedup_runes_fuel n c r
               | [] => [x]
               end
           end
  end.
Definition dedup_runes (c : N) (rs : list N) : list N := dedup_runes_fuel (S (List.length rs)) c rs.

Lemma replace_high (x : string) : forall t c, (N_of_ascii c < 128)%N -> all_high x ->
  replace_all (x ++ t) (String c (String c "")) (String c "") =
  (x ++ replace_all t (String c (String c "")) (String c ""))%string.
Proof.
  induction x as [|d x IH]; intros t c HC HH; [reflexivity|].
  cbn [append] in *. destruct HH as [H1 H2]. unfold replace_all in *.
  cbn [replace_all_from has_prefix].
  destruct (Ascii.eqb_spec d c) as [->|N]; [lia|]. now rewrite IH.
Qed.

Lemma encode_head r rs c t : (N_of_ascii c < 128)%N -> encode_runes (r :: rs) = String c t ->
  r = N_of_ascii c /\ t = encode_runes rs.
Proof.
  intros HC E. rewrite encode_runes_cons in E. destruct (N.ltb_spec r 128) as [L|L].
  - rewrite encode_ascii in E by exact L. cbn in E. injection E as <- <-. now rewrite chr_N by lia.
  - destruct (encode_high r L) as [HH NE]. destruct (encode_rune r) as [|d x]; [congruence|].
    cbn in E. injection E as -> _. cbn in HH. lia.
Qed.

Lemma dedup_encode c : (N_of_ascii c < 128)%N -> forall n rs, (List.length rs < n)%nat ->
  replace_all (encode_runes rs) (String c (String c "")) (String c "") =
  encode_runes (dedup_runes_fuel n (N_of_ascii c) rs).
Proof.
  intros HC. induction n as [|n IH]; intros rs HL; [lia|].
  destruct rs as [|x rs]; [reflexivity|]. cbn [List.length] in HL.
  destruct (N.ltb_spec x 128) as [L|L].
  - rewrite encode_runes_cons, encode_ascii by exact L. cbn [append].
    unfold replace_all. cbn [replace_all_from has_prefix].
    destruct (Ascii.eqb_spec (chr x) c) as [E|E].
    + assert (EX : x = N_of_ascii c) by (rewrite <- E, chr_N; lia).
      destruct rs as [|y rs].
      * cbn [dedup_runes_fuel]. cbn [encode_runes map sconcat fold_right replace_all_from].
        rewrite encode_ascii by exact L. reflexivity.
      * destruct (encode_runes (y :: rs)) as [|d t] eqn:EY.
        { rewrite encode_runes_cons in EY. destruct (N.ltb_spec y 128).
          - rewrite encode_ascii in EY by assumption. discriminate.
          - destruct (encode_high y) as [_ NE]; [assumption|].
            destruct (encode_rune y); [congruence|discriminate]. }
        destruct (Ascii.eqb_spec d c) as [->|ND].
        -- destruct (encode_head _ _ _ _ HC EY) as [-> ->].
           cbn [dedup_runes_fuel]. rewrite EX, N.eqb_refl. cbn [andb].
           rewrite encode_runes_cons, <- IH by (cbn in HL; lia).
           rewrite encode_ascii by exact HC. unfold chr. rewrite ascii_N_embedding. reflexivity.
        -- cbn [dedup_runes_fuel].
           assert (NY : (y =? N_of_ascii c)%N = false).
           { apply N.eqb_neq. intros ->. rewrite encode_runes_cons, encode_ascii in EY by exact HC.
             cbn in EY. unfold chr in EY. rewrite ascii_N_embedding in EY. congruence. }
           rewrite NY, andb_false_r. rewrite encode_runes_cons, <- IH by (cbn in *; lia).
           rewrite EY, encode_ascii by exact L. reflexivity.
    + assert (NX : (x =? N_of_ascii c)%N = false).
      { apply N.eqb_neq. intros ->. apply E. unfold chr. apply ascii_N_embedding. }
      cbn [dedup_runes_fuel]. destruct rs as [|y rs].
      * cbn [encode_runes map sconcat fold_right replace_all_from].
        rewrite encode_ascii by exact L. reflexivity.
      * rewrite NX. cbn [andb]. rewrite (encode_runes_cons x), <- IH by (cbn in *; lia).
        rewrite encode_ascii by exact L. reflexivity.
  - destruct (encode_high x L) as [HH NE]. rewrite encode_runes_cons, replace_high by assumption.
    assert (NX : (x =? N_of_ascii c)%N = false) by (apply N.eqb_neq; lia).
    cbn [dedup_runes_fuel]. destruct rs as [|y rs].
    + cbn. now rewrite !sapp_nil_r.
    + rewrite NX. cbn [andb]. rewrite (encode_runes_cons x), <- IH by (cbn in *; lia). reflexivity.
Qed.

Lemma dedup_fuel_Forall (P : N -> Prop) c : forall n rs, Forall P rs -> Forall P (dedup_runes_fuel n c rs).
Proof.
  induction n as [|n IH]; intros rs H; [constructor|]. destruct rs as [|x [|y rs]]; cbn; auto.
  inversion H as [|? ? H1 H2]; subst. inversion H2 as [|? ? H3 H4]; subst.
  destruct ((x =? c) && (y =? c))%N eqn:E.
  - apply andb_true_iff in E. destruct E as [E _]. apply N.eqb_eq in E. subst. constructor; auto.
  - constructor; auto.
Qed.

Lemma wf_dedup P s sep : simple_sep sep -> wf P s -> wf P (dedup_sep s sep).
Proof.
  intros [->|(c & HC & ->)] (rs & -> & HF); [exists rs; auto|].
  cbn [dedup_sep append]. rewrite (dedup_encode c HC (S (List.length rs))) by lia.
  eexists. split; [reflexivity|]. now apply dedup_fuel_Forall.
Qed.

Section Alpha.
  Variable is_letter is_number : N -> bool.
  Variable fmtv : val -> string.
  Notation is_alnum := (is_alnum is_letter is_number).

  Definition allowed (sep : string) (r : N) : Prop := is_alnum r = true \/ In r (runes sep).

  Lemma wf_sep sep : simple_sep sep -> wf (allowed sep) sep.
  Proof.
    intros [->|(c & HC & ->)]; [apply wf_nil|].
    exists [N_of_ascii c]. split; [now rewrite encode_sep|].
    constructor; [|constructor]. right. cbn. unfold decode_rune.
    destruct (N.ltb_spec (N_of_ascii c) 128); [cbn; auto|lia].
  Qed.

  Lemma wf_rna sep l : simple_sep sep -> forall b,
    wf (allowed sep) (rna_loop is_letter is_number l b sep).
  Proof.
    intros HS. induction l as [|r l IH]; intros b; cbn [rna_loop]; [apply wf_nil|].
    destruct (is_alnum r) eqn:E.
    - apply wf_app; auto. apply wf_rune. left; auto.
    - destruct (negb b && _); auto. apply wf_app; auto. now apply wf_sep.
  Qed.

  Lemma wf_one sep : simple_sep sep -> forall e first,
    wf (allowed sep) (rnae_one is_letter is_number fmtv sep first e).
  Proof.
    intros HS. apply (val_ind_children (fun e => forall first,
      wf (allowed sep) (rnae_one is_letter is_number fmtv sep first e))).
    intros v IH first. destruct v; try apply wf_nil; cbn [rnae_one].
    - apply wf_rna; auto.
    - apply wf_app; [|now apply wf_sep]. apply wf_dedup; auto. apply wf_trim; auto.
      assert (G : forall x, In x elements -> forall b, wf (allowed sep) (rnae_one is_letter is_number fmtv sep b x)).
      { intros x Hx. apply IH. cbn. apply in_or_app; auto. }
      clear IH. generalize true. induction elements as [|x r IHr]; intros b; [apply wf_nil|].
      apply wf_app; [apply G; cbn; auto|]. apply IHr. intros y Hy. apply G. cbn; auto.
    - destruct v; try apply wf_nil;
        (apply wf_app; [apply wf_rna; auto|now apply wf_sep]).
    - apply wf_app; [apply wf_rna; auto|now apply wf_sep].
  Qed.

  Lemma wf_body sep l : simple_sep sep -> forall b,
    wf (allowed sep) (rnae_body is_letter is_number fmtv sep b l).
  Proof.
    intros HS. induction l as [|x l IH]; intros b; [apply wf_nil|].
    cbn [rnae_body]. apply wf_app; auto. now apply wf_one.
  Qed.

  Lemma idFromElements_alphabet els prefix sep : simple_sep sep ->
    has_prefix (idFromElements is_letter is_number fmtv els prefix sep) prefix = true /\
    exists rs, Forall (allowed sep) rs /\
      (idFromElements is_letter is_number fmtv els prefix sep = (prefix ++ encode_runes rs)%string \/
       idFromElements is_letter is_number fmtv els prefix sep = encode_runes rs).
  Proof.
    intros HS. unfold idFromElements.
    set (body := trim_suffix _ sep).
    assert (W : wf (allowed sep) body).
    { apply wf_trim; auto. apply wf_dedup; auto. apply wf_trim; auto. now apply wf_body. }
    destruct W as (rs & E & HF).
    destruct (has_prefix body prefix) eqn:HP.
    - split; [exact HP|]. exists rs. auto.
    - split; [apply has_prefix_iff; eauto|]. exists rs. split; auto. left. now rewrite E.
  Qed.

  (** *** plain titles: words joined by the separator *)
  Notation words_acc := (words_acc is_alnum).
  Notation rna := (rna_loop is_letter is_number).
  Notation enc := (map encode_runes).

  (** does a break follow the last letter or digit? *)
  Fixpoint tb (cur : bool) (l : list N) : bool :=
    match l with
    | [] => cur
    | r :: rest => if is_alnum r then tb false rest else if breaks r then tb true rest else tb cur rest
    end.
  Definition trail (sep : string) (b : bool) : string := if b then sep else "".

  Lemma words_acc_nonempty (cur l : list N) : cur <> [] -> words_acc cur l <> [].
  Proof.
    revert cur. induction l as [|r l IH]; intros cur H; cbn.
    - destruct cur; congruence.
    - destruct (is_alnum r); [apply IH; destruct cur; discriminate|].
      destruct (breaks r); [destruct cur; [congruence|discriminate]|auto].
  Qed.

  Lemma no_words_tb l : words_acc [] l = [] -> forall b, tb b l = true \/ (tb b l = b).
  Proof.
    induction l as [|r l IH]; intros H b; cbn in *; auto.
    destruct (is_alnum r); [exfalso; eapply words_acc_nonempty; [|exact H]; discriminate|].
    destruct (breaks r); auto. left. destruct (IH H true); congruence.
  Qed.

  Lemma tb_any l : words_acc [] l <> [] -> forall b, tb b l = tb false l.
  Proof.
    induction l as [|r l IH]; intros H b; cbn in *; [congruence|].
    destruct (is_alnum r); auto. destruct (breaks r); auto.
  Qed.

  Lemma join_cons sep x l : l <> [] -> join sep (x :: l) = (x ++ sep ++ join sep l)%string.
  Proof. destruct l; [congruence|reflexivity]. Qed.

  Lemma rna_words sep l :
    (forall cur, cur <> [] -> (encode_runes cur ++ rna l false sep)%string =
                 (join sep (enc (words_acc cur l)) ++ trail sep (tb false l))%string) /\
    rna l true sep = match words_acc [] l with
                     | [] => ""
                     | ws => (join sep (enc ws) ++ trail sep (tb false l))%string end.
  Proof.
    induction l as [|r l [IHA IHB]]; split.
    - intros cur H. destruct cur; [congruence|]. cbn. now rewrite ?sapp_nil_r.
    - reflexivity.
    - intros cur H. cbn [rna_loop IdsSpec.words_acc tb]. destruct (is_alnum r) eqn:E.
      + rewrite <- IHA by (destruct cur; discriminate).
        rewrite encode_runes_app, sapp_assoc. f_equal. rewrite encode_runes_cons. cbn.
        now rewrite sapp_nil_r.
      + cbn [negb]. unfold breaks. destruct ((r =? 32) || (r =? 45) || (r =? 46))%N eqn:B; cbn [andb].
        * rewrite IHB. destruct cur as [|c0 cur]; [congruence|].
          destruct (words_acc [] l) as [|w ws] eqn:W.
          -- assert (tb true l = true) as -> by (destruct (no_words_tb l W true); auto).
             cbn. now rewrite sapp_nil_r.
          -- cbn [map]. rewrite (join_cons sep (encode_runes (c0 :: cur)) (encode_runes w :: enc ws)) by discriminate. rewrite (tb_any l ltac:(congruence) true).
             now rewrite !sapp_assoc.
        * apply IHA. exact H.
    - cbn [rna_loop IdsSpec.words_acc tb]. destruct (is_alnum r) eqn:E.
      + cbn [app]. assert (NE : [r] <> []) by discriminate.
        pose proof (words_acc_nonempty [r] l NE) as NW.
        specialize (IHA [r] NE). rewrite encode_runes_cons in IHA. cbn in IHA. rewrite sapp_nil_r in IHA.
        rewrite IHA. destruct (words_acc [r] l); [congruence|reflexivity].
      + cbn [negb andb]. unfold breaks. rewrite IHB.
        destruct (words_acc [] l) as [|w ws] eqn:W; destruct ((r =? 32) || (r =? 45) || (r =? 46))%N; auto.
        rewrite (tb_any l ltac:(congruence) true). reflexivity.
  Qed.

  Lemma rna_start sep l :
    rna l false sep =
    ((if leading_break is_alnum l then sep else "") ++
     match words_acc [] l with
     | [] => ""
     | ws => (join sep (enc ws) ++ trail sep (tb false l))%string end)%string.
  Proof.
    induction l as [|r l IH]; [reflexivity|].
    cbn [rna_loop leading_break IdsSpec.words_acc tb]. destruct (is_alnum r) eqn:E.
    - cbn [app append]. assert (NE : [r] <> []) by discriminate.
      pose proof (words_acc_nonempty [r] l NE) as NW.
      destruct (rna_words sep l) as [IHA _].
      specialize (IHA [r] NE). rewrite encode_runes_cons in IHA. cbn in IHA. rewrite sapp_nil_r in IHA.
      rewrite IHA. destruct (words_acc [r] l); [congruence|reflexivity].
    - cbn [negb]. unfold breaks in *. destruct ((r =? 32) || (r =? 45) || (r =? 46))%N eqn:B; cbn [andb].
      + f_equal. destruct (rna_words sep l) as [_ ->].
        destruct (words_acc [] l) as [|w ws] eqn:W; auto.
        rewrite (tb_any l ltac:(congruence) true). reflexivity.
      + exact IH.
  Qed.

  (** *** at the level of runes *)
  Fixpoint joinr (c : N) (ws : list (list N)) : list N :=
    match ws with
    | [] => []
    | [w] => w
    | w :: r => w ++ c :: joinr c r
    end.
  Lemma encode_joinr c ws : (N_of_ascii c < 128)%N ->
    encode_runes (joinr (N_of_ascii c) ws) = join (String c "") (enc ws).
  Proof.
    intros HC. induction ws as [|w ws IH]; [reflexivity|].
    destruct ws as [|w2 ws]; [reflexivity|].
    change (joinr (N_of_ascii c) (w :: w2 :: ws)) with (w ++ N_of_ascii c :: joinr (N_of_ascii c) (w2 :: ws)).
    change (enc (w :: w2 :: ws)) with (encode_runes w :: enc (w2 :: ws)).
    rewrite join_cons by discriminate. rewrite encode_runes_app.
    change (N_of_ascii c :: joinr (N_of_ascii c) (w2 :: ws)) with ([N_of_ascii c] ++ joinr (N_of_ascii c) (w2 :: ws)).
    rewrite encode_runes_app, encode_sep, IH by exact HC. reflexivity.
  Qed.

  (** no two adjacent [c]; not beginning with [c] when [start] *)
  Fixpoint single (c : N) (prev : bool) (l : list N) : bool :=
    match l with
    | [] => negb prev
    | x :: r => if (x =? c)%N then negb prev && single c true r else single c false r
    end.
  (* note: [single c false l] also says that l does not end with c *)

  Lemma words_alnum l : forall cur, Forall (fun r => is_alnum r = true) cur ->
    Forall (fun w => w <> [] /\ Forall (fun r => is_alnum r = true) w) (words_acc cur l).
  Proof.
    induction l as [|r l IH]; intros cur H; cbn.
    - destruct cur; [constructor|]. constructor; [|constructor]. split; [discriminate|exact H].
    - destruct (is_alnum r) eqn:E.
      + apply IH. apply Forall_app. auto.
      + destruct (breaks r); [|auto]. destruct cur; [auto|].
        constructor; [split; [discriminate|exact H]|]. apply IH. constructor.
  Qed.

  Lemma single_word c w rest : is_alnum c = false -> Forall (fun r => is_alnum r = true) w -> w <> [] ->
    forall b, single c b (w ++ rest) = single c false rest.
  Proof.
    intros HC. induction w as [|x w IH]; intros HF NE b; [congruence|].
    inversion HF as [|? ? H1 H2]; subst. cbn [app single].
    destruct (N.eqb_spec x c) as [->|N]; [congruence|].
    destruct w as [|y w]; [reflexivity|]. apply IH; auto. discriminate.
  Qed.

  Lemma single_joinr c ws : is_alnum c = false ->
    Forall (fun w => w <> [] /\ Forall (fun r => is_alnum r = true) w) ws -> ws <> [] ->
    forall b, single c b (joinr c ws) = true.
  Proof.
    intros HC. induction ws as [|w ws IH]; intros HF NE b; [congruence|].
    inversion HF as [|? ? [H1 H2] H3]; subst. destruct ws as [|w2 ws].
    - cbn [joinr]. rewrite <- (app_nil_r w), single_word by auto. reflexivity.
    - change (joinr c (w :: w2 :: ws)) with (w ++ c :: joinr c (w2 :: ws)).
      rewrite single_word by auto. cbn [single]. rewrite N.eqb_refl. cbn [negb andb].
      apply IH; auto. discriminate.
  Qed.

  Lemma single_dedup c : forall n l b, (List.length l < n)%nat -> single c b l = true -> dedup_runes_fuel n c l = l.
  Proof.
    induction n as [|n IH]; intros l b HL H; [lia|]. destruct l as [|x l]; [reflexivity|].
    cbn [dedup_runes_fuel]. destruct l as [|y l]; [reflexivity|].
    cbn [single] in H. cbn [List.length] in HL.
    destruct (N.eqb_spec x c) as [->|NX]; cbn [andb].
    - apply andb_true_iff in H. destruct H as [_ H].
      destruct (N.eqb_spec y c) as [->|NY]; [cbn in H; discriminate|].
      f_equal. apply (IH _ false); [cbn; lia|]. cbn [single]. destruct (N.eqb_spec y c); [congruence|exact H].
    - f_equal. apply (IH _ false); [cbn; lia|]. cbn [single]. exact H.
  Qed.

  Lemma single_last c l b : single c b l = true -> forall l', l <> l' ++ [c].
  Proof.
    revert b. induction l as [|x l IH]; intros b H l' E; [destruct l'; discriminate|].
    cbn [single] in H. destruct l' as [|y l'].
    - injection E as -> ->. rewrite N.eqb_refl in H. cbn in H. rewrite andb_false_r in H. discriminate.
    - injection E as -> ->. destruct (y =? c)%N.
      + apply andb_true_iff in H. destruct H as [_ H]. eapply IH; [exact H|reflexivity].
      + eapply IH; [exact H|reflexivity].
  Qed.

  Lemma single_trim c rs b : (N_of_ascii c < 128)%N -> single (N_of_ascii c) b rs = true ->
    trim_suffix (encode_runes rs) (String c "") = encode_runes rs.
  Proof.
    intros HC H. destruct (trim_suffix_cases (encode_runes rs) (String c "")) as [(r & E & _)|[-> _]]; auto.
    destruct (encode_last _ _ _ HC E) as (rs' & -> & _). exfalso. eapply single_last; [exact H|reflexivity].
  Qed.

  (** the separator is no letter or digit *)
  Definition sep_ok (sep : string) : Prop :=
    simple_sep sep /\ Forall (fun r => is_alnum r = false) (runes sep).

  Lemma join_nil ws : join "" ws = sconcat ws.
  Proof.
    induction ws as [|w ws IH]; [reflexivity|]. destruct ws as [|w2 ws]; [cbn; now rewrite sapp_nil_r|].
    rewrite join_cons by discriminate. rewrite IH. reflexivity.
  Qed.

  Lemma plain_title s sep : sep_ok sep ->
    trim_suffix (replaceNonAlphanumericsOnElements is_letter is_number fmtv [StringElement s] sep) sep =
    slug is_alnum sep (runes (trim_left_char " " s)).
  Proof.
    intros [HS HA]. unfold replaceNonAlphanumericsOnElements. cbn [rnae_body rnae_one].
    rewrite sapp_nil_r. unfold replaceNonAlphanumerics. set (l := runes _).
    rewrite rna_start. unfold slug, words.
    destruct HS as [->|(c & HC & ->)].
    - rewrite !trim_suffix_nil. cbn [dedup_sep]. unfold trail.
      destruct (leading_break is_alnum l), (tb false l), (words_acc [] l); cbn [append]; rewrite ?sapp_nil_r; reflexivity.
    - assert (NA : is_alnum (N_of_ascii c) = false).
      { assert (RU : runes (String c "") = [N_of_ascii c]).
        { unfold runes. cbn [runes_from]. unfold decode_rune.
          destruct (N.ltb_spec (N_of_ascii c) 128); [reflexivity|lia]. }
        rewrite RU in HA. inversion HA; assumption. }
      pose proof (words_alnum l [] (Forall_nil _)) as WA.
      destruct (words_acc [] l) as [|w ws] eqn:W.
      + rewrite sapp_nil_r. destruct (leading_break is_alnum l).
        * pose proof (trim_suffix_app "" (String c "")) as E0. cbn [append] in E0.
          rewrite E0. reflexivity.
        * reflexivity.
      + set (lead := if leading_break is_alnum l then String c "" else "").
        set (R := (if leading_break is_alnum l then [N_of_ascii c] else []) ++ joinr (N_of_ascii c) (w :: ws)).
        assert (ER : encode_runes R = (lead ++ join (String c "") (enc (w :: ws)))%string).
        { unfold R, lead. rewrite encode_runes_app, encode_joinr by exact HC.
          destruct (leading_break is_alnum l); [now rewrite encode_sep|reflexivity]. }
        assert (SR : single (N_of_ascii c) false R = true).
        { unfold R. assert (NE : w :: ws <> []) by discriminate.
          destruct (leading_break is_alnum l); cbn [app].
          - cbn [single]. rewrite N.eqb_refl. cbn [negb andb]. now apply single_joinr.
          - now apply single_joinr. }
        assert (ST : trim_suffix (lead ++ join (String c "") (enc (w :: ws)) ++ trail (String c "") (tb false l)) (String c "")
                = encode_runes R).
        { rewrite <- sapp_assoc, <- ER. destruct (tb false l); cbn [trail].
          - apply trim_suffix_app.
          - rewrite sapp_nil_r. eapply single_trim; eauto. }
        rewrite ST. cbn [dedup_sep append].
        rewrite (dedup_encode c HC (S (List.length R))) by lia.
        rewrite (single_dedup _ _ _ false) by (auto; lia).
        rewrite (single_trim c R false) by auto. exact ER.
  Qed.

  Lemma plain_title_id s prefix sep : sep_ok sep ->
    let body := slug is_alnum sep (runes (trim_left_char " " s)) in
    idFromElements is_letter is_number fmtv [StringElement s] prefix sep =
    if has_prefix body prefix then body else (prefix ++ body)%string.
  Proof. intros HS body. unfold idFromElements. rewrite plain_title by exact HS. reflexivity. Qed.

  Lemma slug_no_trailing l c x : (N_of_ascii c < 128)%N -> is_alnum (N_of_ascii c) = false ->
    slug is_alnum (String c "") l <> (x ++ String c "")%string.
  Proof.
    intros HC NA E. unfold slug, words in E.
    pose proof (words_alnum l [] (Forall_nil _)) as WA.
    destruct (words_acc [] l) as [|w ws] eqn:W; [destruct x; discriminate|].
    set (R := (if leading_break is_alnum l then [N_of_ascii c] else []) ++ joinr (N_of_ascii c) (w :: ws)).
    assert (ER : encode_runes R = (x ++ String c "")%string).
    { rewrite <- E. unfold R. rewrite encode_runes_app, encode_joinr by exact HC.
      destruct (leading_break is_alnum l); [now rewrite encode_sep|reflexivity]. }
    destruct (encode_last _ _ _ HC ER) as (rs' & ER' & _).
    assert (SR : single (N_of_ascii c) false R = true).
    { unfold R. assert (NE : w :: ws <> []) by discriminate.
      destruct (leading_break is_alnum l); cbn [app].
      - cbn [single]. rewrite N.eqb_refl. cbn [negb andb]. now apply single_joinr.
      - now apply single_joinr. }
    exact (single_last _ _ _ SR _ ER').
  Qed.

  Lemma plain_no_trailing s prefix c t : (N_of_ascii c < 128)%N -> is_alnum (N_of_ascii c) = false ->
    idFromElements is_letter is_number fmtv [StringElement s] prefix (String c "")
    <> (prefix ++ t ++ String c "")%string.
  Proof.
    intros HC NA E. rewrite plain_title_id in E.
    - destruct (has_prefix _ prefix).
      + rewrite <- sapp_assoc in E. revert E. now apply slug_no_trailing.
      + apply sapp_inj_l in E. revert E. now apply slug_no_trailing.
    - split; [right; eauto|]. assert (RU : runes (String c "") = [N_of_ascii c]).
      { unfold runes. cbn [runes_from]. unfold decode_rune.
        destruct (N.ltb_spec (N_of_ascii c) 128); [reflexivity|lia]. }
      rewrite RU. repeat constructor. exact NA.
  Qed.

  (** *** natural cross references *)
  Lemma natural_xref docattrs s a : contains s " " = true ->
    getAsStringD fmtv a AttrID "" = "" ->
    xrefResolveID is_letter is_number fmtv docattrs (VStr s) =
    Ok (VStr (baseID is_letter is_number fmtv docattrs a (Some [StringElement s]))).
  Proof.
    intros HC HA. unfold xrefResolveID, baseID. rewrite HC, HA. reflexivity.
  Qed.
End Alpha.
