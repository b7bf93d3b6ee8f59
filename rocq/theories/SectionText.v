(** Lemmas about the text of section titles (for C71). *)
From Coq Require Import List String NArith ZArith Bool Ascii Arith Lia.
From Verif Require Import GoBase GoLemmas Utf8 Utf8Lemmas Types Attrs Escape Render Ids IdsSpec IdsAlpha P_Ids P_TocLinks P_PegBlocks Peg PegBlockSpec PegInlineSpec ConvertSpec SectionDocSpec.
Import ListNotations.
Local Open Scope list_scope.

(** * Trimming Unicode white space *)
Definition cont (c : ascii) : bool := (128 <=? N_of_ascii c)%N && (N_of_ascii c <? 192)%N.
Fixpoint conts (s : string) : bool := match s with EmptyString => true | String c s => cont c && conts s end.
Lemma cont_chr : forall n, (n < 256)%N -> cont (chr n) = (128 <=? n)%N && (n <? 192)%N.
Proof. intros n L. unfold cont. now rewrite N_chr. Qed.
Lemma encode_shape : forall r, exists c s, encode_rune r = String c s /\ cont c = false /\ conts s = true.
Proof.
  assert (forall n, (n < 64)%N -> cont (chr (128 + n)) = true) as C.
  { intros n L. rewrite cont_chr by lia. apply andb_true_iff. split; [apply N.leb_le|apply N.ltb_lt]; lia. }
  assert (forall n, (192 <= n < 256)%N -> cont (chr n) = false) as D.
  { intros n L. rewrite cont_chr by lia. apply andb_false_iff. right. apply N.ltb_ge. lia. }
  assert (forall n, (n mod 64 < 64)%N) as M by (intros n; apply N.mod_lt; discriminate).
  intros r. unfold encode_rune.
  destruct (N.ltb_spec r 128) as [H1|H1].
  { eexists _, _. split; [reflexivity|]. split; [|reflexivity]. rewrite cont_chr by lia. apply andb_false_iff. left. apply N.leb_gt. lia. }
  destruct (N.ltb_spec r 2048) as [H2|H2].
  { eexists _, _. split; [reflexivity|]. split; [|cbn [conts]; now rewrite !C by apply M].
    apply D. assert (r / 64 < 32)%N by (apply N.div_lt_upper_bound; lia). lia. }
  destruct (((55296 <=? r) && (r <=? 57343))%N || (1114111 <? r)%N) eqn:S.
  { eexists _, _. split; [reflexivity|]. split; reflexivity. }
  apply orb_false_iff in S. destruct S as [_ S]. apply N.ltb_ge in S.
  destruct (N.ltb_spec r 65536) as [H3|H3].
  { eexists _, _. split; [reflexivity|]. split; [|cbn [conts]; now rewrite !C by apply M].
    apply D. assert (r / 4096 < 16)%N by (apply N.div_lt_upper_bound; lia). lia. }
  eexists _, _. split; [reflexivity|]. split; [|cbn [conts]; now rewrite !C by apply M].
  apply D. assert (r / 262144 < 16)%N by (apply N.div_lt_upper_bound; lia). lia.
Qed.
Lemma app_split : forall a b x y : string, (a ++ x = b ++ y)%string -> (exists z, a = b ++ z /\ y = z ++ x)%string \/ (exists z, b = a ++ z /\ x = z ++ y)%string.
Proof.
  induction a as [|c a IH]; intros b x y Q.
  - right. exists b. split; [reflexivity|exact Q].
  - destruct b as [|d b].
    + left. exists (String c a). split; [reflexivity|now symmetry].
    + cbn [append] in Q. injection Q as -> Q. apply IH in Q. destruct Q as [(z & -> & ->)|(z & -> & ->)]; [left|right]; exists z; auto.
Qed.
Lemma conts_app : forall a b, conts (a ++ b) = conts a && conts b.
Proof. induction a as [|c a IH]; intros b; [reflexivity|]. cbn [append conts]. rewrite IH. now rewrite andb_assoc. Qed.
Lemma suffix_whole : forall z r q, encode_rune r = (z ++ encode_rune q)%string -> encode_rune r = encode_rune q.
Proof.
  intros z r q Q. destruct (encode_shape r) as (c & s & Er & Cr & Cs). destruct (encode_shape q) as (d & u & Eq & Dq & _).
  rewrite Er, Eq in *. destruct z as [|e z]; [exact Q|]. cbn [append] in Q. injection Q as _ Q. rewrite Q, conts_app in Cs. cbn [conts] in Cs. rewrite Dq, andb_false_r in Cs. discriminate Cs.
Qed.
Lemma encode_inj : forall r q, valid_rune r = true -> valid_rune q = true -> encode_rune r = encode_rune q -> r = q.
Proof. intros r q Vr Vq Q. pose proof (decode_encode r "" Vr) as A. pose proof (decode_encode q "" Vq) as B. rewrite Q in A. rewrite B in A. now injection A. Qed.
Definition space_list : list N := ([9; 10; 11; 12; 13; 32; 133; 160; 5760; 8192; 8193; 8194; 8195; 8196; 8197; 8198; 8199; 8200; 8201; 8202; 8232; 8233; 8239; 8287; 12288])%N.
Lemma space_runes_list : space_runes = map encode_rune space_list.
Proof. vm_compute. reflexivity. Qed.
Lemma space_list_spec : forall q, In q space_list -> space q = true /\ valid_rune q = true.
Proof. intros q I. cbn in I. repeat (destruct I as [<-|I]; [split; reflexivity|]). destruct I. Qed.
Lemma find_none : forall (f : string -> bool) l, (forall x, In x l -> f x = false) -> find_first f l = None.
Proof. intros f l A. induction l as [|x l IH]; [reflexivity|]. cbn [find_first]. rewrite (A x) by now left. apply IH. intros y I. apply A. now right. Qed.
Lemma find_spaces : forall f, (forall q, In q space_list -> f (encode_rune q) = false) -> find_first f space_runes = None.
Proof. intros f A. apply find_none. intros x I. rewrite space_runes_list in I. apply in_map_iff in I. destruct I as (q & <- & I). now apply A. Qed.
Lemma title_trimSpace : forall t, title t -> trimSpace (encode_runes t) = encode_runes t.
Proof.
  intros t (Ch & Ne & Fs & La). unfold trimSpace.
  assert (find_first (has_prefix (encode_runes t)) space_runes = None) as L1.
  { destruct t as [|r t]; [congruence|]. cbn [next_is] in Fs. inversion Ch as [|? ? Vr _]; subst.
    apply find_spaces. intros q I. apply space_list_spec in I. destruct I as [Sq Vq]. destruct (has_prefix _ _) eqn:Hp; [|reflexivity].
    apply has_prefix_iff in Hp. destruct Hp as (u & Hu). unfold encode_runes in Hu. cbn [map sconcat fold_right] in Hu.
    pose proof (decode_encode r (fold_right append "" (map encode_rune t)) Vr) as A. pose proof (decode_encode q u Vq) as B. rewrite Hu in A. rewrite B in A. injection A as -> _. congruence. }
  assert (find_first (has_suffix (encode_runes t)) space_runes = None) as L2.
  { destruct t as [|r t0] eqn:Et using rev_ind; [congruence|]. clear IHt0. rewrite rev_app_distr in La. cbn [rev app next_is] in La.
    unfold characters in Ch. apply Forall_app in Ch. destruct Ch as [_ Ch]. inversion Ch as [|? ? Vr _]; subst.
    apply find_spaces. intros q I. apply space_list_spec in I. destruct I as [Sq Vq]. destruct (has_suffix _ _) eqn:Hp; [|reflexivity].
    apply has_suffix_iff in Hp. destruct Hp as (u & Hu). rewrite encode_runes_app, encode_one in Hu.
    assert (encode_rune r = encode_rune q) as Q.
    { apply app_split in Hu. destruct Hu as [(z & _ & Q)|(z & _ & Q)]; [symmetry|]; now apply suffix_whole in Q. }
    apply encode_inj in Q; auto. congruence. }
  assert (forall k, trim_left_space k (encode_runes t) = encode_runes t) as -> by (intros [|k]; cbn [trim_left_space]; [reflexivity|now rewrite L1]).
  destruct (String.length (encode_runes t)); cbn [trim_right_space]; [reflexivity|now rewrite L2].
Qed.

(** * Identifiers *)
Section Id.
  Variables letter number : rune -> bool.
  Notation alnum r := (letter r || number r).
  Hypothesis ascii_word : forall r, (r < 128)%N -> alnum r = true -> (48 <= r <= 57)%N \/ (65 <= r <= 90)%N \/ (97 <= r <= 122)%N.
  Lemma html_plain_app : forall a b, html_plain (a ++ b) = html_plain a && html_plain b.
  Proof. induction a as [|c a IH]; intros b; [reflexivity|]. cbn [append html_plain]. rewrite IH. now rewrite andb_assoc. Qed.
  Lemma plain_byte : forall n, (128 <= n < 256)%N -> html_plain (String (chr n) "") = true.
  Proof.
    intros n L. cbn [html_plain existsb]. rewrite !orb_false_r, andb_true_r. apply negb_true_iff.
    assert (forall c, (N_of_ascii c < 128)%N -> Ascii.eqb (chr n) c = false) as A.
    { intros c Lc. apply Ascii.eqb_neq. intros E. apply (f_equal N_of_ascii) in E. rewrite N_chr in E by lia. lia. }
    rewrite !A by (vm_compute; reflexivity). reflexivity.
  Qed.
  Lemma plain_bytes : forall s, IdsAlpha.all_high s -> html_plain s = true.
  Proof.
    induction s as [|c s IH]; [reflexivity|]. intros A. change (String c s) with (String c "" ++ s)%string. rewrite html_plain_app.
    destruct A as [A B]. rewrite IH by exact B. rewrite andb_true_r. rewrite <- (ascii_N_embedding c). apply plain_byte. pose proof (N_ascii_bounded c). lia.
  Qed.
  Lemma plain_rune : forall r, alnum r = true -> html_plain (encode_rune r) = true.
  Proof.
    intros r A. destruct (N.ltb_spec r 128) as [L|L].
    - rewrite (IdsAlpha.encode_ascii r L). cbn [html_plain existsb]. rewrite !orb_false_r, andb_true_r. apply negb_true_iff.
      pose proof (ascii_word r L A) as W.
      assert (forall c, N_of_ascii c <> r -> Ascii.eqb (chr r) c = false) as B.
      { intros c Nc. apply Ascii.eqb_neq. intros E. apply (f_equal N_of_ascii) in E. rewrite N_chr in E by lia. congruence. }
      rewrite !B; [reflexivity|..]; vm_compute N_of_ascii; lia.
    - apply plain_bytes, (proj1 (IdsAlpha.encode_high r L)).
  Qed.
  Lemma words_acc_alnum : forall l cur, (forall r, In r cur -> alnum r = true) -> forall w, In w (words_acc (fun r => alnum r) cur l) -> forall r, In r w -> alnum r = true.
  Proof.
    induction l as [|x l IH]; intros cur A w I r J; cbn [words_acc] in I.
    - destruct cur as [|c cur]; [destruct I|]. destruct I as [<-|[]]. now apply A.
    - destruct (alnum x) eqn:Ex.
      + apply (IH (cur ++ [x])) with (w := w); auto. intros y K. apply in_app_iff in K. destruct K as [K|[<-|[]]]; auto.
      + destruct (breaks x).
        * destruct cur as [|c cur]; [now apply (IH [] A w)|]. destruct I as [<-|I]; [now apply A|]. apply (IH [] ltac:(intros ? []) w I r J).
        * apply (IH cur A w I r J).
  Qed.
  Lemma plain_runes : forall w, (forall r, In r w -> alnum r = true) -> html_plain (encode_runes w) = true.
  Proof.
    induction w as [|r w IH]; [reflexivity|]. intros A. unfold encode_runes. cbn [map sconcat fold_right]. rewrite html_plain_app. rewrite plain_rune by (apply A; now left).
    apply IH. intros x I. apply A. now right.
  Qed.
  Lemma join_plain : forall ws, (forall w, In w ws -> html_plain w = true) -> html_plain (join "_" ws) = true.
  Proof.
    induction ws as [|w ws IH]; [reflexivity|]. intros A. destruct ws as [|v ws]; [apply A; now left|].
    change (join "_" (w :: v :: ws)) with (w ++ "_" ++ join "_" (v :: ws))%string. rewrite !html_plain_app, (A w) by now left. rewrite IH; [reflexivity|]. intros x I. apply A. now right.
  Qed.
  Lemma slug_plain : forall l, html_plain (slug (fun r => alnum r) "_" l) = true.
  Proof.
    intros l. unfold slug. destruct (words _ l) as [|w ws] eqn:Ew; [reflexivity|]. rewrite html_plain_app.
    rewrite join_plain; [destruct (leading_break _ l); reflexivity|]. intros x I. apply in_map_iff in I. destruct I as (y & <- & I). apply plain_runes.
    intros r J. apply (words_acc_alnum l [] ltac:(intros ? []) y); [|exact J]. change (In y (words (fun r => alnum r) l)). now rewrite Ew.
  Qed.
  Lemma digits_plain : forall fuel n acc, html_plain acc = true -> html_plain (digits_fuel fuel n acc) = true.
  Proof.
    induction fuel as [|f IH]; intros n acc A; cbn [digits_fuel]; [exact A|]. change (digit_ascii (n mod 10)) with (chr (48 + n mod 10)).
    assert (html_plain (String (chr (48 + n mod 10)) acc) = true) as B.
    { change (String (chr (48 + n mod 10)) acc) with (String (chr (48 + n mod 10)) "" ++ acc)%string. rewrite html_plain_app, A, andb_true_r.
      assert (n mod 10 < 10)%N as L by (apply N.mod_lt; discriminate).
      cbn [html_plain existsb]. rewrite !orb_false_r, andb_true_r. apply negb_true_iff.
      assert (forall c, (N_of_ascii c < 48 \/ 57 < N_of_ascii c)%N -> Ascii.eqb (chr (48 + n mod 10)) c = false) as C.
      { intros c Nc. apply Ascii.eqb_neq. intros E. apply (f_equal N_of_ascii) in E. rewrite N_chr in E by lia. lia. }
      rewrite !C; [reflexivity|..]; vm_compute N_of_ascii; lia. }
    destruct (n <? 10)%N; auto.
  Qed.
  Lemma base_plain : forall t, html_plain (base_id letter number t) = true /\ base_id letter number t <> "".
  Proof.
    intros t. unfold base_id. change (word_char letter number) with (fun r => alnum r). pose proof (slug_plain t) as A. destruct (has_prefix _ "_") eqn:Hp.
    - split; [exact A|]. intros E. rewrite E in Hp. discriminate Hp.
    - split; [cbn [append html_plain]; exact A|discriminate].
  Qed.
  Lemma fresh_plain : forall used t id, fresh used (base_id letter number t) id -> html_plain id = true /\ id <> "".
  Proof.
    intros used t id (i & Li & -> & _). destruct (base_plain t) as [A B]. unfold numbered. destruct (N.eqb i 1); [auto|]. split.
    - rewrite !html_plain_app, A. cbn [html_plain]. apply digits_plain. reflexivity.
    - destruct (base_id letter number t); [congruence|discriminate].
  Qed.
End Id.
(** the first free id *)
Lemma fresh_resolve : forall (refs : gomap val) used base id, (forall x, mhas refs x = true <-> In x used) -> fresh used base id -> resolveUnique base refs = Some id.
Proof.
  intros refs used base id Hu (i & Li & -> & Nf & Us). unfold resolveUnique.
  assert (forall f j, (1 <= j <= i)%N -> resolve_loop f base j refs <> None -> resolve_loop f base j refs = Some (numbered base i)) as A.
  { induction f as [|f IH]; intros j Lj Nn; [now elim Nn|]. cbn [resolve_loop] in *. change (candidate base j) with (numbered base j) in *.
    destruct (mhas refs (numbered base j)) eqn:Hm.
    - apply IH; [|exact Nn]. destruct (N.eq_dec j i) as [->|Ne]; [|lia]. apply Hu in Hm. now elim Nf.
    - destruct (N.eq_dec j i) as [->|Ne]; [reflexivity|]. exfalso. assert (In (numbered base j) used) as K by (apply Us; lia). apply Hu in K. congruence. }
  apply A; [lia|]. apply IdsLemmas.resolve_terminates.
Qed.
