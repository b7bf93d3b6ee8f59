(** The string operations of the renderer and its templates keep to an alphabet. *)
From Verif Require Import GoBase GoLemmas Utf8 Types Attrs Toc Escape TocRender Indent Templates Tmpl Render RenderKit HtmlSpec HtmlMachine HtmlOps TmplCheck HtmlTmpl AlphaSpec.
Local Open Scope string_scope.

Section Ops.
Variable P : ascii -> bool.
Hypothesis HP : alphabet P.
Notation W := (over P).

Lemma basic_in c : basic c -> P c = true.
Proof. apply HP. Qed.
Definition basicb (c : ascii) : bool := ((32 <=? N_of_ascii c) && (N_of_ascii c <=? 126) || (N_of_ascii c =? 10))%N.
Lemma W_const s : all_chars basicb s = true -> W s.
Proof.
  apply all_impl. intros c H. apply basic_in. unfold basicb in H. apply orb_true_iff in H as [H|H].
  - apply andb_true_iff in H as [A B]. apply N.leb_le in A, B. left. lia.
  - apply N.eqb_eq in H. now right.
Qed.
Lemma W_nil : W "".
Proof. reflexivity. Qed.
Lemma W_app x y : W x -> W y -> W (x ++ y).
Proof. unfold over. rewrite all_app. intros -> ->. reflexivity. Qed.
Lemma W_app_inv x y : W (x ++ y) -> W x /\ W y.
Proof. unfold over. rewrite all_app. apply andb_true_iff. Qed.
Lemma W_trim_left c x : W x -> W (trim_left_char c x).
Proof. intros H. destruct (trim_left_dec c x) as (p & Eq & _). rewrite Eq in H. now apply W_app_inv in H. Qed.
Lemma W_trim_right c x : W x -> W (trim_right_char c x).
Proof. intros H. destruct (trim_right_dec c x) as (p & Eq & _). rewrite Eq in H. now apply W_app_inv in H. Qed.
Lemma W_trimLF x : W x -> W (trimLF x).
Proof. intros H. apply W_trim_left, W_trim_right, H. Qed.
Lemma W_suffix x q : W x -> W (trim_suffix x q).
Proof. apply all_trim_suffix. Qed.
Lemma W_prefix x q : W x -> W (trim_prefix x q).
Proof.
  intros H. unfold trim_prefix. destruct (has_prefix x q) eqn:B; [|exact H]. apply has_prefix_iff in B as [r ->]. apply W_app_inv in H as [_ H].
  replace (sdrop (String.length q) (q ++ r)) with r; [exact H|]. clear. induction q as [|c q IH]; [now destruct r|exact IH].
Qed.
Lemma W_trim_left_space k : forall x, W x -> W (trim_left_space k x).
Proof. induction k as [|k IH]; intros x H; cbn [trim_left_space]; [exact H|]. destruct (find_first _ _); [apply IH, W_prefix, H|exact H]. Qed.
Lemma W_trim_right_space k : forall x, W x -> W (trim_right_space k x).
Proof. induction k as [|k IH]; intros x H; cbn [trim_right_space]; [exact H|]. destruct (find_first _ _); [apply IH, W_suffix, H|exact H]. Qed.
Lemma W_trimSpace x : W x -> W (trimSpace x).
Proof. intros H. unfold trimSpace. apply W_trim_right_space, W_trim_left_space, H. Qed.
Lemma W_split c : forall x, W x -> Forall W (split_char c x).
Proof.
  induction x as [|d x IH]; intros H; cbn [split_char]; [constructor; [reflexivity|constructor]|]. unfold over in H. cbn [all_chars] in H. apply andb_true_iff in H as [H1 H2].
  specialize (IH H2). destruct (Ascii.eqb d c); [constructor; [reflexivity|exact IH]|].
  destruct (split_char c x) as [|y ys]; [constructor; [unfold over; cbn [all_chars]; now rewrite H1|constructor]|].
  inversion IH as [|? ? I1 I2]; subst. constructor; [|exact I2]. unfold over in *. cbn [all_chars]. now rewrite H1, I1.
Qed.
Lemma W_join sep ls : W sep -> Forall W ls -> W (join sep ls).
Proof. apply all_join. Qed.
Lemma W_LF : W LF.
Proof. now apply W_const. Qed.
Lemma W_lines f x : (forall y, W y -> W (f y)) -> W x -> W (join LF (map f (split_char (chr 10) x))).
Proof. intros Hf H. apply W_join; [apply W_LF|]. apply Forall_map. eapply Forall_impl; [|now apply W_split]. exact Hf. Qed.
Lemma W_trimSpaces x : W x -> W (trimSpaces x).
Proof. apply W_lines, W_trimSpace. Qed.
Lemma W_replace old new x : W new -> W x -> W (replace_all x old new).
Proof. intros N H. unfold replace_all. now apply all_replace. Qed.
Lemma W_name x : all_chars name_char x = true -> W x.
Proof.
  intros H. apply W_const. revert H. apply all_impl. intros c. unfold name_char, basicb.
  destruct c as [[] [] [] [] [] [] [] []]; vm_compute; congruence.
Qed.
Lemma W_itoa z : W (itoa z).
Proof. apply W_name, itoa_name. Qed.
Lemma W_itoaN z : W (itoaN z).
Proof. apply W_name, itoaN_name. Qed.
Lemma W_repeat n : W (srepeat " " n).
Proof. induction n as [|n IH]; [reflexivity|]. cbn [srepeat]. apply W_app; [now apply W_const|exact IH]. Qed.
Lemma W_sdrop n : forall x, W x -> W (sdrop n x).
Proof.
  induction n as [|n IH]; intros [|c x] H; cbn [sdrop]; auto. unfold over in H. cbn [all_chars] in H. apply andb_true_iff in H as [_ H]. now apply IH.
Qed.
Lemma W_stake n x : W x -> W (stake n x).
Proof. apply all_stake. Qed.
Lemma W_replacer ps : (forall p, In p ps -> W (snd p)) -> forall x k, W x -> W (replacer_from ps k x).
Proof.
  intros H. induction x as [|c x IH]; intros k Hx; [reflexivity|]. unfold over in Hx. cbn [all_chars] in Hx. apply andb_true_iff in Hx as [H1 H2]. cbn [replacer_from].
  destruct k as [|k]; [|now apply IH]. destruct (first_match ps (String c x)) as [[old new]|] eqn:M.
  - apply first_match_In in M. apply W_app; [exact (H _ M)|now apply IH].
  - unfold over. cbn [all_chars]. rewrite H1. now apply IH.
Qed.
Lemma W_escape x : W x -> W (escapeString x).
Proof.
  apply W_replacer. intros p I. apply W_const. assert (F : forallb (fun p => all_chars basicb (snd p)) htmlEscaper = true) by (vm_compute; reflexivity).
  rewrite forallb_forall in F. now apply F.
Qed.
Lemma W_adjust x : W x -> W (adjustHeadingSpaces x).
Proof.
  intros H. unfold adjustHeadingSpaces. pose proof (W_split (chr 10) x H) as F. set (ls := split_char (chr 10) x) in *. clearbody ls.
  apply W_join; [apply W_LF|]. destruct ls as [|l [|l' ls]]; [constructor| |].
  - inversion F; subst. constructor; [now apply W_trim_left|constructor].
  - apply Forall_map. revert F. apply Forall_impl. intros y. apply W_prefix.
Qed.
Lemma W_html x : W x -> W (htmlEscapeString x).
Proof.
  induction x as [|c x IH]; intros H; [reflexivity|]. unfold over in H. cbn [all_chars] in H. apply andb_true_iff in H as [H1 H2]. cbn [htmlEscapeString].
  apply W_app; [|now apply IH]. unfold html_escape_byte. repeat match goal with
    | |- W (if Ascii.eqb ?c (chr 0) then _ else _) => destruct (Ascii.eqb_spec c (chr 0)) as [->|]
    | |- W (if ?b then _ else _) => destruct b; [now apply W_const|] end.
  - destruct HP as [_ H]. unfold over. cbn [all_chars]. rewrite !H; auto; cbn; tauto.
  - unfold over. cbn [all_chars]. now rewrite H1.
Qed.
Lemma runes_in x r : W x -> forall k, In r (runes_from k x) -> (r < 128)%N -> P (chr r) = true.
Proof.
  unfold over. induction x as [|c x IH]; intros H k I L; [destruct I|]. cbn [all_chars] in H. apply andb_true_iff in H as [H1 H2]. cbn [runes_from] in I.
  destruct k as [|k]; [|now apply (IH H2 k)]. destruct (decode_rune (String c x)) as [q w] eqn:D. destruct I as [->|I]; [|now apply (IH H2 _ I L)].
  apply decode_rune_ascii in D as (c' & x' & [= <- <-] & <-); [|exact L]. unfold chr. now rewrite ascii_N_embedding.
Qed.
Lemma W_ref r : W ("&#" ++ itoaN r ++ ";").
Proof. apply W_app; [now apply W_const|]. apply W_app; [apply W_itoaN|now apply W_const]. Qed.
Lemma W_entify x : (forall r, In r (runes x) -> (r < 128)%N -> ascii_printable r = true -> P (chr r) = true) -> W (asciiEntify x).
Proof.
  unfold asciiEntify. induction (runes x) as [|r l IH]; intros H; [reflexivity|]. cbn [map sconcat fold_right].
  apply W_app; [|apply IH; intros q Q; apply H; now right]. unfold entify_rune. destruct ((r <? 128)%N && ascii_printable r) eqn:B; [|apply W_ref].
  apply andb_true_iff in B as [B1 B2]. unfold encode_rune. rewrite B1. apply N.ltb_lt in B1. unfold over. cbn [all_chars]. rewrite (H r); auto. now left.
Qed.
Lemma W_text u x : W x -> W (renderStringElement u x).
Proof. intros H. destruct u; [exact H|]. apply W_entify. intros r I L _. exact (runes_in x r H 0 I L). Qed.
Lemma W_ascii x : (forall n, (9 <= n <= 13)%N -> P (chr n) = true) -> W (renderStringElement false x).
Proof.
  intros H. apply W_entify. intros r _ _ A. unfold ascii_printable in A. apply orb_true_iff in A as [A|A]; apply andb_true_iff in A as [A B]; apply N.leb_le in A, B; [|auto].
  apply basic_in. left. unfold chr. rewrite N_ascii_embedding by lia. lia.
Qed.

(** ** templates *)
Definition fok (v : fval) : Prop :=
  match v with FS s => W s | FL l => Forall (Forall (fun p => W (snd p))) l | _ => True end.
Definition foks (e : fields) : Prop := Forall (fun p => fok (snd p)) e.
Lemma foks_get e f v : foks e -> mget e f = Some v -> fok v.
Proof.
  unfold foks. induction 1 as [|[k w] e H He IH]; cbn [mget]; [discriminate|]. destruct (String.eqb f k); [|exact IH]. now intros [= <-].
Qed.
Fixpoint lits (n : node) : bool :=
  match n with
  | NLit s => all_chars basicb s
  | NIf _ a b => forallb lits a && forallb lits b
  | NRange _ _ _ b => forallb lits b
  | _ => true
  end.
Variable low : string -> string.
Hypothesis Hlow : forall s, W s -> W (low s).
Lemma W_call fn v s : fok v -> call low fn v = Ok s -> W s.
Proof.
  intros H X. unfold call in X. destruct v; try discriminate X. cbn [fok] in H.
  destruct (String.eqb fn "toLower"); [injection X as <-; auto|].
  destruct (String.eqb fn "halign"). { injection X as <-. unfold halign. repeat match goal with |- W (if ?b then _ else _) => destruct b; [now apply W_const|] end; exact H. }
  destruct (String.eqb fn "valign"). { injection X as <-. unfold valign. repeat match goal with |- W (if ?b then _ else _) => destruct b; [now apply W_const|] end; exact H. }
  destruct (String.eqb fn "trimLineFeedSuffix"); [injection X as <-; now apply W_suffix|discriminate X].
Qed.
Lemma bind_ok i v k elt e : Forall (fun p => W (snd p)) elt -> foks e -> foks (bind_elt i v k elt e).
Proof.
  intros H He. unfold bind_elt, foks. apply Forall_app. split; [apply Forall_map; exact H|]. constructor; [exact Logic.I|exact He].
Qed.
Definition sound (n : node) : Prop := lits n = true -> forall e s, foks e -> exec_node low n e = Ok s -> W s.
Lemma sound_list ns : Forall sound ns -> forallb lits ns = true -> forall e s, foks e -> exec_nodes low ns e = Ok s -> W s.
Proof.
  induction 1 as [|m ns Hm Hs IH]; intros F e s He X; cbn [exec_nodes] in X; [injection X as <-; reflexivity|].
  cbn [forallb] in F. apply andb_true_iff in F as [F1 F2]. destruct (exec_node low m e) as [u| |] eqn:U; [|discriminate X..]. cbn [bind] in X.
  destruct (exec_nodes low ns e) as [w| |] eqn:V; [|discriminate X..]. cbn [bind] in X. injection X as <-.
  apply W_app; [eapply Hm; eauto|eapply IH; eauto].
Qed.
Lemma field_get' e f v : field e f = Ok v -> mget e f = Some v.
Proof. unfold field. destruct (mget e f); [now intros [= <-]|discriminate]. Qed.
Lemma sound_every n : sound n.
Proof.
  induction n as [y|f|fn f|f n|c A B HA HB|i v f b Hb] using node_ind'; intros L e s He X.
  - cbn [exec_node] in X. injection X as <-. now apply W_const.
  - cbn [exec_node] in X. destruct (field e f) as [w| |] eqn:F; [|discriminate X..]. cbn [bind] in X. apply field_get', (foks_get _ _ _ He) in F.
    destruct w as [w|z|q|l]; cbn [show] in X; [injection X as <-; exact F|injection X as <-; apply W_itoa| |discriminate X].
    injection X as <-. destruct q; now apply W_const.
  - cbn [exec_node] in X. destruct (field e f) as [w| |] eqn:F; [|discriminate X..]. cbn [bind] in X. apply field_get', (foks_get _ _ _ He) in F.
    now apply (W_call fn w).
  - cbn [exec_node] in X. destruct (field e f) as [w| |] eqn:F; [|discriminate X..]. cbn [bind] in X. apply field_get', (foks_get _ _ _ He) in F.
    destruct w as [| | |l]; try discriminate X. destruct (nth_error l n) as [elt|] eqn:N; [|discriminate X].
    destruct (mget elt "") as [y|] eqn:M; [|discriminate X]. injection X as <-. apply nth_error_In in N. cbn [fok] in F. rewrite Forall_forall in F.
    apply F in N. rewrite Forall_forall in N. apply mget_In in M. now apply N in M.
  - change (exec_node low (NIf c A B) e) with (do t <- eval e c; if t then exec_nodes low A e else exec_nodes low B e) in X.
    destruct (eval e c) as [q| |]; [|discriminate X..]. cbn [bind] in X. cbn [lits] in L. apply andb_true_iff in L as [L1 L2].
    destruct q; [eapply (sound_list A)|eapply (sound_list B)]; eauto.
  - cbn [lits] in L. cbn [exec_node] in X. destruct (field e f) as [w| |] eqn:F; [|discriminate X..]. cbn [bind] in X. apply field_get', (foks_get _ _ _ He) in F.
    destruct w as [| | |l]; try discriminate X. cbn [fok] in F.
    match type of X with ?g l 0 = _ => assert (G : forall l k, g l k = exec_range low i v b e l k) by
      (clear; induction l as [|elt l IH]; intros k; [reflexivity|]; cbn [exec_range]; rewrite <- IH; reflexivity); rewrite G in X; clear G end.
    revert X. generalize 0 as k. revert s. induction F as [|elt l We Wl IHl]; intros s k X; cbn [exec_range] in X.
    { injection X as <-. reflexivity. }
    destruct (exec_nodes low b (bind_elt i v k elt e)) as [x1| |] eqn:X1; [|discriminate X..]. cbn [bind] in X.
    destruct (exec_range low i v b e l (S k)) as [x2| |] eqn:X2; [|discriminate X..]. cbn [bind] in X. injection X as <-.
    apply W_app; [|eauto]. eapply (sound_list b Hb L); [|exact X1]. now apply bind_ok.
Qed.
Lemma templates_basic : forallb (fun t => forallb lits (nodes false t) && forallb lits (nodes true t)) all_templates = true.
Proof. vm_compute. reflexivity. Qed.
Lemma exec_W x t e s : foks e -> exec_nodes low (nodes x t) e = Ok s -> W s.
Proof.
  apply sound_list; [apply Forall_forall; intros; apply sound_every|]. pose proof templates_basic as H. rewrite forallb_forall in H.
  specialize (H t (all_complete t)). apply andb_true_iff in H as [A B]. destruct x; assumption.
Qed.
End Ops.
