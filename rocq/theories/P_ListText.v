(** C73: the lists of a document, from the text to the HTML. *)
From Coq Require Import List String NArith ZArith Bool Lia.
From Verif Require Import GoBase GoLemmas Utf8 Types Attrs ListSpec Config Render Convert.
From Verif Require Import Peg PegGrammar PegDoc PegHost PegSym PegBlockSpec PegInlineSpec ConvertSpec P_ListHtml P_PegRun P_PegPara P_PegDocs P_PegNormal P_Convert.
Import ListNotations.
Local Open Scope string_scope.
Local Open Scope list_scope.

(** the next fragment is the list: its items with their marks and their lines; the parsing goes on after it *)
Theorem C73_list_parsed : forall X cls low white other, let H := go_host X cls low white other in unicode_ok H ->
  forall l k x e t ls items tail, item_line l k x -> starts_list l -> eol e t -> list_more white t ls items tail ->
  forall before s, p_errs s = false ->
  exists n0 before' s', p_errs s' = false /\ forall n, n0 <= n ->
    next H n (Pos before (l ++ e ++ t)) s = Some (NextOk H (elem (ListElements (map item_val ((k, x :: ls) :: items)))) (Pos before' tail) s').
Proof. intros X cls low white other H U l k x e t ls items tail Il St E M b s Es. eapply C65_block_verbatim; eauto; [now apply piece_list|intros (q & vs & Q); discriminate]. Qed.

(** a document that is a list *)
Theorem C73_converted : forall X cls low white other, unicode_ok (go_host X cls low white other) ->
  forall E setColumns (c : config) a l k x e t ls items hs,
  c_attrs c = Some a -> (forall n, In n neutral_names -> mget a n = None) -> c_wrap c = false ->
  item_line l k x -> starts_list l -> eol e t -> list_more white t ls items [] ->
  let its := (k, x :: ls) :: items in
  Forall2 (fun i h => exists r, characters (joined (snd i)) /\
    ordinary (cls "L") (cls "N") (macro_name (map fst (c_macros c))) None (joined (snd i)) r /\ item_html r h) its hs ->
  exists n0 a', forall n, n0 <= n -> convert X cls low white other E setColumns n c (l ++ e ++ t) =
    Ok (list_html [] (combine (map (fun i => marker_of_mark (fst i)) its) hs), "", a').
Proof.
  intros X cls low white other U E setColumns c a l k x e t ls items hs Ea Na Wr Il St Ee M its F.
  apply (C69_converted X cls low white other U E setColumns c a (l ++ e ++ t) [ListElements (map item_val its)] [list_html [] (combine (map (fun i => marker_of_mark (fst i)) its) hs)]); auto.
  - apply (doc_cons _ _ true (l ++ e ++ t) _ [] []); [|now apply piece_list|constructor].
    intros Q. destruct l as [|r [|r' l]]; [|destruct St as [_ []]|discriminate Q]. destruct St as [_ []].
  - apply all_cons; [apply s_list; [discriminate|exact F]|apply all_nil].
Qed.

(** * The HTML is a tree, with the texts of the items in order *)
Inductive list_shape : list string -> string -> Prop :=
| sh_list : forall m hs out, hs <> [] -> items_shape m hs out -> list_shape hs (list_start m ++ out ++ list_end m)%string
with items_shape : marker -> list string -> string -> Prop :=
| sh_nil : forall m, items_shape m [] ""
| sh_item : forall m h hs1 r hs2 out, lists_shape hs1 r -> items_shape m hs2 out ->
    items_shape m (h :: hs1 ++ hs2) (item_start ++ h ++ r ++ item_end ++ out)%string
with lists_shape : list string -> string -> Prop :=
| sh_none : lists_shape [] ""
| sh_more : forall hs1 o1 hs2 o2, list_shape hs1 o1 -> lists_shape hs2 o2 -> lists_shape (hs1 ++ hs2) (o1 ++ o2)%string.
Inductive unfinished : list marker -> list string -> string -> Prop :=
| un_nil : unfinished [] [] ""
| un_cons : forall ms hs out m hi oi h hr r, unfinished ms hs out -> items_shape m hi oi -> lists_shape hr r ->
    unfinished (m :: ms) (hs ++ hi ++ h :: hr) (out ++ list_start m ++ oi ++ item_start ++ h ++ r)%string.
Lemma items_snoc m hs out h hr r : items_shape m hs out -> lists_shape hr r -> items_shape m (hs ++ h :: hr) (out ++ item_start ++ h ++ r ++ item_end)%string.
Proof.
  intros I L. induction I as [m|m h' hs1 r' hs2 out L' I IH].
  - cbn [app append]. replace (h :: hr) with (h :: hr ++ []) by now rewrite app_nil_r. rewrite <- (GoLemmas.sapp_nil_r item_end). now apply sh_item; [|constructor].
  - rewrite <- app_comm_cons, <- app_assoc. rewrite !GoLemmas.sapp_assoc. now apply sh_item.
Qed.
Lemma lists_snoc hs r hs' r' : lists_shape hs r -> list_shape hs' r' -> lists_shape (hs ++ hs') (r ++ r')%string.
Proof.
  intros L B. induction L as [|hs1 o1 hs2 o2 B1 L IH].
  - cbn [app append]. rewrite <- (GoLemmas.sapp_nil_r r'), <- (app_nil_r hs'). now apply sh_more; [|constructor].
  - rewrite <- app_assoc, GoLemmas.sapp_assoc. now apply sh_more.
Qed.
Lemma attach_lists ms hs out hs' w : ms <> [] -> unfinished ms hs out -> lists_shape hs' w -> unfinished ms (hs ++ hs') (out ++ w)%string.
Proof.
  intros Ne Un0 W. destruct Un0 as [|ms' hs0 out0 m hi oi h hr r Un I L]; [congruence|]. rewrite <- !app_assoc, <- app_comm_cons, !GoLemmas.sapp_assoc. apply un_cons; [assumption..|].
  clear - L W. induction L as [|hs1 o1 hs2 o2 B L IH]; [exact W|]. rewrite <- app_assoc, GoLemmas.sapp_assoc. now apply sh_more.
Qed.
Lemma close_top m ms hs out : unfinished (m :: ms) hs out -> exists hs0 out0 hs1 o1, unfinished ms hs0 out0 /\ list_shape hs1 o1 /\ hs = hs0 ++ hs1 /\
  (out ++ item_end ++ list_end m = out0 ++ o1)%string.
Proof.
  intros Un. inversion Un as [|ms' hs0 out0 m' hi oi h hr r Un0 I L]; subst. eexists hs0, out0, (hi ++ h :: hr), _. split; [exact Un0|]. split; [|split; [reflexivity|]].
  - apply sh_list; [destruct hi; discriminate|]. apply items_snoc; eassumption.
  - now rewrite !GoLemmas.sapp_assoc.
Qed.
Lemma one_list hs o : list_shape hs o -> lists_shape hs o.
Proof. intros B. rewrite <- (app_nil_r hs), <- (GoLemmas.sapp_nil_r o). apply sh_more; [exact B|constructor]. Qed.
Lemma close_some m ms' ms : back_to m ms = Some ms' -> forall hs out, unfinished ms hs out ->
  unfinished ms' hs (out ++ lists_end (firstn (List.length ms - List.length ms') ms))%string.
Proof.
  induction ms as [|m1 ms IH]; intros Bk hs out Un; [discriminate Bk|]. cbn [back_to] in Bk. destruct (marker_eqb m m1).
  - injection Bk as <-. rewrite Nat.sub_diag. cbn [firstn lists_end map String.concat]. now rewrite GoLemmas.sapp_nil_r.
  - assert (List.length ms' <= List.length ms) as Le.
    { clear - Bk. revert Bk. induction ms as [|x ms IH]; [discriminate|]. cbn [back_to]. destruct (marker_eqb m x); [intros [= <-]; lia|]. intros B. specialize (IH B). cbn [List.length]. lia. }
    cbn [List.length]. rewrite Nat.sub_succ_l by exact Le. cbn [firstn]. rewrite lists_end_cons.
    destruct (close_top _ _ _ _ Un) as (hs0 & out0 & hs1 & o1 & Un0 & B & -> & Eo).
    replace (out ++ item_end ++ list_end m1 ++ lists_end (firstn (List.length ms - List.length ms') ms))%string with ((out0 ++ o1) ++ lists_end (firstn (List.length ms - List.length ms') ms))%string by (rewrite <- Eo; now rewrite !GoLemmas.sapp_assoc).
    apply (IH Bk). apply attach_lists; [destruct ms; discriminate|exact Un0|now apply one_list].
Qed.
Lemma close_every ms : ms <> [] -> forall hs out, unfinished ms hs out -> list_shape hs (out ++ lists_end ms)%string.
Proof.
  induction ms as [|m ms IH]; intros Ne hs out Un; [congruence|]. rewrite lists_end_cons. destruct (close_top _ _ _ _ Un) as (hs0 & out0 & hs1 & o1 & Un0 & B & -> & Eo).
  replace (out ++ item_end ++ list_end m ++ lists_end ms)%string with ((out0 ++ o1) ++ lists_end ms)%string by (rewrite <- Eo; now rewrite !GoLemmas.sapp_assoc).
  destruct ms as [|m1 ms].
  - inversion Un0; subst. cbn [app append lists_end map String.concat]. now rewrite GoLemmas.sapp_nil_r.
  - apply IH; [discriminate|]. apply attach_lists; [discriminate|exact Un0|now apply one_list].
Qed.
Lemma html_shape items : forall ms hs out, unfinished ms hs out -> ms <> [] \/ items <> [] -> list_shape (hs ++ map snd items) (out ++ list_html ms items)%string.
Proof.
  induction items as [|[m h] items IH]; intros ms hs out Un Ne.
  - cbn [map list_html]. rewrite app_nil_r. apply close_every; [now destruct Ne|exact Un].
  - cbn [map snd list_html]. change (h :: map snd items) with ([h] ++ map snd items). rewrite app_assoc. destruct (back_to m ms) as [ms'|] eqn:Bk.
    + pose proof (close_some m ms' ms Bk hs out Un) as Un'. destruct (back_to_head _ _ _ Bk) as (r & ->).
      inversion Un' as [|ms0 hs0 out0 m' hi oi h' hr w Un0 I L E1 E2 E3]; subst.
      assert (unfinished (m :: r) (hs0 ++ (hi ++ h' :: hr) ++ [h]) (out0 ++ list_start m ++ (oi ++ item_start ++ h' ++ w ++ item_end) ++ item_start ++ h ++ "")%string) as Un2.
      { apply un_cons; [exact Un0|now apply items_snoc|constructor]. }
      specialize (IH _ _ _ Un2 ltac:(left; discriminate)). rewrite GoLemmas.sapp_nil_r in IH. rewrite !app_assoc in *.
      rewrite <- (GoLemmas.sapp_assoc out). cbn [List.length] in *. rewrite <- E3. rewrite !GoLemmas.sapp_assoc in *. rewrite <- ?app_assoc in *. cbn [app] in *. cbn [append]. rewrite !GoLemmas.sapp_assoc. exact IH.
    + cbn zeta. pose proof (un_cons ms hs out (adjusted ms m) [] "" h [] "" Un (sh_nil _) sh_none) as Un2. cbn [app append] in Un2. rewrite GoLemmas.sapp_nil_r in Un2.
      specialize (IH _ _ _ Un2 ltac:(left; discriminate)). now rewrite !GoLemmas.sapp_assoc in *.
Qed.
(** every list and every item that is opened is closed, inside what it is opened in, and the texts are written once, in the order of the source *)
Theorem C73_well_formed : forall items, items <> [] -> list_shape (map snd items) (list_html [] items).
Proof. intros items Ne. exact (html_shape items [] [] "" un_nil (or_intror Ne)). Qed.

(** * A document *)
Lemma mark_plain m k : item_mark m k -> m <> [] /\ Forall (fun r => ~ blank r) m /\ In (last m 0%N) [45; 42; 46; 41]%N.
Proof.
  assert (forall n r, ~ blank r -> Forall (fun r => ~ blank r) (repeat r n)) as Rp by (intros n r Nb; induction n; constructor; auto).
  assert (forall w r, Forall (fun r => ~ blank r) w -> ~ blank r -> In r [45; 42; 46; 41]%N -> w ++ [r] <> [] /\ Forall (fun r => ~ blank r) (w ++ [r]) /\ In (last (w ++ [r]) 0%N) [45; 42; 46; 41]%N) as Sn.
  { intros w r F Nb I. split; [destruct w; discriminate|]. split; [apply Forall_app; repeat constructor; assumption|]. now rewrite last_last. }
  assert (forall a b r, (32 < a)%N -> between a b r -> ~ blank r) as Bt by (intros a b r La (L1 & L2) [-> | ->]; lia).
  assert (forall r l, In r l -> ~ In 32%N l -> ~ In 9%N l -> ~ blank r) as Bl by (intros r l I N1 N2 [-> | ->]; contradiction).
  intros M. destruct M as [|n b I|n s I|w Ne F|r B|r B|w Ne F|w Ne F].
  - apply (Sn []); [constructor|intros [Q|Q]; discriminate Q|cbn; tauto].
  - cbv [In] in I. repeat (destruct I as [I|I]; [injection I as <- <-; (split; [discriminate|split; [apply Rp; intros [Q|Q]; discriminate Q|cbn; tauto]])|]). destruct I.
  - cbv [In] in I. repeat (destruct I as [I|I]; [injection I as <- <-; (split; [discriminate|split; [apply Rp; intros [Q|Q]; discriminate Q|cbn; tauto]])|]). destruct I.
  - apply Sn; [|intros [Q|Q]; discriminate Q|cbn; tauto]. eapply Forall_impl; [|exact F]. intros r. apply Bt. reflexivity.
  - apply Sn; [repeat constructor; eapply Bt; [|exact B]; reflexivity|intros [Q|Q]; discriminate Q|cbn; tauto].
  - apply Sn; [repeat constructor; eapply Bt; [|exact B]; reflexivity|intros [Q|Q]; discriminate Q|cbn; tauto].
  - apply Sn; [|intros [Q|Q]; discriminate Q|cbn; tauto]. eapply Forall_impl; [|exact F]. intros r I. eapply Bl; [exact I|..]; vm_compute; intros Q; repeat destruct Q as [Q|Q]; try discriminate Q; auto.
  - apply Sn; [|intros [Q|Q]; discriminate Q|cbn; tauto]. eapply Forall_impl; [|exact F]. intros r I. eapply Bl; [exact I|..]; vm_compute; intros Q; repeat destruct Q as [Q|Q]; try discriminate Q; auto.
Qed.
(** the first word of the line is no mark *)
Lemma split_blank : forall (a b : list rune) z u v, Forall (fun r => ~ blank r) a -> Forall (fun r => ~ blank r) b -> blank z -> match v with [] => True | y :: _ => blank y end ->
  a ++ z :: u = b ++ v -> a = b.
Proof.
  induction a as [|x a IH]; intros b z u v Fa Fb Bz Bv E.
  - destruct b as [|y b]; [reflexivity|]. injection E as <- _. inversion Fb; contradiction.
  - destruct b as [|y b].
    + cbn [app] in E. subst v. inversion Fa; contradiction.
    + injection E as <- E. f_equal. inversion Fa; inversion Fb; subst. eapply IH; eassumption.
Qed.
Lemma strip_eq : forall (a b : list rune) u v, blanks a -> blanks b -> match u with [] => True | y :: _ => ~ blank y end -> match v with [] => True | y :: _ => ~ blank y end -> a ++ u = b ++ v -> u = v.
Proof.
  induction a as [|x a IH]; intros b u v Ba Bb Nu Nv E.
  - destruct b as [|y b]; [exact E|]. cbn [app] in E. subst u. inversion Bb; contradiction.
  - destruct b as [|y b].
    + cbn [app] in E. subst v. inversion Ba; contradiction.
    + injection E as <- E. inversion Ba; inversion Bb; subst. eapply IH; eassumption.
Qed.
Lemma no_item_word : forall ws w t, blanks ws -> w <> [] -> Forall (fun r => ~ blank r) w -> match t with [] => True | y :: _ => blank y end ->
  ~ In (last w 0%N) [45; 42; 46; 41]%N -> no_item (ws ++ w ++ t).
Proof.
  intros ws w t Bw Nw Fw Bt Nl (ws' & m & k & z & u & B' & M & Bz & E). destruct (mark_plain m k M) as (Nm & Fm & Im).
  apply strip_eq in E; [|assumption..| |].
  - symmetry in E. apply split_blank in E; try assumption. now subst m.
  - destruct w as [|r w]; [congruence|]. now inversion Fw.
  - destruct m as [|r m]; [congruence|]. now inversion Fm.
Qed.
Definition a_list : string :=
"* R&D
  go -> on
.. two

* three
".
Definition its_html : string :=
"<div class=""ulist"">
<ul>
<li>
<p>R&amp;D
go &#8594; on</p>
<div class=""olist loweralpha"">
<ol class=""loweralpha"" type=""a"">
<li>
<p>two</p>
</li>
</ol>
</div>
</li>
<li>
<p>three</p>
</li>
</ul>
</div>
".
Theorem C73_run : html_written a_list = Ok its_html.
Proof. vm_compute. reflexivity. Qed.
(** the hypotheses hold of it *)
(** a line whose first and last characters are ASCII letters or similar *)
Lemma no_white_ends t : (forall p, In p white_space -> has_prefix t p = false) -> (forall p, In p white_space -> has_suffix t p = false) -> forall p u, In p white_space -> t <> (p ++ u)%string /\ t <> (u ++ p)%string.
Proof.
  intros A B p u I. split; intros ->.
  - specialize (A p I). assert (has_prefix (p ++ u)%string p = true) as Q by (apply has_prefix_iff; eauto). congruence.
  - specialize (B p I). assert (has_suffix (u ++ p)%string p = true) as Q by (apply has_suffix_iff; eauto). congruence.
Qed.
Ltac no_white := apply no_white_ends; let p := fresh in let I := fresh in intros p I; unfold white_space in I; cbn [map In] in I; repeat (destruct I as [<-|I]; [vm_compute; reflexivity|]); destruct I.
Theorem C73_hypotheses : exists a l k x e t ls items hs, c_attrs demo_config = Some a /\ (forall n, In n neutral_names -> mget a n = None) /\ c_wrap demo_config = false /\
  unicode_ok demo_go /\ item_line l k x /\ starts_list l /\ eol e t /\ list_more demo_white t ls items [] /\ Peg.R a_list = l ++ e ++ t /\
  Forall2 (fun i h => exists r, characters (joined (snd i)) /\
    ordinary (demo_cls "L") (demo_cls "N") (macro_name (map fst (c_macros demo_config))) None (joined (snd i)) r /\ item_html r h) ((k, x :: ls) :: items) hs /\
  list_html [] (combine (map (fun i => marker_of_mark (fst i)) ((k, x :: ls) :: items)) hs) = its_html.
Proof.
  eexists _, (Peg.R "* R&D"), (Bullet "1asterisk"), (Peg.R "R&D"), [10%N], _, [Peg.R "  go -> on"], [(Number "loweralpha", [Peg.R "two"]); (Bullet "1asterisk", [Peg.R "three"])],
    ["<p>R&amp;D" ++ LF ++ "go &#8594; on</p>" ++ LF; "<p>two</p>" ++ LF; "<p>three</p>" ++ LF]%string.
  split; [reflexivity|]. split; [intros k I; cbn in I; repeat destruct I as [<-|I]; try reflexivity; destruct I|]. split; [reflexivity|]. split; [exact demo_go_unicode|].
  split; [|split; [|split; [|split; [|split; [vm_compute; reflexivity|split]]]]].
  - exists [], (repeat 42%N 1), [32%N]. split; [reflexivity|]. split; [constructor|]. split; [apply mark_stars; cbn; tauto|]. split; [is_blanks|]. split; [discriminate|]. split; [is_line|].
    split; [intros [Q|Q]; discriminate Q|discriminate].
  - split; [|cbn; split; [intros [Q|Q]; discriminate Q|split; [discriminate|intros [(Q & _)|[(Q & _)|(Q & _)]]; exfalso; apply Q; reflexivity]]].
    intros (w & ws & I & B & E). cbv [thematic_breaks In] in I. repeat (destruct I as [<-|I]; [discriminate E|]). destruct I.
  - lf.
  - refine (more_line _ (Peg.R "  go -> on") [10%N] (Peg.R ".. two

* three
") [] _ _ _ _ _).
    + split; [split; [is_line|split; [exists 103%N; split; [cbn; tauto|reflexivity]|cbn; intros Q; repeat destruct Q as [Q|Q]; try discriminate Q; auto]]|].
      split; [|split; [apply no_colons_dec; reflexivity|exact Logic.I]].
      apply (no_item_word (Peg.R "  ") (Peg.R "go") (Peg.R " -> on")); [is_blanks|discriminate|repeat constructor; intros [Q|Q]; discriminate Q|now left|].
      cbn. intros Q. repeat destruct Q as [Q|Q]; try discriminate Q; auto.
    + lf.
    + refine (more_item _ _ (Peg.R ".. two") (Number "loweralpha") (Peg.R "two") [10%N] (Peg.R "
* three
") [] _ _ _ _ _ _); [constructor| |lf|].
      * exists [], (repeat 46%N 2), [32%N]. split; [reflexivity|]. split; [constructor|]. split; [apply mark_dots; cbn; tauto|]. split; [is_blanks|]. split; [discriminate|]. split; [is_line|].
        split; [intros [Q|Q]; discriminate Q|exact Logic.I].
      * refine (more_item _ _ (Peg.R "* three") (Bullet "1asterisk") (Peg.R "three") [10%N] [] [] _ _ _ _ _ _); [|  |lf|constructor].
        { refine (one_blank_line [] [10%N] _ _ _ _ _ _); [constructor|discriminate|lf|constructor]. }
        exists [], (repeat 42%N 1), [32%N]. split; [reflexivity|]. split; [constructor|]. split; [apply mark_stars; cbn; tauto|]. split; [is_blanks|]. split; [discriminate|]. split; [is_line|].
        split; [intros [Q|Q]; discriminate Q|discriminate].
  - apply Forall2_cons; [|apply Forall2_cons; [|apply Forall2_cons; [|apply Forall2_nil]]]; eexists; (split; [repeat constructor|split]).
    + match goal with |- ordinary _ _ _ _ ?t _ => let v := eval vm_compute in t in change t with v end.
      wd "R"%string. sc. wd "D"%string. ch. eapply (ord_blanks _ _ _ _ [32%N] 32%N); [repeat constructor|intros r Er; apply N.eqb_eq in Er; subst r; intros [Q|Q]; discriminate Q|].
      wd "go"%string. sp. sy "->"%string. sp. wd "on"%string. apply ord_nil.
    + eexists _, ["R&amp;D"; "  go &#8594; on"], ["R&amp;D"; "go &#8594; on"]. split; [repeat (apply Forall2_cons || apply Forall2_nil); try apply w_char; try apply w_amp; apply w_symbol; cbn; tauto|].
      split; [discriminate|]. split; [repeat constructor; discriminate|]. split; [vm_compute; reflexivity|]. split; [|reflexivity].
      constructor; [|constructor; [|constructor]]; [exists []|exists [32%N; 32%N]]; (split; [reflexivity|split; [is_blanks|no_white]]).
    + match goal with |- ordinary _ _ _ _ ?t _ => let v := eval vm_compute in t in change t with v end. wd "two"%string. apply ord_nil.
    + eexists _, ["two"], ["two"]. split; [repeat (apply Forall2_cons || apply Forall2_nil); apply w_char|].
      split; [discriminate|]. split; [repeat constructor; discriminate|]. split; [vm_compute; reflexivity|]. split; [|reflexivity].
      constructor; [|constructor]. exists []. split; [reflexivity|split; [is_blanks|no_white]].
    + match goal with |- ordinary _ _ _ _ ?t _ => let v := eval vm_compute in t in change t with v end. wd "three"%string. apply ord_nil.
    + eexists _, ["three"], ["three"]. split; [repeat (apply Forall2_cons || apply Forall2_nil); apply w_char|].
      split; [discriminate|]. split; [repeat constructor; discriminate|]. split; [vm_compute; reflexivity|]. split; [|reflexivity].
      constructor; [|constructor]. exists []. split; [reflexivity|split; [is_blanks|no_white]].
  - vm_compute. reflexivity.
Qed.
(** * Items that are not items *)
(** "12. a" and "ii) a" are items after another item, but they do not start a list *)
Theorem C73_number_refuted : html_written "1. a
12. b
" = Ok "<div class=""olist arabic"">
<ol class=""arabic"">
<li>
<p>a</p>
</li>
<li>
<p>b</p>
</li>
</ol>
</div>
" /\ html_written "12. b
" = Ok (paragraph_html "12. b").
Proof. split; vm_compute; reflexivity. Qed.
Print Assumptions C73_list_parsed.
Print Assumptions C73_converted.
Print Assumptions C73_well_formed.
Print Assumptions C73_hypotheses.
