(** Properties C19, C20: substitution lists. *)
From Verif Require Import GoBase GoLemmas Types Attrs Subs SubsSpec.

Fixpoint has_char (c : ascii) (s : string) : bool :=
  match s with EmptyString => false | String d r => Ascii.eqb d c || has_char c r end.

Lemma split_char_no sep s : has_char sep s = false -> split_char sep s = [s].
Proof.
  induction s as [|c s IH]; cbn; [reflexivity|]. intros H. apply orb_false_iff in H. destruct H as [H1 H2].
  now rewrite H1, IH.
Qed.
Lemma split_char_app sep a b : has_char sep a = false ->
  split_char sep (a ++ String sep b)%string = a :: split_char sep b.
Proof.
  induction a as [|c a IH]; cbn.
  - now rewrite Ascii.eqb_refl.
  - intros H. apply orb_false_iff in H. destruct H as [H1 H2]. now rewrite H1, IH.
Qed.
Lemma split_char_join sep l : l <> [] -> Forall (fun s => has_char sep s = false) l ->
  split_char sep (join (String sep "") l) = l.
Proof.
  induction l as [|a l IH]; [congruence|]. intros _ F. inversion F as [|? ? F1 F2]; subst.
  destruct l as [|b l].
  - cbn. now apply split_char_no.
  - change (join (String sep "") (a :: b :: l)) with (a ++ String sep (join (String sep "") (b :: l)))%string.
    rewrite split_char_app by assumption. rewrite IH; [reflexivity|discriminate|assumption].
Qed.

Lemma has_char_app c a b : has_char c (a ++ b)%string = has_char c a || has_char c b.
Proof. induction a as [|x a IH]; cbn; [reflexivity|]. now rewrite IH, orb_assoc. Qed.

Ltac eqb_case s n := destruct (String.eqb_spec s n) as [E|]; [try subst s|].

Lemma members_known n : members n <> None ->
  In n ["normal"; "verbatim"; "none"; "attributes"; "macros"; "quotes"; "replacements"; "post_replacements";
        "callouts"; "specialchars"].
Proof.
  intros H.
  destruct (in_dec string_dec n ["normal"; "verbatim"; "none"; "attributes"; "macros"; "quotes";
     "replacements"; "post_replacements"; "callouts"; "specialchars"]) as [I|I]; [exact I|].
  exfalso. apply H. cbn in I.
  unfold members.
  repeat match goal with
  | |- (match ?s with "" => _ | String _ _ => _ end) = None => destruct s; try reflexivity
  | |- (match ?c with Ascii _ _ _ _ _ _ _ _ => _ end) = None => destruct c
  | |- (if ?b then _ else _) = None => destruct b; try reflexivity
  end; exfalso; apply I; tauto.
Qed.

Lemma substitutionsFor_members n :
  substitutionsFor n = match members n with Some l => Ok l | None => Err "unsupported substitution" end.
Proof.
  destruct (members n) as [l|] eqn:E.
  - assert (K : members n <> None) by congruence. apply members_known in K.
    cbn in K. repeat destruct K as [<-|K]; try (injection E as <-; reflexivity). destruct K.
  - unfold substitutionsFor.
    destruct (String.eqb_spec n "normal") as [->|]; [discriminate|].
    destruct (String.eqb_spec n "none") as [->|]; [discriminate|].
    destruct (String.eqb_spec n "verbatim") as [->|]; [discriminate|].
    destruct (existsb _ _) eqn:X; [|reflexivity].
    exfalso. apply existsb_exists in X. destruct X as (x & I & Hx). apply String.eqb_eq in Hx. subst x.
    cbn in I. repeat destruct I as [<-|I]; try discriminate. destruct I.
Qed.

(** how the loop reads the entries *)
Definition first_is (s : string) (c : ascii) : bool :=
  match s with String d _ => Ascii.eqb d c | "" => false end.

Lemma known_shape n : members n <> None ->
  has_char ","%char n = false /\ has_char "+"%char n = false /\ first_is n "-" = false /\ n <> "".
Proof.
  intros K. apply members_known in K. cbn in K.
  repeat destruct K as [<-|K]; try (repeat split; (reflexivity || discriminate)). destruct K.
Qed.

Lemma has_prefix_char s c : has_prefix s (String c "") = first_is s c.
Proof. destruct s as [|d s]; cbn; [reflexivity|]. now destruct (Ascii.eqb d c). Qed.
Lemma has_suffix_char_no s c : has_char c s = false -> has_suffix s (String c "") = false.
Proof.
  intros H. destruct (has_suffix s (String c "")) eqn:E; [|reflexivity].
  apply has_suffix_iff in E. destruct E as [r ->]. rewrite has_char_app in H. cbn in H.
  now rewrite Ascii.eqb_refl, orb_true_r in H.
Qed.
Lemma first_is_no s c : has_char c s = false -> first_is s c = false.
Proof. destruct s as [|d s]; cbn; [reflexivity|]. intros H. now apply orb_false_iff in H. Qed.

(** one entry *)
Definition entry_step (seq : list string) (e : entry) : result (list string) :=
  match members (entry_name e) with
  | None => Err "unsupported substitution"
  | Some l => Ok (match e with
                  | Plain _ | Append _ => seq ++ l
                  | Prepend _ => l ++ seq
                  | Remove _ => filter (fun k => negb (existsb (String.eqb k) l)) seq
                  end)
  end.


Lemma fold_remove l seq :
  fold_left (fun sq toRemove => filter (fun x => negb (String.eqb x toRemove)) sq) l seq =
  filter (fun k => negb (existsb (String.eqb k) l)) seq.
Proof.
  revert seq. induction l as [|a l IH]; intros seq; cbn [fold_left existsb].
  - induction seq as [|x s IHs]; [reflexivity|]. cbn. f_equal. exact IHs.
  - rewrite IH. clear IH. induction seq as [|x s IHs]; cbn; [reflexivity|].
    destruct (String.eqb x a); cbn; [exact IHs|]. destruct (existsb (String.eqb x) l); cbn; now rewrite IHs.
Qed.

Lemma has_suffix_char_app a n c : has_char c n = false -> n <> "" -> has_suffix (a ++ n) (String c "") = false.
Proof.
  intros H N. destruct (has_suffix (a ++ n) (String c "")) eqn:E; [|reflexivity].
  apply has_suffix_iff in E. destruct E as [r E]. exfalso. revert n r E H N.
  induction a as [|x a IH]; intros n r E H N; cbn in E.
  - subst n. rewrite has_char_app in H. cbn in H. now rewrite Ascii.eqb_refl, orb_true_r in H.
  - destruct r as [|y r]; cbn in E.
    + injection E as _ E. destruct a, n; cbn in E; congruence.
    + injection E as _ E. now apply (IH n r).
Qed.

Lemma trim_prefix_app p s : trim_prefix (p ++ s) p = s.
Proof.
  unfold trim_prefix. replace (has_prefix (p ++ s) p) with true.
  - apply sdrop_app.
  - symmetry. apply has_prefix_iff. eauto.
Qed.

Lemma print_entry_tests e : members (entry_name e) <> None ->
  has_suffix (print_entry e) "+" = (match e with Prepend _ => true | _ => false end) /\
  (match e with Prepend _ => True | _ =>
    has_prefix (print_entry e) "+" = (match e with Append _ => true | _ => false end) /\
    has_prefix (print_entry e) "-" = (match e with Remove _ => true | _ => false end) end).
Proof.
  intros K. destruct (known_shape _ K) as (Hc & Hp & Hm & Hn).
  destruct e as [n|n|n|n]; cbn [entry_name print_entry] in *.
  - rewrite has_suffix_char_no, !has_prefix_char, Hm, first_is_no by assumption. auto.
  - rewrite has_suffix_char_app by assumption. rewrite !has_prefix_char. cbn. auto.
  - split; [|exact I]. apply has_suffix_iff. eauto.
  - rewrite has_suffix_char_app by assumption. rewrite !has_prefix_char. cbn. auto.
Qed.

Lemma sub_step_print seq e : members (entry_name e) <> None ->
  sub_step seq (print_entry e) = entry_step seq e.
Proof.
  intros K. destruct (print_entry_tests e K) as (T1 & T2). unfold sub_step, entry_step. rewrite T1.
  destruct e as [n|n|n|n]; cbn [entry_name] in *.
  - destruct T2 as [-> ->]. unfold sub_append. cbn [print_entry]. rewrite substitutionsFor_members.
    now destruct (members n).
  - destruct T2 as [-> _]. unfold sub_append. cbn [print_entry]. rewrite trim_prefix_app.
    rewrite substitutionsFor_members. now destruct (members n).
  - unfold sub_prepend. cbn [print_entry]. rewrite trim_suffix_app. rewrite substitutionsFor_members.
    now destruct (members n).
  - destruct T2 as [-> ->]. unfold sub_remove. cbn [print_entry]. rewrite trim_prefix_app.
    rewrite substitutionsFor_members. destruct (members n); cbn; [|reflexivity]. now rewrite fold_remove.
Qed.

Definition known_entries (es : list entry) : Prop := Forall (fun e => members (entry_name e) <> None) es.

Lemma keep_cons e r l :
  keep (e :: r) l = keep r (match e with
                            | Remove n => filter (fun k => negb (existsb (String.eqb k) (members0 n))) l
                            | _ => l end).
Proof.
  unfold keep. destruct e as [n|n|n|n]; try reflexivity.
  induction l as [|x l IH]; [reflexivity|].
  assert (X : removed (Remove n :: r) x = existsb (String.eqb x) (members0 n) || removed r x) by reflexivity.
  cbn [filter]. rewrite X, IH. destruct (existsb (String.eqb x) (members0 n)); cbn [orb negb]; [reflexivity|].
  cbn [filter]. now destruct (removed r x).
Qed.
Lemma keep_app r a b : keep r (a ++ b) = keep r a ++ keep r b.
Proof. apply filter_app. Qed.

Lemma sub_loop_print es : known_entries es -> forall seq,
  sub_loop seq (map print_entry es) = Ok (in_front es ++ keep es seq ++ behind es).
Proof.
  induction es as [|e es IH]; intros K seq; cbn [map sub_loop].
  - f_equal. cbn. unfold keep. rewrite app_nil_r. induction seq as [|x s IHs]; [reflexivity|].
    cbn. f_equal. exact IHs.
  - inversion K as [|? ? K1 K2]; subst. rewrite sub_step_print by assumption. unfold entry_step.
    destruct (members (entry_name e)) as [l|] eqn:M; [|congruence]. cbn [bind].
    rewrite IH by assumption. f_equal. rewrite keep_cons.
    destruct e as [n|n|n|n]; cbn [entry_name in_front behind] in *;
      unfold members0; rewrite M, ?keep_app, <- ?app_assoc; reflexivity.
Qed.

Lemma allIncremental_print es : known_entries es ->
  allIncremental (map print_entry es) = forallb incremental es.
Proof.
  intros K. unfold allIncremental. induction K as [|e es K1 K2 IH]; cbn [map forallb]; [reflexivity|].
  f_equal; [|exact IH]. destruct (print_entry_tests e K1) as (T1 & T2). rewrite T1.
  destruct e; cbn [incremental]; first [rewrite (proj1 T2), (proj2 T2); reflexivity | idtac].
  now rewrite orb_true_r.
Qed.

Lemma print_no_comma es : known_entries es -> Forall (fun s => has_char ","%char s = false) (map print_entry es).
Proof.
  intros K. induction K as [|e es K1 K2 IH]; cbn [map]; constructor; auto.
  destruct (known_shape _ K1) as (Hc & _). destruct e as [n|n|n|n]; cbn [print_entry entry_name] in *; auto.
  rewrite has_char_app, Hc. reflexivity.
Qed.

(** ** C19: the meaning of the [subs] attribute.  [es]: any non-empty list of entries with known names;
    the block [b] and its other attributes are arbitrary. *)
Theorem C19_meaning :
  forall fmtv b attrs es, es <> [] -> known_entries es ->
  mget attrs "subs" = Some (VStr (join "," (map print_entry es))) ->
  newSubstitutions fmtv b attrs = Ok (meaning es (defaultSubstitutions fmtv b)).
Proof.
  intros fmtv b attrs es N K H. unfold newSubstitutions, getAsString, AttrSubstitutions. rewrite H.
  rewrite split_char_join; [|now destruct es|now apply print_no_comma].
  rewrite allIncremental_print by assumption. rewrite sub_loop_print by assumption.
  unfold meaning. now destruct (forallb incremental es).
Qed.
Print Assumptions C19_meaning.

(** a plain list means the substitutions listed, in order *)
Theorem C19_plain_list :
  forall fmtv b attrs names, names <> [] -> Forall (fun n => members n <> None) names ->
  mget attrs "subs" = Some (VStr (join "," names)) ->
  newSubstitutions fmtv b attrs = Ok (List.concat (map members0 names)).
Proof.
  intros fmtv b attrs names N K H.
  rewrite (C19_meaning fmtv b attrs (map Plain names)).
  - f_equal. unfold meaning.
    replace (forallb incremental (map Plain names)) with false by (destruct names; [congruence|reflexivity]).
    assert (R : forall l k, removed (map Plain l) k = false) by (induction l; cbn; auto).
    assert (KE : forall l x, keep (map Plain l) x = x).
    { intros l x. unfold keep. induction x as [|y x IH]; [reflexivity|]. cbn [filter]. rewrite R. cbn [negb].
      now rewrite IH. }
    assert (FR : forall l, in_front (map Plain l) = []) by (induction l; cbn; auto).
    assert (BE : forall l, behind (map Plain l) = List.concat (map members0 l)).
    { induction l as [|n l IH]; [reflexivity|]. cbn [map behind List.concat]. now rewrite KE, IH. }
    now rewrite KE, FR, BE.
  - destruct names; [congruence|discriminate].
  - unfold known_entries. rewrite Forall_map. exact K.
  - rewrite map_map. cbn. now rewrite map_id.
Qed.
Print Assumptions C19_plain_list.

(** the accepted texts are exactly the comma separated lists of entries with known names; everything
    else is an error, never a crash *)
Lemma sub_step_ok seq s seq' : sub_step seq s = Ok seq' ->
  exists e, members (entry_name e) <> None /\ print_entry e = s.
Proof.
  unfold sub_step. intros H.
  destruct (has_suffix s "+") eqn:T1.
  - apply has_suffix_iff in T1. destruct T1 as [n ->]. exists (Prepend n). cbn. split; [|reflexivity].
    rewrite trim_suffix_app in H. unfold sub_prepend in H. rewrite substitutionsFor_members in H.
    destruct (members n); [discriminate|discriminate H].
  - destruct (has_prefix s "+") eqn:T2; [|destruct (has_prefix s "-") eqn:T3].
    + apply has_prefix_iff in T2. destruct T2 as [n ->]. exists (Append n). cbn. split; [|reflexivity].
      rewrite trim_prefix_app in H. unfold sub_append in H. rewrite substitutionsFor_members in H.
      destruct (members n); [discriminate|discriminate H].
    + apply has_prefix_iff in T3. destruct T3 as [n ->]. exists (Remove n). cbn. split; [|reflexivity].
      rewrite trim_prefix_app in H. unfold sub_remove in H. rewrite substitutionsFor_members in H.
      destruct (members n); [discriminate|discriminate H].
    + exists (Plain s). cbn. split; [|reflexivity].
      unfold sub_append in H. rewrite substitutionsFor_members in H.
      destruct (members s); [discriminate|discriminate H].
Qed.
Lemma sub_loop_ok items : forall seq seq', sub_loop seq items = Ok seq' ->
  exists es, known_entries es /\ map print_entry es = items.
Proof.
  induction items as [|s items IH]; intros seq seq' H; cbn [sub_loop] in H.
  - exists []. split; [constructor|reflexivity].
  - destruct (sub_step seq s) as [q| |] eqn:E; [|discriminate|discriminate]. cbn [bind] in H.
    destruct (sub_step_ok _ _ _ E) as (e & Ke & <-). destruct (IH _ _ H) as (es & Kes & <-).
    exists (e :: es). split; [now constructor|reflexivity].
Qed.
Lemma sub_loop_no_panic items : forall seq m, sub_loop seq items <> Panic m.
Proof.
  induction items as [|s items IH]; intros seq m H; cbn [sub_loop] in H; [discriminate|].
  destruct (sub_step seq s) as [q| |] eqn:E; cbn [bind] in H; [now apply IH in H|discriminate|].
  unfold sub_step, sub_prepend, sub_append, sub_remove in E.
  repeat match type of E with
    | (if ?b then _ else _) = _ => destruct b
    end; rewrite substitutionsFor_members in E; destruct (members _); discriminate.
Qed.

Theorem C19_unknown_is_error :
  forall fmtv b attrs text, mget attrs "subs" = Some (VStr text) ->
  ((exists seq, newSubstitutions fmtv b attrs = Ok seq) <->
   (exists es, es <> [] /\ known_entries es /\ text = join "," (map print_entry es))) /\
  (forall m, newSubstitutions fmtv b attrs <> Panic m).
Proof.
  intros fmtv b attrs text H. split; [split|].
  - intros [seq S]. unfold newSubstitutions, getAsString, AttrSubstitutions in S. rewrite H in S.
    apply sub_loop_ok in S. destruct S as (es & K & M). exists es. split; [|split; [exact K|]].
    + intros ->. cbn in M. symmetry in M. now apply split_char_nonempty in M.
    + rewrite M. symmetry. apply join_split_char.
  - intros (es & N & K & ->). eexists. apply C19_meaning with (es := es); assumption.
  - intros m. unfold newSubstitutions, getAsString, AttrSubstitutions. rewrite H. apply sub_loop_no_panic.
Qed.
Print Assumptions C19_unknown_is_error.

(** the defaults: without [subs], or when all the entries are incremental, per kind of block *)
Theorem C19_defaults :
  forall fmtv attrs elements,
  (forall k, In k ["example"; "quote"; "verse"; "sidebar"; "markdown-quote"; "open"] ->
     defaultSubstitutions fmtv (DelimitedBlock k attrs elements) = members0 "normal") /\
  (forall k, In k ["comment"; "pass"] ->
     defaultSubstitutions fmtv (DelimitedBlock k attrs elements) = members0 "none") /\
  (forall k, In k ["listing"; "literal"; "fenced"; "source"] ->
     defaultSubstitutions fmtv (DelimitedBlock k attrs elements) = members0 "verbatim") /\
  (mget attrs "style" = None ->
     defaultSubstitutions fmtv (Paragraph attrs elements) = members0 "normal") /\
  (mget attrs "style" = Some (VStr "listing") ->
     defaultSubstitutions fmtv (Paragraph attrs elements) = members0 "verbatim") /\
  (mget attrs "subs" = None -> forall b, newSubstitutions fmtv b attrs = Ok (defaultSubstitutions fmtv b)).
Proof.
  intros fmtv attrs elements. repeat split.
  - intros k I. cbn in I. repeat destruct I as [<-|I]; try reflexivity. destruct I.
  - intros k I. cbn in I. repeat destruct I as [<-|I]; try reflexivity. destruct I.
  - intros k I. cbn in I. repeat destruct I as [<-|I]; try reflexivity. destruct I.
  - intros H. unfold defaultSubstitutions, getAsStringD, AttrStyle. rewrite H. reflexivity.
  - intros H. unfold defaultSubstitutions, getAsStringD, AttrStyle. rewrite H. reflexivity.
  - intros H b. unfold newSubstitutions, getAsString, AttrSubstitutions. now rewrite H.
Qed.
Print Assumptions C19_defaults.

(** the words "without repetition" of C19 do not hold *)
(** Headers get the normal substitutions without post-replacements, values of attributes moreover without macros; as in the normal
    ones, the replacement of attribute references comes before all the others, passthroughs excepted. *)
Theorem C19_headers_and_attributes :
  (forall k, In k headerSubstitutions <-> In k (members0 "normal") /\ k <> "post_replacements") /\
  (forall k, In k attributeSubstitutions <-> In k (members0 "normal") /\ k <> "post_replacements" /\ k <> "macros") /\
  (forall l, In l [members0 "normal"; headerSubstitutions; attributeSubstitutions] -> exists r, l = "inline_passthrough" :: "attributes" :: r).
Proof.
  split; [|split].
  - intros k. vm_compute. intuition (subst; try discriminate; auto 10).
  - intros k. vm_compute. intuition (subst; try discriminate; auto 10).
  - intros l [<-|[<-|[<-|[]]]]; eexists; reflexivity.
Qed.
Print Assumptions C19_headers_and_attributes.

Theorem C19_repetition_refuted :
  exists fmtv b attrs seq, newSubstitutions fmtv b attrs = Ok seq /\ ~ NoDup seq.
Proof.
  exists (fun _ => ""), (Paragraph [] []), [("subs", VStr "quotes,quotes")], ["quotes"; "quotes"].
  split; [reflexivity|]. intros N. inversion N as [|? ? N1 _]; subst. apply N1. now left.
Qed.
Print Assumptions C19_repetition_refuted.

Theorem C19_example_hyp :
  let es := [Append "macros"; Prepend "verbatim"; Remove "specialchars"; Append "specialchars"] in
  known_entries es /\ join "," (map print_entry es) = "+macros,verbatim+,-specialchars,+specialchars" /\
  meaning es (members0 "normal") =
    ["callouts"; "inline_passthrough"; "attributes"; "quotes"; "replacements"; "macros"; "post_replacements";
     "macros"; "specialchars"].
Proof. split; [repeat constructor; discriminate|split; reflexivity]. Qed.

(** ** C20: the second phase, applied after the attribute references have been replaced *)
Lemma split_loop_spec seq : forall p2,
  (exists a b, seq = a ++ "attributes" :: b /\ b <> [] /\ ~ In "attributes" (removelast b) /\
               split_loop seq p2 = Some b) \/
  (~ In "attributes" (removelast seq) /\ split_loop seq p2 = p2).
Proof.
  induction seq as [|s seq IH]; intros p2; cbn [split_loop].
  - right. split; [cbn; tauto|reflexivity].
  - destruct (IH (if String.eqb s AttributeRefs && negb (Nat.eqb (List.length seq) 0) then Some seq else p2))
      as [(a & b & -> & Hb & Hn & ->)|(Hn & ->)].
    + left. exists (s :: a), b. auto.
    + destruct (String.eqb_spec s AttributeRefs) as [E|E]; cbn [andb].
      * destruct seq as [|s2 seq]; cbn [List.length Nat.eqb negb].
        -- right. cbn. auto.
        -- left. exists [], (s2 :: seq). subst s. repeat split; auto. discriminate.
      * right. split; [|reflexivity]. destruct seq as [|s2 seq]; [cbn; tauto|].
        change (removelast (s :: s2 :: seq)) with (s :: removelast (s2 :: seq)).
        intros [X|X]; [|auto]. apply E. exact X.
Qed.

(** [tail] is what follows the last replacement of attribute references *)
Definition after_last_attributes (seq tail : list string) : Prop :=
  exists a, seq = a ++ "attributes" :: tail /\ ~ In "attributes" tail.

(** nothing that has to run after the (last) replacement is lost, and phase one runs everything *)
Theorem C20_phases_cover :
  forall seq tail k, after_last_attributes seq tail -> In k tail ->
  fst (sub_split seq) = seq /\ exists p2, snd (sub_split seq) = Some p2 /\ In k p2.
Proof.
  intros seq tail k (a & -> & N) I. split; [reflexivity|]. cbn [sub_split snd].
  destruct (split_loop_spec (a ++ "attributes" :: tail) None) as [(a' & b & E & Hb & Hn & ->)|(Hn & ->)].
  - exists b. split; [reflexivity|].
    revert a' E. induction a as [|x a IH]; intros [|y a'] E; cbn in E.
    + now injection E as ->.
    + injection E as _ ->. exfalso. apply N. apply in_elt.
    + injection E as _ <-. apply in_or_app. right. now right.
    + injection E as -> E. eauto.
  - exfalso. apply Hn. destruct tail as [|t tail]; [destruct I|].
    rewrite removelast_app by discriminate. apply in_or_app. right. now left.
Qed.
Print Assumptions C20_phases_cover.

(** phase two is exactly what follows the last replacement that is not at the very end of the list; there is none exactly when
    there is no such replacement *)
Theorem C20_phase_two_exact :
  forall seq,
  (forall p2, snd (sub_split seq) = Some p2 <-> p2 <> [] /\ exists a, seq = a ++ "attributes" :: p2 /\ ~ In "attributes" (removelast p2)) /\
  (snd (sub_split seq) = None <-> ~ In "attributes" (removelast seq)).
Proof.
  intros seq. cbn [sub_split snd].
  assert (IR : forall a (b : list string), b <> [] -> In "attributes" (removelast (a ++ "attributes" :: b))).
  { intros a b N. rewrite removelast_app by discriminate. apply in_or_app. right. destruct b; [congruence|]. now left. }
  assert (U : forall a a' b b', a ++ "attributes" :: b = a' ++ "attributes" :: b' -> b <> [] -> b' <> [] ->
              ~ In "attributes" (removelast b) -> ~ In "attributes" (removelast b') -> b = b').
  { induction a as [|x a IH]; intros [|y a'] b b' E N N' H H'; cbn in E.
    - now injection E.
    - injection E as _ ->. destruct H. now apply IR.
    - injection E as _ <-. destruct H'. now apply IR.
    - injection E as _ E. eauto. }
  destruct (split_loop_spec seq None) as [(a & b & E & Hb & Hn & ->)|(Hn & ->)].
  - split; [|split; [discriminate|]].
    + intros p2. split; [intros [= <-]; eauto|]. intros (N & a' & E' & N'). f_equal. subst seq. eapply U; eauto.
    + intros H. destruct H. subst seq. now apply IR.
  - split; [|tauto]. intros p2. split; [discriminate|]. intros (N & a & -> & _). destruct Hn. now apply IR.
Qed.
Print Assumptions C20_phase_two_exact.

(** with attributes listed twice, the last one at the end, phase two is not what follows the last one *)
Theorem C20_phase_two_exact_refuted :
  exists fmtv b attrs seq, newSubstitutions fmtv b attrs = Ok seq /\
    after_last_attributes seq [] /\ snd (sub_split seq) = Some ["quotes"; "attributes"].
Proof.
  exists (fun _ => ""), (Paragraph [] []), [("subs", VStr "attributes,quotes,attributes")],
    ["attributes"; "quotes"; "attributes"].
  split; [reflexivity|]. split; [|reflexivity].
  exists ["attributes"; "quotes"]. split; [reflexivity|]. cbn; tauto.
Qed.
Print Assumptions C20_phase_two_exact_refuted.

Theorem C20_example_hyp :
  after_last_attributes (members0 "normal")
    ["specialchars"; "quotes"; "replacements"; "macros"; "post_replacements"].
Proof. exists ["inline_passthrough"]. split; [reflexivity|]. cbn. intuition discriminate. Qed.
