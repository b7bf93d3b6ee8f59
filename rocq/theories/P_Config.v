(** C52: settings; C45: command line attributes. *)
From Verif Require Import GoBase GoLemmas Types Attrs AttrLemmas Config ConfigSpec.

Definition reads (c : config) (ss : list setting) (d : config) : Prop :=
  c_filename d = last_said sets_filename ss (c_filename c) /\ c_updated d = last_said sets_updated ss (c_updated c) /\
  c_wrap d = last_said sets_wrap ss (c_wrap c) /\ c_css d = last_said sets_css ss (c_css c) /\
  c_backend d = last_said sets_backend ss (c_backend c) /\
  (forall k, attr_of d k = last_said (sets_attr k) ss (attr_of c k)) /\
  (forall n, mget (c_macros d) n = last_said (sets_macro n) ss (mget (c_macros c) n)).


Lemma backend_attr b a k :
  mget (let base a := if is_html b then aset a "basebackend-html" (VBool true) else aunset a "basebackend-html" in
        base (base (aset a "backend" (VStr b)))) k =
  match sets_attr k (WithBackEnd b) with Some o => o | None => mget a k end.
Proof.
  cbv zeta. cbn [sets_attr]. unfold is_html, aunset.
  rewrite (aset_plain a "backend") by (repeat split; discriminate).
  destruct (existsb (String.eqb b) _).
  - rewrite !aset_plain by (repeat split; discriminate). rewrite !mget_mset.
    destruct (String.eqb_spec k "backend") as [->|]; [reflexivity|].
    destruct (String.eqb_spec "basebackend-html" k) as [<-|]; [reflexivity|].
    destruct (String.eqb_spec "backend" k); [congruence|]. destruct (String.eqb_spec k "basebackend-html"); [congruence|]. reflexivity.
  - rewrite !mget_mdel, !mget_mset.
    destruct (String.eqb_spec k "backend") as [->|]; [reflexivity|].
    destruct (String.eqb_spec "basebackend-html" k) as [<-|]; [reflexivity|].
    destruct (String.eqb_spec "backend" k); [congruence|]. destruct (String.eqb_spec k "basebackend-html"); [congruence|]. reflexivity.
Qed.

Lemma apply_one s c : c_attrs c <> None -> (forall a, s = WithAttributes a -> a <> None) ->
  exists d, apply_setting s c = Ok d /\ c_attrs d <> None /\ reads c [s] d.
Proof.
  intros N NA. destruct (c_attrs c) as [a|] eqn:E; [|congruence].
  assert (P : forall k v, exists d, put_attr c k v = Ok d /\ c_attrs d <> None /\
     c_filename d = c_filename c /\ c_updated d = c_updated c /\ c_wrap d = c_wrap c /\ c_css d = c_css c /\ c_backend d = c_backend c /\
     (forall x, attr_of d x = if String.eqb x k then Some v else attr_of c x) /\ (forall n, mget (c_macros d) n = mget (c_macros c) n)).
  { intros k v. unfold put_attr. rewrite E. eexists. split; [reflexivity|]. unfold with_attrs, attr_of. cbn.
    repeat split; try discriminate. intros x. rewrite mget_mset, E. now rewrite (String.eqb_sym x k). }
  destruct s; cbn [apply_setting]; try (eexists; split; [reflexivity|]; split; [cbn; congruence|]; repeat split; fail).
  - destruct (P "figure-caption" (VStr caption)) as (d & H & Nd & Q). exists d. split; [exact H|]. split; [exact Nd|].
    unfold reads. cbn. destruct Q as (? & ? & ? & ? & ? & QA & ?). repeat split; auto. intros k. rewrite QA. destruct (String.eqb k "figure-caption"); reflexivity.
  - eexists. split; [reflexivity|]. destruct a0 as [m|]; [|exfalso; exact (NA None eq_refl eq_refl)].
    split; [discriminate|]. repeat split.
  - destruct (P k v) as (d & H & Nd & Q). exists d. split; [exact H|]. split; [exact Nd|].
    unfold reads. cbn. destruct Q as (? & ? & ? & ? & ? & QA & ?). repeat split; auto. intros x. rewrite QA. destruct (String.eqb x k); reflexivity.
  - unfold with_backend. rewrite E. eexists. split; [reflexivity|]. split; [discriminate|]. unfold reads. cbn [c_filename c_updated c_wrap c_css c_backend c_macros].
    repeat split. intros k. unfold attr_of. cbn [c_attrs]. rewrite E. etransitivity; [exact (backend_attr b a k)|]. reflexivity.
  - eexists. split; [reflexivity|]. split; [cbn; congruence|]. repeat split. intros n. cbn. rewrite mget_mset.
    rewrite (String.eqb_sym n name). destruct (String.eqb name n); reflexivity.
Qed.

Lemma apply_all : forall ss c, c_attrs c <> None -> no_nil ss -> exists d, apply_settings ss c = Ok d /\ c_attrs d <> None /\ reads c ss d.
Proof.
  induction ss as [|s r IH]; intros c N NN.
  - exists c. repeat split; auto.
  - destruct (apply_one s c N) as (d & H & Nd & R). { intros a ->. apply NN. now left. }
    destruct (IH d Nd) as (e & He & Ne & Re). { intros a I. apply NN. now right. }
    exists e. cbn [apply_settings]. rewrite H. cbn [bind]. split; [exact He|]. split; [exact Ne|].
    destruct R as (R1 & R2 & R3 & R4 & R5 & R6 & R7), Re as (E1 & E2 & E3 & E4 & E5 & E6 & E7). cbn [last_said] in *.
    unfold reads. cbn [last_said]. rewrite <- R1, <- R2, <- R3, <- R4, <- R5. repeat split; auto.
    + intros k. now rewrite <- R6.
    + intros n. now rewrite <- R7.
Qed.

(** Whatever the list of settings (none of them a nil map of attributes): every field, every attribute and every macro has the
    value given by the last setting about it. *)
Theorem C52_last_wins : forall now ss, no_nil ss -> exists c, newConfiguration now ss = Ok c /\
  c_filename c = last_said sets_filename ss "" /\ c_updated c = last_said sets_updated ss now /\
  c_wrap c = last_said sets_wrap ss false /\ c_css c = last_said sets_css ss [] /\ c_backend c = last_said sets_backend ss "html5" /\
  (forall k, attr_of c k = last_said (sets_attr k) ss (default_attr k)) /\
  (forall n, mget (c_macros c) n = last_said (sets_macro n) ss None).
Proof.
  intros now ss NN. unfold newConfiguration.
  destruct (apply_one (WithBackEnd "html5") (mkConfig "" (Some [("basebackend-html", VBool true)]) now false [] "html5" [])) as (d & H & Nd & R).
  { discriminate. } { discriminate. }
  change (apply_setting (WithBackEnd "html5") ?c) with (with_backend "html5" c) in H. rewrite H. cbn [bind].
  destruct (apply_all ss d Nd NN) as (c & Hc & _ & E1 & E2 & E3 & E4 & E5 & E6 & E7).
  destruct R as (R1 & R2 & R3 & R4 & R5 & R6 & R7). cbn [last_said sets_filename sets_updated sets_wrap sets_css sets_backend sets_macro c_filename c_updated c_wrap c_css c_backend c_macros] in *.
  exists c. split; [exact Hc|]. rewrite E1, E2, E3, E4, E5, R1, R2, R3, R4, R5.
  do 5 (split; [reflexivity|]). split.
  - intros k. rewrite E6. f_equal. rewrite R6. unfold default_attr, attr_of. cbn [last_said c_attrs]. cbn [sets_attr].
    destruct (String.eqb k "backend"); [reflexivity|]. cbn [mget]. destruct (String.eqb k "basebackend-html"); reflexivity.
  - intros n. rewrite E7. f_equal. apply R7.
Qed.

(** Neighbouring settings about different things can be exchanged. *)
Theorem C52_commute : forall now pre s1 s2 post, no_nil (pre ++ s1 :: s2 :: post) -> (forall t, about s1 t -> about s2 t -> False) ->
  exists c d, newConfiguration now (pre ++ s1 :: s2 :: post) = Ok c /\ newConfiguration now (pre ++ s2 :: s1 :: post) = Ok d /\ same_config c d.
Proof.
  intros now pre s1 s2 post N A.
  assert (N' : no_nil (pre ++ s2 :: s1 :: post)).
  { intros a I. apply N. apply in_app_iff in I. apply in_app_iff. cbn in *. tauto. }
  destruct (C52_last_wins now _ N) as (c & Hc & C1 & C2 & C3 & C4 & C5 & C6 & C7).
  destruct (C52_last_wins now _ N') as (d & Hd & D1 & D2 & D3 & D4 & D5 & D6 & D7).
  exists c, d. split; [exact Hc|]. split; [exact Hd|].
  assert (X : forall B (f : setting -> option B) x, f s1 = None \/ f s2 = None ->
     last_said f (pre ++ s1 :: s2 :: post) x = last_said f (pre ++ s2 :: s1 :: post) x).
  { clear. intros B f. induction pre as [|p r IH]; intros x H; cbn [app last_said].
    - destruct H as [->| ->]; reflexivity.
    - apply IH; exact H. }
  unfold same_config. rewrite C1, C2, C3, C4, C5, D1, D2, D3, D4, D5.
  assert (S : forall B (f : setting -> option B) t, (forall s, f s <> None -> about s t) -> f s1 = None \/ f s2 = None).
  { intros B f t H. destruct (f s1) eqn:F1; [|now left]. destruct (f s2) eqn:F2; [|now right]. exfalso.
    apply (A t); apply H; congruence. }
  split; [|split; [|split; [|split; [|split; [|split]]]]].
  - apply X, (S _ _ TFilename). intros []; cbn; congruence || tauto.
  - apply X, (S _ _ TUpdated). intros []; cbn; congruence || tauto.
  - apply X, (S _ _ TWrap). intros []; cbn; congruence || tauto.
  - apply X, (S _ _ TCss). intros []; cbn; congruence || tauto.
  - apply X, (S _ _ TBackend). intros []; cbn; congruence || tauto.
  - intros k. rewrite C6, D6. apply X, (S _ _ (TAttr k)). intros [| | | | | | | |]; cbn; try congruence; try tauto.
    + destruct (String.eqb_spec k "figure-caption"); congruence || auto.
    + destruct (String.eqb_spec k k0); congruence || auto.
    + destruct (String.eqb_spec k "backend"); [auto|]. destruct (String.eqb_spec k "basebackend-html"); congruence || auto.
  - intros n. rewrite C7, D7. apply X, (S _ _ (TMacro n)). intros []; cbn; try congruence.
    destruct (String.eqb_spec n name); congruence || auto.
Qed.
Theorem C52_case : exists c, newConfiguration "t0" [WithBackEnd "xhtml5"; WithAttribute "x" (VInt 1); WithFilename "a.adoc"; WithAttribute "x" (VInt 2)] = Ok c /\
  c_filename c = "a.adoc" /\ attr_of c "x" = Some (VInt 2) /\ attr_of c "backend" = Some (VStr "xhtml5") /\
  no_nil [WithBackEnd "xhtml5"; WithAttribute "x" (VInt 1); WithFilename "a.adoc"; WithAttribute "x" (VInt 2)] /\
  (forall t, about (WithBackEnd "xhtml5") t -> about (WithAttribute "x" (VInt 1)) t -> False).
Proof.
  eexists. split; [vm_compute; reflexivity|]. split; [reflexivity|]. split; [reflexivity|]. split; [reflexivity|]. split.
  - intros a [E|[E|[E|[E|[]]]]]; discriminate.
  - intros []; cbn; try tauto. intros [->| ->]; discriminate.
Qed.
(** WithAttributes is about all attributes: put after WithBackEnd, it drops the attributes that tell the backend, although the
    backend itself is kept. *)
Theorem C52_backend_dropped_refuted : forall now m, mget m "backend" = None -> exists c,
  newConfiguration now [WithBackEnd "xhtml5"; WithAttributes (Some m)] = Ok c /\ c_backend c = "xhtml5" /\ attr_of c "backend" = None.
Proof. intros now m H. eexists. split; [reflexivity|]. split; [reflexivity|]. exact H. Qed.
(** A nil map of attributes makes the next setting of an attribute panic. *)
Theorem C52_nil_refuted : forall now k v,
  newConfiguration now [WithAttributes None; WithAttribute k v] = Panic "assignment to entry in nil map".
Proof. reflexivity. Qed.

(** ** C45 *)
(** what an argument "name=value" or "name" says *)
Fixpoint no_eq (s : string) : Prop := match s with EmptyString => True | String c r => c <> "="%char /\ no_eq r end.

Lemma split_no_eq s : no_eq s -> split_char "="%char s = [s].
Proof.
  induction s as [|c r IH]; intros H; [reflexivity|]. destruct H as [N H]. cbn [split_char].
  destruct (Ascii.eqb_spec c "="); [congruence|]. rewrite (IH H). reflexivity.
Qed.
Lemma split_pair n : no_eq n -> forall v, split_char "="%char (n ++ String "=" v) = n :: split_char "="%char v.
Proof.
  induction n as [|c r IH]; intros H v.
  - reflexivity.
  - destruct H as [N H]. change (String c r ++ String "=" v)%string with (String c (r ++ String "=" v)). cbn [split_char].
    destruct (Ascii.eqb_spec c "="); [congruence|]. rewrite (IH H). reflexivity.
Qed.

(** the text before the first "=", and the text after it *)
Fixpoint before_eq (s : string) : string :=
  match s with EmptyString => "" | String c r => if Ascii.eqb c "=" then "" else String c (before_eq r) end.
Fixpoint after_eq (s : string) : string :=
  match s with EmptyString => "" | String c r => if Ascii.eqb c "=" then r else after_eq r end.
Lemma before_no_eq s : no_eq (before_eq s).
Proof. induction s as [|c r IH]; cbn; [exact I|]. destruct (Ascii.eqb_spec c "="); cbn; auto. Qed.
Lemma before_eq_id s : before_eq s = s <-> no_eq s.
Proof.
  induction s as [|c r IH]; cbn; [tauto|]. destruct (Ascii.eqb_spec c "=") as [->|N].
  - split; [discriminate|]. intros [H _]. now destruct H.
  - rewrite <- IH. split; [intros [= H]; auto|]. now intros [_ ->].
Qed.
Lemma before_after s : no_eq s \/ s = (before_eq s ++ String "=" (after_eq s))%string.
Proof.
  induction s as [|c r IH]; cbn; [now left|]. destruct (Ascii.eqb_spec c "=") as [->|N]; [now right|].
  destruct IH as [IH|IH]; [now left|]. right. cbn. now rewrite <- IH.
Qed.
(** what an argument says of the name [k]: its name is what stands before the first "=", its value what stands between the first and the
    second one *)
Definition arg_says (k : string) (arg : string) : option (option val) :=
  if String.eqb k (before_eq arg) then Some (Some (VStr (before_eq (after_eq arg)))) else None.

(** Whatever the arguments: each name has the value of its last argument, and there is no other attribute. *)
Theorem C45_arguments : forall args k, mget (parseAttributes args) k = last_said (arg_says k) args None.
Proof.
  intros args k. unfold parseAttributes.
  assert (G : forall m, mget (fold_left parse_one args m) k = last_said (arg_says k) args (mget m k)).
  { induction args as [|a r IH]; intros m; [reflexivity|]. cbn [fold_left last_said]. rewrite IH. f_equal.
    assert (P : parse_one m a = mset m (before_eq a) (VStr (before_eq (after_eq a)))).
    { unfold parse_one. destruct (before_after a) as [N|E].
      - rewrite (split_no_eq _ N). rewrite (proj2 (before_eq_id a) N). f_equal.
        assert (A : after_eq a = "") by (clear IH; induction a as [|c t IHt]; cbn; auto; destruct N as [N1 N2]; destruct (Ascii.eqb_spec c "="); [congruence|auto]).
        now rewrite A.
      - rewrite E at 1. rewrite (split_pair _ (before_no_eq a)). destruct (before_after (after_eq a)) as [N|E'].
        + now rewrite (split_no_eq _ N), (proj2 (before_eq_id _) N).
        + rewrite E' at 1. now rewrite (split_pair _ (before_no_eq _)). }
    rewrite P, mget_mset. unfold arg_says. rewrite (String.eqb_sym k). destruct (String.eqb (before_eq a) k); reflexivity. }
  apply (G []).
Qed.

Inductive argument := NameOnly (name : string) | NameValue (name value : string).
Definition arg_text (a : argument) : string := match a with NameOnly n => n | NameValue n v => (n ++ String "=" v)%string end.
Definition arg_name (a : argument) : string := match a with NameOnly n | NameValue n _ => n end.
Definition arg_value (a : argument) : string := match a with NameOnly _ => "" | NameValue _ v => v end.
Lemma arg_parts a : no_eq (arg_name a) -> before_eq (arg_text a) = arg_name a /\ after_eq (arg_text a) = arg_value a.
Proof.
  destruct a as [n|n v]; cbn [arg_text arg_name arg_value]; induction n as [|c r IH]; cbn; auto; intros [N H]; destruct (Ascii.eqb_spec c "="); try congruence;
    destruct (IH H) as [-> ->]; auto.
Qed.
(** "-a name" and "-a name=value" after other arguments, and no later argument of this name: the attribute has this value exactly if
    it contains no "=". *)
Theorem C45_value_kept : forall before a after, no_eq (arg_name a) ->
  (forall x, In x after -> before_eq x <> arg_name a) ->
  mget (parseAttributes (before ++ arg_text a :: after)) (arg_name a) = Some (VStr (before_eq (arg_value a))) /\
  (mget (parseAttributes (before ++ arg_text a :: after)) (arg_name a) = Some (VStr (arg_value a)) <-> no_eq (arg_value a)).
Proof.
  intros before a after N H.
  assert (E : mget (parseAttributes (before ++ arg_text a :: after)) (arg_name a) = Some (VStr (before_eq (arg_value a)))).
  { rewrite C45_arguments.
    assert (SKIP : forall o, last_said (arg_says (arg_name a)) after o = o).
    { revert H. induction after as [|x r IH]; intros H o; [reflexivity|]. cbn [last_said]. unfold arg_says at 2.
      destruct (String.eqb_spec (arg_name a) (before_eq x)) as [Q|]; [exfalso; apply (H x); [now left|congruence]|]. apply IH. intros y Y. apply H. now right. }
    generalize (@None val) as o. induction before as [|x r IH]; intros o; cbn [app last_said].
    - rewrite SKIP. unfold arg_says. destruct (arg_parts a N) as [-> ->]. now rewrite String.eqb_refl.
    - apply IH. }
  split; [exact E|]. rewrite E, <- before_eq_id. split; [intros [= ->]; auto|now intros ->].
Qed.
(** A value with "=" is cut there. *)
Theorem C45_value_cut_refuted : forall n v w, no_eq n -> no_eq v ->
  mget (parseAttributes [arg_text (NameValue n (v ++ String "=" w))]) n = Some (VStr v).
Proof.
  intros n v w N V. unfold parseAttributes. cbn [map fold_left arg_text]. unfold parse_one. rewrite (split_pair _ N), (split_pair _ V).
  apply mget_mset_eq.
Qed.
(** The forms "!name" and "name!" of the documentation do not unset the attribute: they set one of that odd name. *)
Theorem C45_unset_refuted : forall n, no_eq n ->
  mget (parseAttributes [(n ++ "=1")%string; ("!" ++ n)%string]) n = Some (VStr "1") /\
  mget (parseAttributes [(n ++ "=1")%string; ("!" ++ n)%string]) ("!" ++ n)%string = Some (VStr "").
Proof.
  intros n N. unfold parseAttributes. cbn [fold_left]. unfold parse_one at 2 4.
  change (n ++ "=1")%string with (n ++ String "=" "1")%string. rewrite (split_pair _ N).
  change (split_char "=" "1") with ["1"]. unfold parse_one.
  assert (N' : no_eq ("!" ++ n)%string) by (split; [discriminate|exact N]).
  rewrite (split_no_eq _ N'). rewrite !mget_mset, !String.eqb_refl. split; [|reflexivity].
  destruct (String.eqb_spec ("!" ++ n) n) as [E|]; [|reflexivity]. exfalso.
  apply (f_equal String.length) in E. cbn in E. lia.
Qed.
Theorem C45_case : parseAttributes ["a=1"; "b"; "a=2"; "url=x?y=z"] = [("a", VStr "2"); ("b", VStr ""); ("url", VStr "x?y")] /\
  no_eq (arg_name (NameValue "url" "x?y=z")) /\ ~ no_eq (arg_value (NameValue "url" "x?y=z")).
Proof. split; [vm_compute; reflexivity|]. split; [repeat constructor; discriminate|]. intros (_ & _ & _ & H & _). now destruct H. Qed.
