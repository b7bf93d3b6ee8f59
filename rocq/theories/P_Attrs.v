(** C26: merging of attributes. *)
From Verif Require Import GoBase GoLemmas Types Attrs AttrLemmas AttrSpec.

Definition apply_pairs (ps : pairs) (a : attributes) : attributes := fold_left (fun acc kv => aset acc (fst kv) (snd kv)) ps a.

Definition old_roles (b : option val) : list val := match b with Some (VRoles l) => l | _ => [] end.
Definition old_options (b : option val) : list val := match b with Some (VOptions l) => l | _ => [] end.
Definition as_options (v : val) : list val := match v with VOptions l => l | VStr s => map VStr (split_char ","%char s) | v => [v] end.
Definition roles_step (b : option val) (kv : string * val) : option val :=
  if String.eqb (fst kv) "role" then Some (VRoles (old_roles b ++ [snd kv]))
  else if String.eqb (fst kv) "roles" then match snd kv with VRoles l => Some (VRoles (old_roles b ++ l)) | _ => b end else b.
Definition options_step (b : option val) (kv : string * val) : option val :=
  if String.eqb (fst kv) "option" then Some (VOptions (old_options b ++ [snd kv]))
  else if String.eqb (fst kv) "options" then Some (VOptions (as_options (snd kv))) else b.

Ltac names := change AttrRole with "role" in *; change AttrRoles with "roles" in *; change AttrOption with "option" in *; change AttrOptions with "options" in *.

Lemma aset_roles a k v : mget (aset a k v) "roles" = roles_step (mget a "roles") (k, v).
Proof.
  unfold aset, roles_step. names. cbn [fst snd].
  destruct (String.eqb_spec k "role") as [->|N1].
  { destruct (mget a "roles") as [[]|]; rewrite mget_mset_eq; reflexivity. }
  destruct (String.eqb_spec k "roles") as [->|N2].
  { destruct v; try reflexivity. destruct (mget a "roles") as [[]|]; rewrite mget_mset_eq; reflexivity. }
  destruct (String.eqb_spec k "option") as [->|N3].
  { destruct (mget a "options") as [[]|]; rewrite mget_mset_neq; auto; discriminate. }
  destruct (String.eqb_spec k "options") as [->|N4].
  { destruct v; rewrite mget_mset_neq; auto; discriminate. }
  rewrite mget_mset_neq; auto.
Qed.
Lemma aset_options a k v : mget (aset a k v) "options" = options_step (mget a "options") (k, v).
Proof.
  unfold aset, options_step. names. cbn [fst snd].
  destruct (String.eqb_spec k "role") as [->|N1].
  { destruct (mget a "roles") as [[]|]; rewrite mget_mset_neq; auto; discriminate. }
  destruct (String.eqb_spec k "roles") as [->|N2].
  { destruct v; try reflexivity. destruct (mget a "roles") as [[]|]; rewrite mget_mset_neq; auto; discriminate. }
  destruct (String.eqb_spec k "option") as [->|N3].
  { destruct (mget a "options") as [[]|]; rewrite mget_mset_eq; reflexivity. }
  destruct (String.eqb_spec k "options") as [->|N4].
  { destruct v; rewrite mget_mset_eq; reflexivity. }
  rewrite mget_mset_neq; auto.
Qed.
Lemma apply_roles_step : forall ps a, mget (apply_pairs ps a) "roles" = fold_left roles_step ps (mget a "roles").
Proof. induction ps as [|[k v] r IH]; intros a; [reflexivity|]. cbn [apply_pairs fold_left fst snd]. rewrite <- aset_roles. apply IH. Qed.
Lemma apply_options_step : forall ps a, mget (apply_pairs ps a) "options" = fold_left options_step ps (mget a "options").
Proof. induction ps as [|[k v] r IH]; intros a; [reflexivity|]. cbn [apply_pairs fold_left fst snd]. rewrite <- aset_options. apply IH. Qed.

Lemma apply_roles : forall ps a rs, some_roles (mget a "roles") rs -> some_roles (mget (apply_pairs ps a) "roles") (rs ++ roles_given ps).
Proof.
  intros ps a rs H. rewrite apply_roles_step. revert rs H. generalize (mget a "roles") as b.
  induction ps as [|[k v] r IH]; intros b rs H; [cbn; now rewrite app_nil_r|].
  cbn [fold_left roles_given flat_map]. fold (roles_given r). rewrite app_assoc. apply IH.
  unfold roles_step. cbn [fst snd]. destruct (String.eqb k "role"); [destruct H as [->|[-> ->]]; now left|].
  destruct (String.eqb k "roles"); [|now rewrite app_nil_r]. destruct v; rewrite ?app_nil_r; try exact H. destruct H as [->|[-> ->]]; now left.
Qed.

Lemma apply_options : forall ps a os, some_options (mget a "options") os -> some_options (mget (apply_pairs ps a) "options") (options_given ps os).
Proof.
  intros ps a os H. rewrite apply_options_step. revert os H. generalize (mget a "options") as b.
  induction ps as [|[k v] r IH]; intros b os H; [exact H|]. cbn [fold_left options_given]. apply IH.
  unfold options_step. cbn [fst snd]. destruct (String.eqb k "option"); [destruct H as [->|[-> ->]]; now left|].
  destruct (String.eqb k "options"); [left; destruct v; reflexivity|exact H].
Qed.

Lemma apply_plain : forall ps a k, ~ special k -> mget (apply_pairs ps a) k = last_given k ps (mget a k).
Proof.
  intros ps a k N. revert a. induction ps as [|[k' v] r IH]; intros a; [reflexivity|].
  cbn [apply_pairs fold_left fst snd last_given]. etransitivity; [exact (IH (aset a k' v))|]. f_equal.
  destruct (String.eqb_spec k k') as [->|D].
  - rewrite aset_plain; [apply mget_mset_eq|]. unfold special in N. repeat split; intros ->; apply N; unfold AttrRole, AttrRoles, AttrOption, AttrOptions; tauto.
  - apply mget_aset_other; [congruence| |]; intros ->; apply N; unfold special, AttrRoles, AttrOptions; tauto.
Qed.

Lemma merge_is : forall l acc, forallb is_set l = true -> mergeAttributes_loop l acc = Ok (apply_pairs (flatten_sets l) acc).
Proof.
  induction l as [|x r IH]; intros acc H; [reflexivity|]. cbn in H. apply andb_prop in H. destruct H as [H1 H2].
  destruct x; try discriminate; cbn [mergeAttributes_loop flatten_sets].
  - rewrite (IH _ H2). reflexivity.
  - rewrite (IH _ H2). unfold apply_pairs, aaddall. now rewrite fold_left_app.
Qed.
Lemma merge_err : forall l acc, forallb is_set l = false -> mergeAttributes_loop l acc = Err "unexpected type of attribute".
Proof.
  induction l as [|x r IH]; intros acc H; [discriminate|]. cbn in H.
  destruct x; try reflexivity; cbn [is_set andb] in H; cbn [mergeAttributes_loop]; auto.
Qed.

(** Merging attributes and sets of attributes: all roles are kept, in order, and every other name has its last value; nothing else
    is there.  What is neither gives an error. *)
Theorem C26_merge : forall l,
  (forallb is_set l = true -> exists a, mergeAttributes l = Ok a /\
     some_roles (mget a "roles") (roles_given (flatten_sets l)) /\
     some_options (mget a "options") (options_given (flatten_sets l) []) /\
     (forall k, ~ special k -> mget a k = last_given k (flatten_sets l) None)) /\
  (forallb is_set l = false -> exists m, mergeAttributes l = Err m).
Proof.
  intros l. split.
  - intros S. exists (apply_pairs (flatten_sets l) []). unfold mergeAttributes. split; [now apply merge_is|].
    split; [apply (apply_roles _ [] []); right; auto|]. split; [apply apply_options; right; auto|].
    intros k N. now apply (apply_plain _ [] k).
  - intros S. eexists. now apply merge_err.
Qed.

Lemma new_is : forall l n acc, forallb is_attribute l = true ->
  newAttributes_loop l (N.of_nat n) acc = Ok (apply_pairs (number_positions l n) acc).
Proof.
  induction l as [|x r IH]; intros n acc H; [reflexivity|]. cbn in H. apply andb_prop in H. destruct H as [H1 H2].
  destruct x; try discriminate; cbn [newAttributes_loop number_positions].
  - rewrite (IH _ _ H2). reflexivity.
  - replace (N.of_nat n + 1)%N with (N.of_nat (S n)) by lia. rewrite (IH _ _ H2). reflexivity.
Qed.
(** Attributes in brackets: the same, with the positional values numbered in order of appearance. *)
Theorem C26_positions : forall l, forallb is_attribute l = true -> exists a, newAttributes l = Ok a /\
  some_roles (mget a "roles") (roles_given (number_positions l 0)) /\
  some_options (mget a "options") (options_given (number_positions l 0) []) /\
  (forall k, ~ special k -> mget a k = last_given k (number_positions l 0) None).
Proof.
  intros l S. exists (apply_pairs (number_positions l 0) []). unfold newAttributes. split; [exact (new_is l 0%nat [] S)|].
  split; [apply (apply_roles _ [] []); right; auto|]. split; [apply apply_options; right; auto|].
  intros k N. now apply (apply_plain _ [] k).
Qed.
(** in particular the n-th positional value is found under its number if no attribute is given that name explicitly *)
Theorem C26_nth_position : forall vs, exists a, newAttributes (map (PositionalAttribute 0) vs) = Ok a /\
  forall n, mget a (positional_key (S n)) = nth_error vs n.
Proof.
  intros vs.
  assert (SA : forallb is_attribute (map (PositionalAttribute 0) vs) = true) by (induction vs; auto).
  assert (P : forall ws n, number_positions (map (PositionalAttribute 0) ws) n = combine (map (fun i => positional_key (S i)) (seq n (List.length ws))) ws).
  { clear. induction ws as [|v r IH]; intros n; [reflexivity|]. cbn. now rewrite IH. }
  destruct (C26_positions _ SA) as (a & E & _ & _ & Q).
  exists a. split; [exact E|]. intros n. rewrite Q.
  2:{ unfold special, positional_key. intros [H|[H|[H|H]]]; discriminate. }
  rewrite P. clear.
  assert (G : forall ws k d, last_given (positional_key (S n)) (combine (map (fun i => positional_key (S i)) (seq k (List.length ws))) ws) d =
              if (n <? k)%nat then d else match nth_error ws (n - k) with Some v => Some v | None => d end).
  { induction ws as [|v r IH]; intros k d; cbn [List.length seq map combine last_given].
    - destruct (n <? k)%nat; [reflexivity|]. now destruct (n - k)%nat.
    - rewrite IH. destruct (String.eqb_spec (positional_key (S n)) (positional_key (S k))) as [E|N].
      + unfold positional_key in E. apply sapp_inj_l, itoaN_inj, Nnat.Nat2N.inj in E. injection E as ->.
        destruct (Nat.ltb_spec k (S k)); [|lia]. destruct (Nat.ltb_spec k k); [lia|]. now rewrite Nat.sub_diag.
      + assert (n <> k) by (intros ->; now apply N).
        destruct (Nat.ltb_spec n (S k)), (Nat.ltb_spec n k); try lia; try reflexivity.
        replace (n - k)%nat with (S (n - S k)) by lia. reflexivity. }
  rewrite G. cbn [Nat.ltb Nat.leb]. rewrite Nat.sub_0_r. destruct (nth_error vs n); reflexivity.
Qed.

Lemma fold_left_perm (A B : Type) (f : B -> A -> B) l l' : Permutation l l' ->
  (forall x y b, In x l -> In y l -> f (f b x) y = f (f b y) x) -> forall b, fold_left f l b = fold_left f l' b.
Proof.
  induction 1 as [|x l l' P IH|x y l|l l1 l2 P1 IH1 P2 IH2]; intros C b; [reflexivity| | |].
  - cbn. apply IH. intros. apply C; now right.
  - cbn. rewrite C; [reflexivity|now left|right; now left].
  - rewrite IH1 by exact C. apply IH2. intros x y b0 X Y. apply C; (eapply Permutation_in; [apply Permutation_sym; exact P1|assumption]).
Qed.
Lemma unique_value (ps : pairs) k v w : NoDup (map fst ps) -> In (k, v) ps -> In (k, w) ps -> v = w.
Proof.
  induction ps as [|[k' x] r IH]; intros D I J; [destruct I|]. cbn in D. inversion D as [|? ? N D']; subst.
  assert (Z : forall y, In (k', y) r -> False) by (intros y Y; apply N; apply in_map_iff; exists (k', y); auto).
  destruct I as [I|I], J as [J|J]; try (injection I as -> ->); try (injection J as -> ->); auto; try (now destruct (Z _ J)); try (now destruct (Z _ I)); try congruence.
Qed.
Definition plain_step (k : string) (b : option val) (kv : string * val) : option val := if String.eqb k (fst kv) then Some (snd kv) else b.
Lemma last_given_fold k ps : forall d, last_given k ps d = fold_left (plain_step k) ps d.
Proof. induction ps as [|[k' v] r IH]; intros d; [reflexivity|]. cbn. now rewrite IH. Qed.
Lemma apply_skip ps : forall a k, k = "role" \/ k = "option" -> mget (apply_pairs ps a) k = mget a k.
Proof.
  induction ps as [|[k' v] r IH]; intros a k E; [reflexivity|]. cbn [apply_pairs fold_left fst snd]. etransitivity; [exact (IH _ k E)|].
  unfold aset. names. destruct (String.eqb_spec k' "role") as [->|N1].
  { destruct (mget a "roles") as [[]|]; rewrite mget_mset_neq; auto; destruct E as [->| ->]; discriminate. }
  destruct (String.eqb_spec k' "roles") as [->|N2].
  { destruct v; try reflexivity. destruct (mget a "roles") as [[]|]; rewrite mget_mset_neq; auto; destruct E as [->| ->]; discriminate. }
  destruct (String.eqb_spec k' "option") as [->|N3].
  { destruct (mget a "options") as [[]|]; rewrite mget_mset_neq; auto; destruct E as [->| ->]; discriminate. }
  destruct (String.eqb_spec k' "options") as [->|N4].
  { destruct v; rewrite mget_mset_neq; auto; destruct E as [->| ->]; discriminate. }
  rewrite mget_mset_neq; auto. destruct E as [->| ->]; assumption.
Qed.

(** Adding a set of attributes (a map: its names are distinct) does not depend on the order in which the map is iterated over, exactly
    when the map has not both an entry "role" and an entry "roles" (that would give another order of roles), nor both "option" and
    "options".  A map filled by Set has neither "role" nor "option". *)
Theorem C26_iteration_order : forall others, NoDup (map fst others) ->
  ((forall others', Permutation others others' -> forall a k, mget (aaddall a others) k = mget (aaddall a others') k) <->
   (forall r l, In ("role", r) others -> In ("roles", VRoles l) others -> r :: l = l ++ [r]) /\
   (forall o v, In ("option", o) others -> ~ In ("options", v) others)).
Proof.
  intros o D. split.
  - intros H.
    assert (Two : forall k1 v1 k2 v2, k1 <> k2 -> In (k1, v1) o -> In (k2, v2) o -> exists rest,
              Permutation o ((k1, v1) :: (k2, v2) :: rest) /\ Permutation o ((k2, v2) :: (k1, v1) :: rest) /\
              (forall v, ~ In (k1, v) rest) /\ (forall v, ~ In (k2, v) rest)).
    { intros k1 v1 k2 v2 N I J. destruct (in_split _ _ I) as (x & y & E). subst o.
      assert (J' : In (k2, v2) (x ++ y)). { apply in_app_iff in J. apply in_app_iff. destruct J as [J|[J|J]]; auto. congruence. }
      destruct (in_split _ _ J') as (x' & y' & E'). exists (x' ++ y').
      assert (P : Permutation (x ++ (k1, v1) :: y) ((k1, v1) :: (k2, v2) :: x' ++ y')).
      { apply Permutation_sym, Permutation_cons_app. rewrite E'. apply Permutation_middle. }
      split; [exact P|]. split; [eapply perm_trans; [exact P|apply perm_swap]|].
      assert (D2 : NoDup (map fst ((k1, v1) :: (k2, v2) :: x' ++ y'))) by (eapply Permutation_NoDup; [apply Permutation_map, P|exact D]).
      cbn [map fst] in D2. inversion D2 as [|? ? A D3]; subst. inversion D3 as [|? ? B D4]; subst.
      split; intros v V; apply (in_map fst) in V; [apply A; now right|now apply B]. }
    split.
    + intros r l R L. destruct (Two "role" r "roles" (VRoles l) ltac:(discriminate) R L) as (rest & P1 & P2 & N1 & N2).
      pose proof (H _ P1 [] "roles") as E1. pose proof (H _ P2 [] "roles") as E2. rewrite E1 in E2. clear E1.
      change (aaddall [] ?x) with (apply_pairs x []) in E2. rewrite !apply_roles_step in E2.
      change (mget [] "roles") with (@None val) in E2. cbn [fold_left] in E2.
      assert (K : forall ps b, (forall v, ~ In ("role", v) ps) -> (forall v, ~ In ("roles", v) ps) -> fold_left roles_step ps b = b).
      { clear. induction ps as [|[k v] ps IH]; intros b A B; [reflexivity|]. cbn [fold_left]. rewrite IH.
        - unfold roles_step. cbn [fst snd]. destruct (String.eqb_spec k "role") as [->|]; [destruct (A v); now left|].
          destruct (String.eqb_spec k "roles") as [->|]; [destruct (B v); now left|reflexivity].
        - intros w W. apply (A w). now right.
        - intros w W. apply (B w). now right. }
      rewrite !K in E2 by assumption. 
      change (Some (VRoles (r :: l)) = Some (VRoles (l ++ [r]))) in E2. congruence.
    + intros x v X V. destruct (Two "option" x "options" v ltac:(discriminate) X V) as (rest & P1 & P2 & N1 & N2).
      pose proof (H _ P1 [] "options") as E1. pose proof (H _ P2 [] "options") as E2. rewrite E1 in E2. clear E1.
      change (aaddall [] ?x) with (apply_pairs x []) in E2. rewrite !apply_options_step in E2.
      change (mget [] "options") with (@None val) in E2. cbn [fold_left] in E2.
      assert (K : forall ps b, (forall v, ~ In ("option", v) ps) -> (forall v, ~ In ("options", v) ps) -> fold_left options_step ps b = b).
      { clear. induction ps as [|[k v] ps IH]; intros b A B; [reflexivity|]. cbn [fold_left]. rewrite IH.
        - unfold options_step. cbn [fst snd]. destruct (String.eqb_spec k "option") as [->|]; [destruct (A v); now left|].
          destruct (String.eqb_spec k "options") as [->|]; [destruct (B v); now left|reflexivity].
        - intros w W. apply (A w). now right.
        - intros w W. apply (B w). now right. }
      rewrite !K in E2 by assumption.
      change (Some (VOptions (as_options v)) = Some (VOptions (as_options v ++ [x]))) in E2.
      injection E2 as E2. apply (f_equal (@List.length val)) in E2. rewrite app_length in E2. cbn in E2. lia.
  - intros [H1 H2] o' P a k. change (aaddall a o) with (apply_pairs o a). change (aaddall a o') with (apply_pairs o' a).
    destruct (string_dec k "roles") as [->|N1].
    { rewrite !apply_roles_step. apply fold_left_perm; [exact P|]. intros [k1 v1] [k2 v2] b X Y. unfold roles_step. cbn [fst snd].
      destruct (String.eqb_spec k1 "role") as [->|]; destruct (String.eqb_spec k2 "role") as [->|]; try reflexivity.
      - now rewrite (unique_value _ _ _ _ D X Y).
      - destruct (String.eqb_spec k2 "roles") as [->|]; [|reflexivity]. destruct v2; try reflexivity. cbn [old_roles]. rewrite <- !app_assoc. cbn [app].
        rewrite (H1 v1 _ X Y). reflexivity.
      - destruct (String.eqb_spec k1 "roles") as [->|]; [|reflexivity]. destruct v1; try reflexivity. cbn [old_roles]. rewrite <- !app_assoc. cbn [app].
        rewrite (H1 v2 _ Y X). reflexivity.
      - destruct (String.eqb_spec k1 "roles") as [->|]; destruct (String.eqb_spec k2 "roles") as [->|]; try reflexivity. now rewrite (unique_value _ _ _ _ D X Y). }
    destruct (string_dec k "options") as [->|N2].
    { rewrite !apply_options_step. apply fold_left_perm; [exact P|]. intros [k1 v1] [k2 v2] b X Y. unfold options_step. cbn [fst snd].
      destruct (String.eqb_spec k1 "option") as [->|]; destruct (String.eqb_spec k2 "option") as [->|]; try reflexivity.
      - now rewrite (unique_value _ _ _ _ D X Y).
      - destruct (String.eqb_spec k2 "options") as [->|]; [|reflexivity]. now destruct (H2 _ _ X Y).
      - destruct (String.eqb_spec k1 "options") as [->|]; [|reflexivity]. now destruct (H2 _ _ Y X).
      - destruct (String.eqb_spec k1 "options") as [->|]; destruct (String.eqb_spec k2 "options") as [->|]; try reflexivity. now rewrite (unique_value _ _ _ _ D X Y). }
    destruct (string_dec k "role") as [E|N3]; [rewrite !apply_skip; auto|].
    destruct (string_dec k "option") as [E|N4]; [rewrite !apply_skip; auto|].
    assert (S : ~ special k) by (unfold special; tauto).
    rewrite !apply_plain, !last_given_fold by assumption. apply fold_left_perm; [exact P|]. intros [k1 v1] [k2 v2] b X Y. unfold plain_step. cbn [fst snd].
    destruct (String.eqb_spec k k1) as [->|]; destruct (String.eqb_spec k1 k2) as [->|N]; try (destruct (String.eqb_spec k k2) as [->|]); try reflexivity; try congruence.
    now rewrite (unique_value _ _ _ _ D X Y).
Qed.

(** Moving positional values to their names: the positional entries are gone, each name has the value it had before or else the
    positional one, and nothing else changes, whatever the order in which the mapping is iterated over. *)
Theorem C26_mapping : forall mapping a, NoDup (map fst mapping) -> NoDup (map snd mapping) ->
  (forall s t, In s (map fst mapping) -> In t (map snd mapping) -> s <> t) ->
  let b := toAttributesWithMapping a mapping in
  (forall s, In s (map fst mapping) -> mget b s = None) /\
  (forall s t, In (s, t) mapping -> mget b t = match mget a t with Some v => Some v | None => moved s t (mget a s) end) /\
  (forall k, ~ In k (map fst mapping) -> ~ In k (map snd mapping) -> mget b k = mget a k).
Proof.
  assert (One : forall a s t, s <> t -> forall k, mget (map_one a (s, t)) k =
    if String.eqb k s then None else if String.eqb k t then match mget a t with Some v => Some v | None => moved s t (mget a s) end else mget a k).
  { intros a s t N k. unfold map_one. destruct (mget a s) as [v|] eqn:E.
    - rewrite mget_mdel, (String.eqb_sym s k). destruct (String.eqb_spec k s) as [->|Ns]; [reflexivity|].
      assert (A : forall w, mget (mset a t w) k = if String.eqb k t then Some w else mget a k) by (intros w; now rewrite mget_mset, (String.eqb_sym t k)).
      assert (B : mget a t = None -> (if String.eqb k t then None else mget a k) = mget a k).
      { intros Z. destruct (String.eqb_spec k t) as [->|]; congruence. }
      unfold moved. change AttrPositional1 with "@positional-1". change AttrRoles with "roles".
      assert (V : v = VNil \/ v = VStr "" \/ (v <> VNil /\ eq_str v "" = false)).
      { destruct v; auto; try (right; right; split; [discriminate|reflexivity]). destruct s0; auto. right; right. split; [discriminate|reflexivity]. }
      destruct V as [->|[->|[V1 V2]]].
      + destruct (String.eqb_spec k t) as [->|]; [destruct (mget a t)|]; reflexivity.
      + cbn. destruct (String.eqb_spec k t) as [->|]; [destruct (mget a t)|]; reflexivity.
      + assert (X : (match v with VNil => a | _ => if eq_str v "" then a else
             match mget a t with Some _ => a | None => mset a t (if eq_str (if String.eqb s "@positional-1" && String.eqb t "roles" then VRoles [v] else v) t then VBool true else if String.eqb s "@positional-1" && String.eqb t "roles" then VRoles [v] else v) end end)
             = match mget a t with Some _ => a | None => mset a t (if eq_str (if String.eqb s "@positional-1" && String.eqb t "roles" then VRoles [v] else v) t then VBool true else if String.eqb s "@positional-1" && String.eqb t "roles" then VRoles [v] else v) end).
        { rewrite V2. destruct v; try reflexivity. congruence. }
        cbv zeta. match goal with |- mget ?lhs k = _ => replace lhs with (match mget a t with Some _ => a | None => mset a t (if eq_str (if String.eqb s "@positional-1" && String.eqb t "roles" then VRoles [v] else v) t then VBool true else if String.eqb s "@positional-1" && String.eqb t "roles" then VRoles [v] else v) end) by (symmetry; exact X) end.
        clear X. destruct (mget a t) as [w|] eqn:T.
        * destruct (String.eqb_spec k t) as [->|]; congruence.
        * rewrite A. destruct (String.eqb_spec k t) as [->|]; [|reflexivity].
          destruct (String.eqb s "@positional-1" && String.eqb t "roles").
          { cbn. destruct v; try reflexivity; try congruence. destruct s0; [discriminate V2|reflexivity]. }
          destruct v; try reflexivity; try congruence. cbn [eq_str] in *. destruct s0; [discriminate V2|]. destruct (String.eqb (String a0 s0) t); reflexivity.
    - destruct (String.eqb_spec k s) as [->|]; [exact E|]. destruct (String.eqb_spec k t) as [->|]; [destruct (mget a t)|]; reflexivity. }
  induction mapping as [|[s t] r IH]; intros a D1 D2 D3.
  - repeat split; intros; contradiction.
  - cbn [map fst snd] in *. inversion D1 as [|? ? A1 A2]; inversion D2 as [|? ? B1 B2]; subst.
    assert (Nst : s <> t) by (apply D3; now left).
    specialize (IH (map_one a (s, t)) A2 B2). cbv zeta in IH.
    destruct IH as (I1 & I2 & I3). { intros x y X Y. apply D3; now right. }
    change (toAttributesWithMapping a ((s, t) :: r)) with (toAttributesWithMapping (map_one a (s, t)) r).
    cbv zeta. split; [|split].
    + intros x [<-|X]; [|now apply I1].
      destruct (in_dec string_dec s (map snd r)) as [Y|Y]; [exfalso; apply (D3 s s); [now left|now right|reflexivity]|].
      rewrite I3; auto. rewrite One by assumption. now rewrite String.eqb_refl.
    + intros x y [X|X].
      * injection X as <- <-. rewrite I3; auto. 2:{ intros Y. apply (D3 t t); [now right|now left|reflexivity]. }
        rewrite One by assumption. rewrite String.eqb_refl. destruct (String.eqb_spec t s); [congruence|reflexivity].
      * rewrite (I2 x y X).
        assert (X1 : In x (map fst r)) by (apply in_map_iff; exists (x, y); auto). assert (X2 : In y (map snd r)) by (apply in_map_iff; exists (x, y); auto).
        assert (x <> s) by congruence. assert (y <> t) by congruence.
        assert (x <> t) by (apply D3; [now right|now left]). assert (y <> s) by (apply not_eq_sym, D3; [now left|now right]).
        rewrite !One by assumption. rewrite (proj2 (String.eqb_neq y s)), (proj2 (String.eqb_neq y t)), (proj2 (String.eqb_neq x s)), (proj2 (String.eqb_neq x t)) by assumption. reflexivity.
    + intros k K1 K2. cbn [In] in K1, K2. rewrite I3 by tauto. rewrite One by assumption.
      rewrite (proj2 (String.eqb_neq k s)), (proj2 (String.eqb_neq k t)) by (intros ->; apply K1 + apply K2; now left). reflexivity.
Qed.
Theorem C26_mapping_order : forall mapping mapping' a, Permutation mapping mapping' -> NoDup (map fst mapping) -> NoDup (map snd mapping) ->
  (forall s t, In s (map fst mapping) -> In t (map snd mapping) -> s <> t) ->
  forall k, mget (toAttributesWithMapping a mapping) k = mget (toAttributesWithMapping a mapping') k.
Proof.
  intros m m' a P D1 D2 D3 k.
  assert (P1 : Permutation (map fst m) (map fst m')) by now apply Permutation_map.
  assert (P2 : Permutation (map snd m) (map snd m')) by now apply Permutation_map.
  destruct (C26_mapping m a D1 D2 D3) as (A1 & A2 & A3).
  destruct (C26_mapping m' a) as (B1 & B2 & B3).
  { eapply Permutation_NoDup; eauto. } { eapply Permutation_NoDup; eauto. }
  { intros s t S T. apply D3; (eapply Permutation_in; [apply Permutation_sym; eassumption|assumption]). }
  destruct (in_dec string_dec k (map fst m)) as [I|N1].
  { rewrite A1, B1; auto. eapply Permutation_in; eauto. }
  destruct (in_dec string_dec k (map snd m)) as [I|N2].
  { apply in_map_iff in I. destruct I as ([s t] & E & I). cbn in E. subst t. rewrite (A2 _ _ I), (B2 s k); [reflexivity|]. eapply Permutation_in; eauto. }
  rewrite A3, B3; auto; intros I; [apply N1|apply N2]; (eapply Permutation_in; [apply Permutation_sym; eassumption|assumption]).
Qed.

(** Not kept: options of an earlier set are replaced by those of a later one ... *)
Theorem C26_options_lost_refuted : forall x y, exists a,
  mergeAttributes [VAttributes [("options", VOptions [x])]; VAttributes [("options", VOptions [y])]] = Ok a /\ mget a "options" = Some (VOptions [y]).
Proof. intros. eexists. split; reflexivity. Qed.
(** ... a value of "roles" that is a plain string, as in [roles=a], is ignored ... *)
Theorem C26_roles_ignored_refuted : forall s, newAttributes [Attribute "roles" (VStr s)] = Ok [].
Proof. reflexivity. Qed.
(** ... and a map with an entry "role" (filled otherwise than by Set) would make the order of roles depend on the iteration. *)
Theorem C26_role_entry_refuted : exists a b, Permutation a b /\ NoDup (map fst a) /\ mget (aaddall [] a) "roles" <> mget (aaddall [] b) "roles".
Proof.
  exists [("role", VStr "x"); ("roles", VRoles [VStr "y"])], [("roles", VRoles [VStr "y"]); ("role", VStr "x")].
  split; [apply perm_swap|]. split; [|vm_compute; discriminate]. repeat constructor; cbn; intuition discriminate.
Qed.
Definition C26_items : list val :=
  [Attribute "role" (VStr "r1"); PositionalAttribute 0 (VStr "quote"); PositionalAttribute 0 VNil; Attribute "id" (VStr "a"); Attribute "option" (VStr "o");
   Attribute "role" (VStr "r2"); PositionalAttribute 0 (VStr "book"); Attribute "id" (VStr "b")].
Theorem C26_case : forallb is_attribute C26_items = true /\
  newAttributes C26_items = Ok [("roles", VRoles [VStr "r1"; VStr "r2"]); ("@positional-1", VStr "quote"); ("@positional-2", VNil); ("id", VStr "b");
    ("options", VOptions [VStr "o"]); ("@positional-3", VStr "book")] /\
  let m := [("@positional-1", "style"); ("@positional-2", "quoteAuthor"); ("@positional-3", "quoteTitle")] in
  NoDup (map fst m) /\ NoDup (map snd m) /\ (forall s t, In s (map fst m) -> In t (map snd m) -> s <> t).
Proof.
  split; [reflexivity|]. split; [vm_compute; reflexivity|]. cbv zeta. split; [repeat constructor; cbn; intuition discriminate|].
  split; [repeat constructor; cbn; intuition discriminate|]. intros s t [<-|[<-|[<-|[]]]] [<-|[<-|[<-|[]]]]; discriminate.
Qed.
