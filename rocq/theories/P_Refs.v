(** Properties C21, C22, C49: counters, placeholders, attribute references. *)
From Verif Require Import GoBase GoLemmas Types Attrs Context Utf8 Merge MergeSpec MergeLemmas Elements Subs Refs RefsSpec.

(** ** C21 *)
Definition start_val (s : option start) : val :=
  match s with
  | None => VNil
  | Some (FromNumber z) => VInt z
  | Some (FromLetter c) => VStr (String c "")
  end.
(** the element the grammar makes of a use *)
Definition use_element (u : use) : val :=
  if u_hidden u then counterSubstitution2 (u_name u) (start_val (u_start u))
  else counterSubstitution1 (u_name u) (start_val (u_start u)).

Definition counter_val (sn : option start * nat) : option val :=
  match sn with
  | (None, O) => None
  | (None, n) => Some (VInt (Z.of_nat n))
  | (Some (FromNumber z), n) => Some (VInt (z + Z.of_nat n))
  | (Some (FromLetter c), n) => Some (VRune (N_of_ascii c + N.of_nat n))
  end.
Definition agrees (cs : counters) (h : list use) : Prop :=
  forall x, mget cs x = counter_val (since_start h x).
(** all the numbers reached stay in the range of Go's int *)
Definition in_range (total : nat) (u : use) : Prop :=
  match u_start u with
  | Some (FromNumber z) => (-9223372036854775808 <= z)%Z /\ (z + Z.of_nat total <= 9223372036854775807)%Z
  | _ => True
  end.

Lemma wrap64_id z : (-9223372036854775808 <= z <= 9223372036854775807)%Z -> wrap64 z = z.
Proof. intros H. unfold wrap64. rewrite Z.mod_small; lia. Qed.

Lemma since_start_bound total h x : Forall (in_range total) h ->
  match since_start h x with
  | (Some (FromNumber z), n) => (-9223372036854775808 <= z)%Z /\ (z + Z.of_nat total <= 9223372036854775807)%Z
  | _ => True
  end /\ (snd (since_start h x) <= List.length h)%nat.
Proof.
  induction 1 as [|u h R F [IH1 IH2]]; cbn [since_start]; [split; [exact I|cbn; lia]|].
  destruct (String.eqb (u_name u) x).
  - destruct (u_start u) as [[z|c]|] eqn:E; cbn [snd].
    + unfold in_range in R. rewrite E in R. split; [exact R|]. cbn. lia.
    + split; [exact I|]. cbn. lia.
    + destruct (since_start h x) as [[[z|c]|] n]; cbn [snd List.length] in *; split; auto; lia.
  - destruct (since_start h x) as [[[z|c]|] n]; cbn [snd List.length] in *; split; auto; lia.
Qed.

Lemma N_of_ascii_lt c : (N_of_ascii c < 256)%N.
Proof. apply N_ascii_bounded. Qed.

Lemma shown_counter cs h u total : agrees cs h ->
  Forall (in_range total) (u :: h) -> (List.length (u :: h) <= total)%nat -> (Z.of_nat total < 4294967040)%Z ->
  (u_hidden u = true -> u_start u = None) ->
  exists cs' v, use_element u = CounterSubstitution (u_name u) (u_hidden u) v /\
    valueForCounter cs (u_name u) (u_hidden u) v =
      Ok (cs', if u_hidden u then "" else shown (since_start (u :: h) (u_name u))) /\
    agrees cs' (u :: h).
Proof.
  intros A R L B HS. destruct u as [x hid st]. cbn [u_name u_hidden u_start] in *.
  assert (AG : forall v, counter_val (since_start (mkUse x hid st :: h) x) = Some v ->
               agrees (mset cs x v) (mkUse x hid st :: h)).
  { intros v E y. rewrite mget_mset. destruct (String.eqb_spec x y) as [<-|N]; [now rewrite E|].
    cbn [since_start u_name]. apply String.eqb_neq in N. rewrite N. apply A. }
  unfold use_element, counterSubstitution1, counterSubstitution2, newCounterSubstitution.
  cbn [u_hidden u_name u_start].
  destruct (since_start_bound total h x) as [SB SL]; [now inversion R|].
  assert (MM : forall v w, mset (mset cs x v) x w = mset (mset cs x v) x w) by reflexivity.
  destruct st as [[z|c]|]; cbn [start_val].
  - destruct hid; [now specialize (HS eq_refl)|]. eexists _, (VInt z). split; [reflexivity|].
    unfold valueForCounter. split.
    + cbn [since_start u_name u_start]. rewrite String.eqb_refl. cbn [shown Z.of_nat].
      rewrite Z.add_0_r. reflexivity.
    + intros y. rewrite !mget_mset. cbn [since_start u_name u_start].
      destruct (String.eqb x y); [cbn; f_equal; f_equal; lia|apply A].
  - destruct hid; [now specialize (HS eq_refl)|]. eexists _, (VRune (N_of_ascii c)). split; [reflexivity|].
    unfold valueForCounter. split.
    + cbn [since_start u_name u_start]. rewrite String.eqb_refl. cbn [shown N.of_nat].
      rewrite N.add_0_r. reflexivity.
    + intros y. rewrite !mget_mset. cbn [since_start u_name u_start].
      destruct (String.eqb x y); [cbn; f_equal; f_equal; lia|apply A].
  - assert (SS : since_start (mkUse x hid None :: h) x = (fst (since_start h x), S (snd (since_start h x)))).
    { cbn [since_start u_name u_start]. rewrite String.eqb_refl. now destruct (since_start h x). }
    assert (G : exists cs', valueForCounter cs x hid VNil =
                Ok (cs', if hid then "" else shown (since_start (mkUse x hid None :: h) x)) /\
                agrees cs' (mkUse x hid None :: h)).
    { unfold valueForCounter. rewrite (A x). rewrite SS in *. cbn [List.length] in L.
      destruct (since_start h x) as [[[z|c]|] n]; cbn [fst snd counter_val shown] in *.
      - rewrite wrap64_id by lia. eexists. split; [|apply AG; cbn; f_equal; f_equal; lia].
        replace (z + Z.of_nat n + 1)%Z with (z + Z.of_nat (S n))%Z by lia. reflexivity.
      - pose proof (N_of_ascii_lt c). unfold wrap32. rewrite N.mod_small by lia. 
        eexists. split; [|apply AG; cbn [counter_val]; f_equal; f_equal; lia].
        replace (N_of_ascii c + N.of_nat n + 1)%N with (N_of_ascii c + N.of_nat (S n))%N by lia. reflexivity.
      - destruct n as [|n].
        + eexists. split; [|apply AG; reflexivity]. reflexivity.
        + rewrite wrap64_id by lia. eexists. split; [|apply AG; cbn [counter_val]; reflexivity].
          replace (Z.of_nat (S n) + 1)%Z with (Z.of_nat (S (S n))) by lia. reflexivity. }
    destruct G as (cs' & G1 & G2). exists cs', VNil. split; [now destruct hid|]. split; [exact G1|exact G2].
Qed.

Lemma counters_loop plain ctx total us : forall cs h, agrees cs h ->
  Forall (in_range total) (us ++ h) -> (List.length us + List.length h <= total)%nat -> (Z.of_nat total < 4294967040)%Z ->
  Forall (fun u => u_hidden u = true -> u_start u = None) us ->
  exists cs', refs_flat plain ctx cs (map use_element us) = Ok (cs', map StringElement (outputs h us)).
Proof.
  induction us as [|u us IH]; intros cs h A R L B HS.
  - exists cs. reflexivity.
  - inversion HS as [|? ? H1 H2]; subst. cbn [app] in R. inversion R as [|? ? R1 R2]; subst.
    assert (Rh : Forall (in_range total) (u :: h)).
    { constructor; [exact R1|]. apply Forall_app in R2. tauto. }
    destruct (shown_counter cs h u total A Rh) as (cs1 & v & E & V & A1); auto; [cbn in *; lia|].
    cbn [map refs_flat]. rewrite E, V. cbn [bind fst snd].
    destruct (IH cs1 (u :: h) A1) as (cs2 & IHE); auto.
    + apply Forall_app. apply Forall_app in R2. tauto.
    + cbn in *. lia.
    + rewrite IHE. cbn [bind fst snd outputs map]. eauto.
Qed.

(** a start value given to {counter2:...} is ignored by the grammar *)
Definition effective (u : use) : use := if u_hidden u then mkUse (u_name u) true None else u.
Lemma effective_element u : use_element (effective u) = use_element u.
Proof. destruct u as [n h s]. unfold effective. cbn. now destruct h. Qed.
(** C21 for all histories of uses whose numbers stay in the range of Go's int *)
Theorem C21_counters :
  forall plain ctx us,
  Forall (in_range (List.length us)) us -> (Z.of_nat (List.length us) < 4294967040)%Z ->
  exists cs', refs_flat plain ctx [] (map use_element us) = Ok (cs', map StringElement (outputs [] (map effective us))).
Proof.
  intros plain ctx us R B. replace (map use_element us) with (map use_element (map effective us)).
  - apply (counters_loop plain ctx (List.length us)); auto.
    + intros x. reflexivity.
    + rewrite app_nil_r. apply Forall_forall. intros u Hu. apply in_map_iff in Hu. destruct Hu as (v & <- & Hv). rewrite Forall_forall in R.
      specialize (R v Hv). unfold effective. destruct (u_hidden v); [exact I|exact R].
    + rewrite map_length. cbn. lia.
    + apply Forall_forall. intros u Hu. apply in_map_iff in Hu. destruct Hu as (v & <- & Hv). unfold effective. destruct (u_hidden v) eqn:E; [reflexivity|congruence].
  - rewrite map_map. apply map_ext. exact effective_element.
Qed.
Print Assumptions C21_counters.

(** a start value of a hidden counter is ignored *)
Theorem C21_hidden_start_refuted :
  exists plain ctx us cs', refs_flat plain ctx [] (map use_element us) = Ok (cs', [StringElement ""; StringElement "2"])
    /\ outputs [] us = [""; "6"].
Proof.
  exists (fun _ => Ok ""), (mkCtx [] []), [mkUse "x" true (Some (FromNumber 5)); mkUse "x" false None], [("x", VInt 2)].
  split; reflexivity.
Qed.
Print Assumptions C21_hidden_start_refuted.

Theorem C21_example :
  let us := [mkUse "x" false None; mkUse "y" false (Some (FromLetter "a")); mkUse "x" true None; mkUse "x" false None;
             mkUse "y" false None; mkUse "x" false (Some (FromNumber 10)); mkUse "x" false None] in
  Forall (in_range (List.length us)) us /\ Forall (fun u => u_hidden u = true -> u_start u = None) us /\
  outputs [] us = ["1"; "a"; ""; "3"; "b"; "10"; "11"].
Proof. split; [|split; [|reflexivity]]; repeat constructor; cbn; try lia; discriminate. Qed.

(** ** C49 *)
(** the attributes of the context are strings *)
Definition looks_up (ctx : ctxattrs) (look : string -> option string) : Prop :=
  forall n, cget ctx n = option_map VStr (look n).

Lemma valueForAttributeRef_string plain ctx look n : looks_up ctx look ->
  valueForAttributeRef plain ctx n = Ok (VStr (ref_text look n), match look n with Some _ => true | None => false end).
Proof. intros L. unfold valueForAttributeRef, ref_text. rewrite L. now destruct (look n). Qed.

(** inline content: quoted text nested at will, references, counters, links and images, and elements without elements.  The values of
    attributes and the paths of locations are made of text and references (and counters, in paths). *)
Definition simple_part (v : val) : Prop := match v with StringElement _ | VStr _ | AttributeReference _ => True | _ => False end.
Definition plain_value1 (v : val) : Prop :=
  match v with VSlice l => Forall simple_part l | VRoles _ | VOptions _ => False | _ => True end.
Definition plain_value (v : val) : Prop := match v with VRoles l | VOptions l => Forall plain_value1 l | _ => plain_value1 v end.
Definition plain_attrs (a : attributes) : Prop := Forall (fun kv => plain_value (snd kv)) a.
Definition path_part (v : val) : Prop := match v with CounterSubstitution n h s => exists u, v = use_element u | _ => simple_part v end.
Definition plain_location (l : val) : Prop := match l with Location _ (VSlice p) => Forall path_part p | _ => True end.
Inductive inline_content : val -> Prop :=
| ic_quoted k es a : Forall inline_content es -> plain_attrs a -> inline_content (QuotedText k es a)
| ic_counter u : inline_content (use_element u)
| ic_link a l : plain_attrs a -> plain_location l -> inline_content (InlineLink a l)
| ic_image a l : plain_attrs a -> plain_location l -> inline_content (InlineImage l a)
| ic_xref a l : plain_attrs a -> plain_location l -> inline_content (ExternalCrossReference l a)
| ic_leaf v : getElements v = None -> getLocation v = None ->
    (forall n h s, v <> CounterSubstitution n h s) -> inline_content v.

Definition text_of (v : val) : string := match v with StringElement s | VStr s => s | _ => "" end.
Definition is_text (v : val) : Prop := match v with StringElement _ | VStr _ => True | _ => False end.
Lemma merge_texts es : Forall is_text es -> Reduce (VSlice es) = text_value (sconcat (map text_of es)).
Proof.
  intros F. cbn [Reduce]. unfold merge.
  assert (X : forall s0, mloop es ([], s0) = ([], (s0 ++ sconcat (map text_of es))%string)).
  { induction F as [|v l H F IH]; intros s0; cbn [map mloop sconcat fold_right].
    - now rewrite sapp_nil_r.
    - destruct v; try (destruct H; fail); cbn [mstep fst snd text_of]; rewrite IH; unfold sconcat; now rewrite sapp_assoc. }
  rewrite X. cbn [append]. unfold mflush, text_value. cbn [fst snd]. now destruct (String.eqb _ "").
Qed.
Lemma refs_sliced_texts plain ctx look es : looks_up ctx look -> Forall simple_part es ->
  refs_sliced plain ctx (VSlice es) = Ok (text_value (sconcat (map (part_text look) es))).
Proof.
  intros L F. cbn [refs_sliced].
  assert (G : (fix loop (l : list val) : result (list val) :=
                  match l with
                  | [] => Ok []
                  | x :: r => do y <- refs_sliced plain ctx x; do ys <- loop r; Ok (y :: ys)
                  end) es = Ok (map (fun v => VStr (part_text look v)) es)).
  { induction F as [|v es H F IH]; [reflexivity|]. rewrite IH.
    destruct v; try (destruct H; fail); cbn [refs_sliced bind map part_text]; try reflexivity.
    rewrite (valueForAttributeRef_string _ _ _ _ L). reflexivity. }
  rewrite G. cbn [bind]. f_equal. rewrite merge_texts; [now rewrite map_map|]. clear. induction es; constructor; [exact I|assumption].
Qed.
Lemma refs_value1 plain ctx look v : looks_up ctx look -> plain_value1 v -> refs_value plain ctx v = Ok (resolve_value1 look v).
Proof.
  intros L P. destruct v; try reflexivity; try (destruct P; fail). cbn [refs_value resolve_value1]. now apply refs_sliced_texts.
Qed.
Lemma refs_value_ok plain ctx look v : looks_up ctx look -> plain_value v -> refs_value plain ctx v = Ok (resolve_value look v).
Proof.
  intros L P.
  assert (G : forall l, Forall plain_value1 l -> (fix loop (l : list val) : result (list val) :=
                  match l with [] => Ok [] | x :: r => do y <- refs_value plain ctx x; do ys <- loop r; Ok (y :: ys) end) l
              = Ok (map (resolve_value1 look) l)).
  { induction 1 as [|x l H F IH]; [reflexivity|]. rewrite (refs_value1 _ _ _ _ L H). cbn [bind]. rewrite IH. reflexivity. }
  destruct v; try (apply (refs_value1 _ _ _ _ L P)); cbn [refs_value resolve_value]; rewrite (G _ P); reflexivity.
Qed.
Lemma refs_attrs_ok plain ctx look a : looks_up ctx look -> plain_attrs a -> refs_attrs plain ctx a = Ok (resolve_attrs look a).
Proof.
  intros L. unfold refs_attrs, resolve_attrs. induction 1 as [|[k v] a H F IH]; [reflexivity|]. cbn [mapM map fst snd] in *.
  rewrite (refs_value_ok _ _ _ _ L H). cbn [bind]. rewrite IH. reflexivity.
Qed.

(** the counters after a history of uses *)
Definition fits (total : nat) (h : list use) : Prop :=
  Forall (in_range total) h /\ (List.length h <= total)%nat.
Lemma use_of_element u : exists v, use_element u = CounterSubstitution (u_name u) (u_hidden u) v /\ use_of (u_name u) (u_hidden u) v = effective u.
Proof.
  destruct u as [n h s]. unfold use_element, effective. cbn [u_hidden u_name u_start]. destruct h; [eexists; split; reflexivity|].
  destruct s as [[z|c]|]; eexists; (split; [reflexivity|]); try reflexivity. cbn. unfold use_of. now rewrite ascii_N_embedding.
Qed.
Lemma counter_step total cs h u : agrees cs h -> (Z.of_nat total < 4294967040)%Z -> fits total (effective u :: h) ->
  exists v cs', use_element u = CounterSubstitution (u_name u) (u_hidden u) v /\ use_of (u_name u) (u_hidden u) v = effective u /\
    valueForCounter cs (u_name u) (u_hidden u) v = Ok (cs', use_text h (effective u)) /\ agrees cs' (effective u :: h).
Proof.
  intros A B [R L]. destruct (use_of_element u) as (v & E & U).
  destruct (shown_counter cs h (effective u) total A R L B) as (cs' & v' & E' & V & A').
  - unfold effective. destruct (u_hidden u) eqn:Hu; [reflexivity|congruence].
  - exists v, cs'. rewrite effective_element, E in E'. injection E' as E1 E2 E3. subst v'. rewrite <- E1, <- E2 in V.
    repeat split; auto. rewrite V. unfold use_text. rewrite <- E2, <- E1. reflexivity.
Qed.

Lemma path_ok plain ctx look total p : looks_up ctx look -> (Z.of_nat total < 4294967040)%Z -> Forall path_part p ->
  forall cs h, agrees cs h -> fits total (fst (resolve_path look h p)) ->
  exists cs' vs, refs_flat plain ctx cs p = Ok (cs', vs) /\ Forall is_text vs /\ sconcat (map text_of vs) = snd (resolve_path look h p) /\
    agrees cs' (fst (resolve_path look h p)) /\ fits total h.
Proof.
  intros L B. induction 1 as [|x p H F IH]; intros cs h A FT.
  - exists cs, []. cbn in *. repeat split; auto; apply FT.
  - assert (CS : (exists u, x = use_element u) \/ simple_part x /\ resolve_path look h (x :: p) = (fst (resolve_path look h p), (part_text look x ++ snd (resolve_path look h p))%string)).
    { destruct x; cbn in H; try (destruct H; fail); try (now left); right; (split; [exact I|]); cbn [resolve_path]; now destruct (resolve_path look h p). }
    destruct CS as [[u ->]|[S E]].
    + destruct (use_of_element u) as (v & EU & UV). rewrite EU in *. cbn [resolve_path] in *. rewrite UV in *.
      destruct (resolve_path look (effective u :: h) p) as [h' t] eqn:ER. cbn [fst snd] in *.
      assert (FU : fits total (effective u :: h)).
      { clear -ER FT F. revert h' t ER FT. generalize (effective u :: h). induction F as [|x p H F IH]; intros h0 h' t ER FT; cbn in ER; [injection ER as <- <-; exact FT|].
        destruct x; cbn in H; try (destruct H; fail);
          try (destruct (resolve_path look h0 p) as [h1 t1] eqn:E1; injection ER as <- <-; exact (IH _ _ _ E1 FT)).
        destruct (resolve_path look (use_of name hidden x :: h0) p) as [h1 t1] eqn:E1. injection ER as <- <-.
        destruct (IH _ _ _ E1 FT) as [I1 I2]. inversion I1; subst. split; [assumption|]. cbn in I2. lia. }
      destruct (counter_step total cs h u A B FU) as (v' & cs1 & EU' & _ & V & A1). rewrite EU in EU'. injection EU' as <-.
      destruct (IH cs1 (effective u :: h) A1) as (cs' & vs & E & T & ST & A' & _); [rewrite ER; exact FT|]. rewrite ER in *. cbn [fst snd] in *.
      exists cs', (StringElement (use_text h (effective u)) :: vs). cbn [refs_flat]. rewrite V. cbn [bind fst snd]. rewrite E. cbn [bind fst snd].
      split; [reflexivity|]. split; [constructor; [exact I|exact T]|]. split; [unfold sconcat in *; cbn [map fold_right text_of]; now rewrite ST|]. split; [exact A'|].
      destruct FU as [F1 F2]. inversion F1; subst. split; [assumption|]. cbn in F2. lia.
    + rewrite E in *. cbn [fst snd] in *. destruct (IH cs h A FT) as (cs' & vs & E2 & T & ST & A' & FH).
      exists cs', (match x with AttributeReference n => StringElement (ref_text look n) | _ => x end :: vs).
      split; [|split; [constructor; [destruct x; try (destruct S; fail); exact I|exact T]|split; [|auto]]].
      * destruct x; try (destruct S; fail); cbn [refs_flat]; rewrite ?(valueForAttributeRef_string _ _ _ _ L); cbn [bind fst snd as_element]; rewrite E2; reflexivity.
      * unfold sconcat in *. cbn [map fold_right]. rewrite ST. f_equal. destruct x; try (destruct S; fail); reflexivity.
Qed.

Lemma resolve_quoted look again h k es a : resolve look again h (QuotedText k es a) =
  let (h', es') := resolve_all look again h es in (h', QuotedText k (reread look again es es') (resolve_attrs look a)).
Proof. reflexivity. Qed.
(** the histories of uses only grow *)
Lemma resolve_path_grows look total p : forall h, fits total (fst (resolve_path look h p)) -> fits total h.
Proof.
  induction p as [|x p IH]; intros h FT; [exact FT|].
  assert (CS : fst (resolve_path look h (x :: p)) = fst (resolve_path look h p) \/ exists u, fst (resolve_path look h (x :: p)) = fst (resolve_path look (u :: h) p)).
  { destruct x; cbn [resolve_path]; try (destruct (resolve_path look h p); left; reflexivity).
    right. exists (use_of name hidden x). now destruct (resolve_path look (use_of name hidden x :: h) p). }
  destruct CS as [E|[u E]]; rewrite E in FT; [now apply IH|]. destruct (IH _ FT) as [F1 F2]. inversion F1; subst. split; [assumption|]. cbn in F2. lia.
Qed.

Lemma resolve_grows look again total : forall n,
  (forall v h, (vsize v <= n)%nat -> fits total (fst (resolve look again h v)) -> fits total h) /\
  (forall l h, (sizes l <= n)%nat -> fits total (fst (resolve_all look again h l)) -> fits total h).
Proof.
  assert (LOC : forall l h, fits total (fst (resolve_location look h l)) -> fits total h).
  { intros l h F. destruct l; try exact F. destruct l; try exact F. cbn [resolve_location] in F. apply (resolve_path_grows look total l). now destruct (resolve_path look h l). }
  induction n as [|n [IHv IHl]].
  - split; [intros v h H; destruct v; cbn [vsize] in H; lia|]. intros [|x l] h H F; [exact F|]. destruct x; cbn [sizes vsize] in H; lia.
  - assert (V : forall v h, (vsize v <= S n)%nat -> fits total (fst (resolve look again h v)) -> fits total h).
    { intros v h H F. destruct v; try exact F; try (cbn [resolve fst] in F; match type of F with context [resolve_location look h ?x] => apply (LOC x); destruct (resolve_location look h x); exact F end).
      - cbn [resolve fst] in F. destruct F as [F1 F2]. inversion F1; subst. split; [assumption|]. cbn in F2. lia.
      - rewrite resolve_quoted in F. apply (IHl elements); [cbn [vsize] in H; fold sizes in H; fold asizes in H; lia|]. destruct (resolve_all look again h elements); exact F. }
    split; [exact V|]. intros l. induction l as [|x l IH]; intros h H F; [exact F|]. cbn [sizes] in H. cbn [resolve_all] in F.
    destruct (resolve look again h x) as [h1 x'] eqn:E1. destruct (resolve_all look again h1 l) as [h2 l'] eqn:E2. cbn [fst] in F.
    apply (V x); [lia|]. rewrite E1. cbn [fst]. apply IH; [lia|]. rewrite E2. exact F.
Qed.
Lemma resolve_all_grows look again total l h : fits total (fst (resolve_all look again h l)) -> fits total h.
Proof. apply (proj2 (resolve_grows look again total (sizes l))). lia. Qed.

(** [again] is what reading the content again with the substitutions [subs] gives *)
Definition reads (parse : list val -> list string -> result (list val)) (subs : option (list string)) (again : option (list val -> list val)) : Prop :=
  match subs with
  | Some s => exists f, again = Some f /\ forall es, parse es s = Ok (f es)
  | None => again = None
  end.
Section Deep.
  Variables (plain : list val -> result string) (parse : list val -> list string -> result (list val)) (ctx : ctxattrs).
  Variables (look : string -> option string) (subs : option (list string)) (again : option (list val -> list val)) (total : nat).
  Hypothesis L : looks_up ctx look.
  Hypothesis B : (Z.of_nat total < 4294967040)%Z.
  Hypothesis P : reads parse subs again.

  Lemma location_ok l : plain_location l -> forall cs h, agrees cs h -> fits total (fst (resolve_location look h l)) ->
    exists cs', agrees cs' (fst (resolve_location look h l)) /\ fits total h /\
      (forall s p, l = Location s (VSlice p) -> exists vs, refs_flat plain ctx cs p = Ok (cs', vs) /\ Location s (Reduce (VSlice vs)) = snd (resolve_location look h l)) /\
      ((forall s p, l <> Location s (VSlice p)) -> cs' = cs /\ snd (resolve_location look h l) = l).
  Proof.
    intros PL cs h A FT.
    assert (D : (exists s p, l = Location s (VSlice p)) \/ (forall s p, l <> Location s (VSlice p)) /\ resolve_location look h l = (h, l)).
    { destruct l; try (right; split; [discriminate|reflexivity]). destruct l; try (right; split; [discriminate|reflexivity]). left. eauto. }
    destruct D as [(s & p & ->)|[N E]].
    - cbn [resolve_location] in *. cbn [plain_location] in PL. destruct (resolve_path look h p) as [h' t] eqn:E. cbn [fst snd] in *.
      destruct (path_ok plain ctx look total p L B PL cs h A) as (cs' & vs & E1 & T & ST & A' & FH); [rewrite E; exact FT|]. rewrite E in *. cbn [fst snd] in *.
      exists cs'. split; [exact A'|]. split; [exact FH|]. split; [|intros N; now destruct (N s p)].
      intros s0 p0 [= <- <-]. exists vs. split; [exact E1|]. rewrite merge_texts by exact T. now rewrite ST.
    - rewrite E in *. cbn [fst snd] in *. exists cs. split; [exact A|]. split; [exact FT|]. split; [intros s p ->; now destruct (N s p)|auto].
  Qed.

  Lemma deep : forall fuel es, (sizes es < fuel)%nat -> Forall inline_content es -> forall cs h, agrees cs h -> fits total (fst (resolved look again h es)) ->
    exists cs', refs_reparse plain parse ctx fuel subs cs es = Ok (cs', snd (resolved look again h es)) /\ agrees cs' (fst (resolved look again h es)) /\ fits total h.
  Proof.
    induction fuel as [|f IH]; intros es SZ IC cs h A FT; [lia|]. cbn [refs_reparse].
    assert (ELEM : forall e, (vsize e <= f)%nat -> inline_content e -> forall cs h, agrees cs h -> fits total (fst (resolve look again h e)) ->
      exists cs', refs_elem plain ctx (refs_reparse plain parse ctx f subs) cs e = Ok (cs', snd (resolve look again h e), set_reference look e) /\
        agrees cs' (fst (resolve look again h e)) /\ fits total h).
    { clear es SZ IC cs h A FT. intros e SZ IC cs h A FT. inversion IC as [k es a Hes Ha|u|a l Ha Hl|a l Ha Hl|a l Ha Hl|v GE GL NC]; subst e.
      - rewrite resolve_quoted in *. destruct (resolve_all look again h es) as [h' es'] eqn:E. cbn [fst snd] in *.
        assert (SZ' : (sizes es < f)%nat) by (cbn [vsize] in SZ; fold sizes in SZ; fold asizes in SZ; lia).
        destruct (IH es SZ' Hes cs h A) as (cs' & E1 & A1 & F1); [unfold resolved; rewrite E; exact FT|]. unfold resolved in *. rewrite E in *. cbn [fst snd] in *.
        exists cs'. split; [|auto]. cbn [refs_elem getElements getAttributes]. rewrite (refs_attrs_ok _ _ _ _ L Ha). cbn [bind]. rewrite E1. reflexivity.
      - destruct (use_of_element u) as (v & EU & UV). rewrite EU in *. cbn [resolve] in *. rewrite UV in *. cbn [fst snd] in *.
        destruct (counter_step total cs h u A B FT) as (v' & cs1 & EU' & _ & V & A1). rewrite EU in EU'. injection EU' as <-.
        exists cs1. split; [|split; [exact A1|]]; [cbn [refs_elem]; rewrite V; reflexivity|]. destruct FT as [F1 F2]. inversion F1; subst. split; [assumption|]. cbn in F2. lia.
      - cbn [resolve] in *. destruct (location_ok l Hl cs h A) as (cs' & A1 & F1 & G1 & G2).
        { destruct (resolve_location look h l); exact FT. }
        exists cs'. destruct (resolve_location look h l) as [h' l'] eqn:E. cbn [fst snd] in *. split; [|auto].
        cbn [refs_elem getElements getLocation getAttributes]. rewrite (refs_attrs_ok _ _ _ _ L Ha). cbn [bind].
        destruct l; try (destruct G2 as [-> ->]; [discriminate|reflexivity]). destruct l; try (destruct G2 as [-> ->]; [discriminate|reflexivity]).
        destruct (G1 _ _ eq_refl) as (vs & E2 & E3). rewrite E2. cbn [bind fst snd]. rewrite E3. reflexivity.
      - cbn [resolve] in *. destruct (location_ok l Hl cs h A) as (cs' & A1 & F1 & G1 & G2).
        { destruct (resolve_location look h l); exact FT. }
        exists cs'. destruct (resolve_location look h l) as [h' l'] eqn:E. cbn [fst snd] in *. split; [|auto].
        cbn [refs_elem getElements getLocation getAttributes]. rewrite (refs_attrs_ok _ _ _ _ L Ha). cbn [bind].
        destruct l; try (destruct G2 as [-> ->]; [discriminate|reflexivity]). destruct l; try (destruct G2 as [-> ->]; [discriminate|reflexivity]).
        destruct (G1 _ _ eq_refl) as (vs & E2 & E3). rewrite E2. cbn [bind fst snd]. rewrite E3. reflexivity.
      - cbn [resolve] in *. destruct (location_ok l Hl cs h A) as (cs' & A1 & F1 & G1 & G2).
        { destruct (resolve_location look h l); exact FT. }
        exists cs'. destruct (resolve_location look h l) as [h' l'] eqn:E. cbn [fst snd] in *. split; [|auto].
        cbn [refs_elem getElements getLocation getAttributes]. rewrite (refs_attrs_ok _ _ _ _ L Ha). cbn [bind].
        destruct l; try (destruct G2 as [-> ->]; [discriminate|reflexivity]). destruct l; try (destruct G2 as [-> ->]; [discriminate|reflexivity]).
        destruct (G1 _ _ eq_refl) as (vs & E2 & E3). rewrite E2. cbn [bind fst snd]. rewrite E3. reflexivity.
      - exists cs. destruct v; cbn [getElements getLocation] in *; try discriminate; try (split; [reflexivity|split; [exact A|exact FT]]).
        + split; [|split; [exact A|exact FT]]. cbn [refs_elem set_reference]. rewrite (valueForAttributeRef_string _ _ _ _ L). reflexivity.
        + exfalso. now apply (NC name hidden v). }
    assert (LOOP : forall l, (sizes l <= f)%nat -> Forall inline_content l -> forall cs h, agrees cs h -> fits total (fst (resolve_all look again h l)) ->
      exists cs', refs_loop plain ctx (refs_reparse plain parse ctx f subs) cs l = Ok (cs', snd (resolve_all look again h l), existsb (set_reference look) l) /\
        agrees cs' (fst (resolve_all look again h l)) /\ fits total h).
    { clear es SZ IC cs h A FT. intros l SZ IC. induction IC as [|e l He Hl IHl]; intros cs h A FT.
      - exists cs. cbn in *. auto.
      - cbn [sizes] in SZ. cbn [resolve_all] in *. destruct (resolve look again h e) as [h1 e'] eqn:E1. destruct (resolve_all look again h1 l) as [h2 l'] eqn:E2. cbn [fst snd] in *.
        assert (F1 : fits total h1) by (apply (resolve_all_grows look again total l h1); rewrite E2; exact FT).
        destruct (ELEM e ltac:(lia) He cs h A) as (cs1 & X1 & A1 & Fh); [rewrite E1; exact F1|]. rewrite E1 in *. cbn [fst snd] in *.
        destruct (IHl ltac:(lia) cs1 h1 A1) as (cs2 & X2 & A2 & _); [rewrite E2; exact FT|]. rewrite E2 in *. cbn [fst snd] in *.
        exists cs2. split; [|auto]. cbn [refs_loop existsb]. rewrite X1. cbn [bind]. rewrite X2. reflexivity. }
    unfold resolved in *. destruct (resolve_all look again h es) as [h' es'] eqn:E. cbn [fst snd] in *.
    destruct (LOOP es ltac:(lia) IC cs h A) as (cs' & X & A1 & Fh); [rewrite E; exact FT|]. rewrite E in *. cbn [fst snd] in *.
    exists cs'. split; [|auto]. rewrite X. cbn [bind]. unfold reread. unfold reads in P. destruct subs as [s|]; [|now rewrite P].
    destruct P as (g & -> & PG). destruct (existsb (set_reference look) es); [|reflexivity]. now rewrite PG.
  Qed.
End Deep.

(** C49: every reference, at every depth of quoted text and in the attributes and paths of links and images, is replaced by the value of its
    attribute if that is set and by its own source text otherwise; counters are replaced in reading order; the content of an element is read
    again (by the second phase of the substitutions) exactly if a reference directly in it was replaced; nothing else changes. *)
Theorem C49_references_replaced :
  forall plain parse ctx look subs again total cs h es, looks_up ctx look -> (Z.of_nat total < 4294967040)%Z ->
  reads parse subs again ->
  Forall inline_content es -> agrees cs h -> fits total (fst (resolved look again h es)) ->
  exists cs', replaceRefs plain parse ctx subs cs es = Ok (cs', snd (resolved look again h es)) /\ agrees cs' (fst (resolved look again h es)).
Proof.
  intros plain parse ctx look subs again total cs h es L B P IC A FT. unfold replaceRefs, refs_fuel.
  destruct (deep plain parse ctx look subs again total L B P (S (sizes es)) es ltac:(lia) IC cs h A FT) as (cs' & E & A' & _). eauto.
Qed.
Print Assumptions C49_references_replaced.
(** on the text level, for content without quoted text *)
Definition leaf (v : val) : Prop :=
  getElements v = None /\ getLocation v = None /\ (forall n h s, v <> CounterSubstitution n h s) /\ (forall l, v <> VSlice l).
Definition subst_token (look : string -> option string) (t : token) : list token :=
  match t with Elem (AttributeReference n) => chars (ref_text look n) | _ => [t] end.
Definition replaced (look : string -> option string) (e : val) : val := match e with AttributeReference n => StringElement (ref_text look n) | _ => e end.
Theorem C49_text :
  forall plain ctx look cs es, looks_up ctx look -> Forall leaf es ->
  exists es', refs_flat plain ctx cs es = Ok (cs, es') /\
    tokens_of es' = flat_map (subst_token look) (tokens_of es).
Proof.
  intros plain ctx look cs es L F. induction F as [|e es (H1 & H2 & H3 & H4) F (es' & E & T)].
  - exists []. split; reflexivity.
  - assert (CH : forall s, flat_map (subst_token look) (chars s) = chars s) by (induction s as [|c s IHs]; cbn; congruence).
    exists (replaced look e :: es'). 
    assert (G : (match e with
               | AttributeReference n => do vr <- valueForAttributeRef plain ctx n; Ok (cs, as_element (fst vr))
               | CounterSubstitution n h v => do cv <- valueForCounter cs n h v;
                                              Ok (fst cv, StringElement (snd cv))
               | _ => Ok (cs, e)
               end) = Ok (cs, replaced look e)).
    { destruct e; cbn [getElements] in H1; try discriminate; try reflexivity.
      - rewrite (valueForAttributeRef_string _ _ _ _ L). reflexivity.
      - exfalso. now apply (H3 name hidden e). }
    cbn [refs_flat]. rewrite G. cbn [bind fst snd]. rewrite E. cbn [bind fst snd]. split; [reflexivity|].
    unfold tokens_of in *. cbn [flat_map]. rewrite flat_map_app, <- T. f_equal.
    destruct e; cbn [getElements] in H1; try discriminate; try reflexivity; cbn [replaced tokens flat_map subst_token app].
    + now rewrite CH.
    + exfalso. now apply (H4 l).
    + now rewrite CH.
    + now rewrite app_nil_r.
Qed.
Print Assumptions C49_text.

(** in attribute values (and locations): text and references become one string *)
Theorem C49_attribute_values :
  forall plain ctx look es, looks_up ctx look ->
  Forall (fun v => match v with StringElement _ | VStr _ | AttributeReference _ => True | _ => False end) es ->
  refs_value plain ctx (VSlice es) =
    Ok (let s := sconcat (map (part_text look) es) in if String.eqb s "" then VNil else VStr s).
Proof. intros. cbn [refs_value]. now apply refs_sliced_texts. Qed.
Print Assumptions C49_attribute_values.

Theorem C49_example_hyp :
  let ctx := mkCtx [("a", VStr "A")] [("a", VStr "ignored"); ("b", VStr "B")] in
  let look := fun n => if String.eqb n "a" then Some "A" else if String.eqb n "b" then Some "B" else None in
  let es := [StringElement "x "; use_element (mkUse "n" false None);
             QuotedText "*" [AttributeReference "b"; AttributeReference "c"; use_element (mkUse "n" false None)] [("roles", VRoles [VSlice [AttributeReference "a"; StringElement "z"]])];
             InlineLink [] (Location "https://" (VSlice [StringElement "h/"; AttributeReference "b"; use_element (mkUse "n" false None)]))] in
  looks_up ctx look /\ Forall inline_content es /\ fits 3 (fst (resolved look (Some (@List.rev val)) [] es)) /\
  snd (resolved look (Some (@List.rev val)) [] es) =
    [StringElement "x "; StringElement "1"; QuotedText "*" [StringElement "2"; StringElement "{c}"; StringElement "B"] [("roles", VRoles [VStr "Az"])];
     InlineLink [] (Location "https://" (VStr "h/B3"))].
Proof.
  cbn zeta. split; [|split; [|split; [|reflexivity]]].
  - intros n. unfold cget. cbn. destruct (String.eqb_spec n "a") as [->|]; [reflexivity|]. now destruct (String.eqb n "b").
  - assert (IL : forall v, getElements v = None -> getLocation v = None -> (forall n h s, v <> CounterSubstitution n h s) -> inline_content v) by (exact ic_leaf).
    constructor; [now apply IL|]. constructor; [apply ic_counter|]. constructor.
    + apply ic_quoted; [|repeat constructor]. constructor; [now apply IL|]. constructor; [now apply IL|]. constructor; [apply ic_counter|constructor].
    + constructor; [|constructor]. apply ic_link; [constructor|]. repeat constructor. now exists (mkUse "n" false None).
  - unfold fits. split; [repeat constructor|cbn; lia].
Qed.
