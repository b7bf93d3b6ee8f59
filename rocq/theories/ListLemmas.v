(** Lemmas for C24 and C25: reading the stack of open lists. *)
From Verif Require Import GoBase GoLemmas Types Attrs Elements Footnotes FilterSpec Lists ListSpec.

Definition item (v : val) : Prop := marker_of v <> None.

Lemma listKind_marker v : listKind v = option_map kind_of_marker (marker_of v).
Proof. now destruct v. Qed.
Lemma matchesStyle_marker e o : matchesStyle e o = true <-> (exists m, marker_of e = Some m /\ marker_of o = Some m).
Proof.
  split.
  - destruct e; try discriminate; destruct o; cbn; try discriminate; rewrite ?String.eqb_eq; intros H; try subst; eauto.
  - intros (m & E & F).
    destruct e; try discriminate; destruct o; try discriminate; cbn in E, F |- *; subst; try reflexivity;
      try congruence; apply String.eqb_eq; congruence.
Qed.

Lemma item_elements v : item v -> exists es, getElements v = Some es.
Proof. destruct v; cbn; intros H; try (now destruct H); eauto. Qed.

(** reading of an item *)
Definition head_of (v : val) : val :=
  match v with
  | CalloutListElement r a _ => CalloutListElement r a []
  | OrderedListElement s a _ => OrderedListElement s a []
  | UnorderedListElement _ _ a _ => UnorderedListElement "" "" a []
  | LabeledListElement s t a _ => LabeledListElement s t a []
  | _ => v
  end.
Lemma reading_item v es : item v -> getElements v = Some es -> reading v = head_of v :: flat_map reading es.
Proof. destruct v; cbn; intros H; try (now destruct H); intros [= ->]; reflexivity. Qed.
Lemma head_set v es : head_of (set_elements v es) = head_of v \/ ~ item v.
Proof. destruct v; cbn; auto; right; intros H; now apply H. Qed.
Lemma item_set v es : item v -> item (set_elements v es).
Proof. destruct v; cbn; auto. Qed.
Lemma marker_set v es : marker_of (set_elements v es) = marker_of v.
Proof. now destruct v. Qed.

Lemma reading_append v x : item v -> reading (append_element v x) = reading v ++ reading x.
Proof.
  intros H. destruct (item_elements v H) as [es G]. unfold append_element. rewrite G.
  rewrite (reading_item _ (es ++ [x]) (item_set v _ H) (get_set _ _ _ G)), (reading_item v es H G).
  destruct (head_set v (es ++ [x])) as [->|N]; [|now destruct N].
  rewrite flat_map_app. cbn [flat_map]. rewrite app_nil_r. reflexivity.
Qed.
Lemma item_append v x : item v -> item (append_element v x).
Proof. intros H. destruct (item_elements v H) as [es G]. unfold append_element. rewrite G. now apply item_set. Qed.
Lemma marker_append v x : marker_of (append_element v x) = marker_of v.
Proof. unfold append_element. destruct (getElements v); [apply marker_set|reflexivity]. Qed.

(** ** invariant of the stack *)
Definition olist_ok (l : olist) : Prop :=
  exists m, ol_kind l = kind_of_marker m /\ Forall (fun i => marker_of i = Some m) (ol_init l ++ [ol_last l]).
Lemma olist_last l : olist_ok l -> item (ol_last l).
Proof. intros (m & _ & F). apply Forall_app in F. destruct F as [_ F]. inversion F as [|? ? E]; subst. unfold item. rewrite E. discriminate. Qed.
Lemma olist_init l x : olist_ok l -> In x (ol_init l) -> item x.
Proof. intros (m & _ & F) I. rewrite Forall_forall in F. unfold item. rewrite (F x); [discriminate|]. apply in_or_app. now left. Qed.
Lemma attach_ok l p : olist_ok l -> olist_ok (attach l p).
Proof.
  destruct p as [b|]; [|auto]. intros (m & K & F). exists m. split; [exact K|]. cbn [attach ol_init ol_last].
  apply Forall_app in F. destruct F as [F1 F2]. inversion F2 as [|? ? E]; subst. apply Forall_app. split; [exact F1|].
  constructor; [|constructor]. now rewrite marker_append.
Qed.

(** reading of the stack *)
Definition lread (l : olist) : list val := reading (to_block l).
Definition pread (p : option val) : list val := match p with Some b => reading b | None => [] end.
Definition sread (s : list olist) : list val := flat_map lread (List.rev s).

Lemma set_head_app a x y : x <> [] -> set_head_attrs a (x ++ y) = set_head_attrs a x ++ y.
Proof. destruct x; [congruence|reflexivity]. Qed.
Lemma reading_item_nonempty v : item v -> reading v <> [].
Proof. intros H. destruct (item_elements v H) as [es G]. rewrite (reading_item v es H G). discriminate. Qed.

Lemma lread_last l x' y : olist_ok l -> item x' -> reading x' = reading (ol_last l) ++ y ->
  reading (ListBlock (ol_kind l) (ol_attrs l) (ol_init l ++ [x'])) = lread l ++ y.
Proof.
  intros O I E. unfold lread, to_block. cbn [reading]. destruct (ol_init l) as [|i r] eqn:EI; cbn [app flat_map].
  - rewrite E, !app_nil_r, set_head_app; [reflexivity|]. apply reading_item_nonempty. now apply olist_last.
  - rewrite !flat_map_app. cbn [flat_map]. rewrite !app_nil_r, E, !app_assoc. reflexivity.
Qed.
Lemma lread_attach l p : olist_ok l -> lread (attach l p) = lread l ++ pread p.
Proof.
  intros O. destruct p as [b|]; [|cbn; now rewrite app_nil_r]. cbn [pread].
  exact (lread_last l (append_element (ol_last l) b) (reading b) O
    (item_append _ _ (olist_last l O)) (reading_append _ _ (olist_last l O))).
Qed.
Lemma lread_more l e : olist_ok l ->
  reading (ListBlock (ol_kind l) (ol_attrs l) ((ol_init l ++ [ol_last l]) ++ [e])) = lread l ++ reading e.
Proof.
  intros O. unfold lread, to_block. cbn [reading]. destruct (ol_init l) as [|i r] eqn:EI; cbn [app flat_map].
  - now rewrite !app_nil_r.
  - rewrite !flat_map_app. cbn [flat_map]. now rewrite !app_nil_r, !app_assoc.
Qed.

Lemma close_all_read s : forall p, Forall olist_ok s -> (s <> [] \/ p <> None) -> reading (close_all p s) = sread s ++ pread p.
Proof.
  unfold sread. induction s as [|l r IH]; intros p O N; cbn [close_all].
  - destruct p; [reflexivity|]. destruct N as [N|N]; now destruct N.
  - inversion O as [|? ? O1 O2]; subst. rewrite IH; [|exact O2|right; discriminate].
    cbn [pread List.rev]. rewrite flat_map_app. cbn [flat_map]. rewrite app_nil_r.
    fold (lread (attach l p)). rewrite lread_attach by exact O1. now rewrite !app_assoc.
Qed.

Lemma find_parent_read s : forall p e l r, Forall olist_ok s -> find_parent p s e = Some (l, r) ->
  sread (l :: r) = sread s ++ pread p /\ Forall olist_ok (l :: r) /\
  exists l0, In l0 s /\ canAdd l0 e = true /\ ol_kind l = ol_kind l0 /\ ol_attrs l = ol_attrs l0 /\ marker_of (ol_last l) = marker_of (ol_last l0) .
Proof.
  unfold sread. induction s as [|x s IH]; intros p e l r O; cbn [find_parent]; [discriminate|].
  inversion O as [|? ? O1 O2]; subst. destruct (canAdd x e) eqn:C.
  - intros [= <- <-]. cbn [List.rev]. rewrite !flat_map_app. cbn [flat_map]. rewrite !app_nil_r, lread_attach by exact O1.
    rewrite app_assoc. split; [reflexivity|]. split; [constructor; [now apply attach_ok|exact O2]|].
    exists x. split; [now left|]. split; [exact C|]. destruct p; cbn; repeat split. apply marker_append.
  - intros H. destruct (IH _ _ _ _ O2 H) as (E & OK & l0 & I & R). split.
    + rewrite E. cbn [pread List.rev]. fold (lread (attach x p)). rewrite lread_attach by exact O1.
      rewrite flat_map_app. cbn [flat_map]. now rewrite app_nil_r, !app_assoc.
    + split; [exact OK|]. exists l0. split; [now right|exact R].
Qed.
Lemma pops_read n : forall p s, Forall olist_ok s -> pops n p s <> [] ->
  sread (pops n p s) = sread s ++ pread p /\ Forall olist_ok (pops n p s).
Proof.
  unfold sread. induction n as [|n IH]; intros p [|l s] O N; try (now destruct N); inversion O as [|? ? O1 O2]; subst; cbn [pops] in *.
  - cbn [List.rev]. rewrite !flat_map_app. cbn [flat_map]. rewrite !app_nil_r, lread_attach by exact O1.
    rewrite app_assoc. split; [reflexivity|]. constructor; [now apply attach_ok|exact O2].
  - destruct (IH _ _ O2 N) as [E OK]. split; [|exact OK]. rewrite E. cbn [pread List.rev].
    fold (lread (attach l p)). rewrite lread_attach by exact O1.
    rewrite flat_map_app. cbn [flat_map]. now rewrite app_nil_r, !app_assoc.
Qed.

(** check boxes do not matter *)
Lemma mdel_mset {V} (m : gomap V) k v : mdel (mset m k v) k = mdel m k.
Proof.
  induction m as [|[k' v'] m IH]; cbn [mset mdel].
  - now rewrite String.eqb_refl.
  - destruct (String.eqb k k') eqn:E; cbn [mdel]; rewrite ?E, ?String.eqb_refl; [reflexivity|]. now rewrite IH.
Qed.
Lemma reading_interactive b e : reading (interactive_if b e) = reading e.
Proof.
  destruct b; [|reflexivity]. destruct e; try reflexivity. cbn [interactive_if interactive reading].
  f_equal. destruct (String.eqb _ _); [reflexivity|]. destruct elements as [|x r]; [reflexivity|]. destruct x; try reflexivity.
  cbn [flat_map reading]. f_equal. f_equal. f_equal. apply mdel_mset.
Qed.
Lemma marker_interactive b e : marker_of (interactive_if b e) = marker_of e.
Proof. destruct b; [|reflexivity]. now destruct e. Qed.
Lemma marker_adjust e t : item e -> item (adjustStyle e t).
Proof. destruct e; auto. cbn. destruct t; auto. destruct (ol_first o); auto. discriminate. Qed.
Lemma reading_adjust e t : reading (adjustStyle e t) = reading e.
Proof. destruct e; try reflexivity. cbn. destruct t; [|reflexivity]. destruct (ol_first o); reflexivity. Qed.
Lemma attrs_adjust e t : getAttributes (adjustStyle e t) = getAttributes e.
Proof. destruct e; try reflexivity. cbn. destruct t; [|reflexivity]. destruct (ol_first o); reflexivity. Qed.

Lemma newList_ok e : item e -> olist_ok (newList e) /\ lread (newList e) = reading e.
Proof.
  intros I. assert (M : marker_of (withAttrs e []) = marker_of e) by (destruct e; reflexivity). split.
  - unfold item in I. destruct (marker_of e) as [m|] eqn:E; [|congruence]. exists m. unfold newList. cbn [ol_kind ol_init ol_last app].
    rewrite listKind_marker, E. split; [reflexivity|]. constructor; [|constructor]. now rewrite marker_interactive, M.
  - unfold newList, lread, to_block. cbn [ol_kind ol_attrs ol_init ol_last app reading flat_map]. rewrite app_nil_r, reading_interactive.
    destruct e; cbn in I; try (now destruct I); reflexivity.
Qed.

(** adding to a list that accepts the element *)
Lemma canAdd_item l e : item e -> canAdd l e = true ->
  exists k, listKind e = Some k /\ k = ol_kind l /\ exists m, marker_of e = Some m /\ marker_of (ol_last l) = Some m.
Proof.
  intros I C. assert (D : exists k, listKind e = Some k /\ canAdd l e = (String.eqb k (ol_kind l) && matchesStyle e (ol_last l))%bool).
  { destruct e; cbn in I; try (now destruct I); eexists; split; reflexivity. }
  destruct D as (k & K & D). rewrite C in D. symmetry in D. apply andb_prop in D. destruct D as [D1 D2].
  apply String.eqb_eq in D1. apply matchesStyle_marker in D2. exists k. auto.
Qed.
Lemma list_add_item l e : item e -> (exists k, listKind e = Some k /\ k = ol_kind l) ->
  list_add l e = Ok (mkOL (ol_kind l) (ol_attrs l) (ol_init l ++ [ol_last l]) (interactive_if (hasOption (ol_attrs l) "interactive") e)).
Proof.
  intros I (k & K & ->). destruct e; cbn in I; try (now destruct I); unfold list_add; rewrite K, String.eqb_refl; reflexivity.
Qed.
Lemma list_add_cont l off x : (match x with RawLine _ => False | _ => True end) ->
  list_add l (ListContinuation off x) = Ok (mkOL (ol_kind l) (ol_attrs l) (ol_init l) (append_element (ol_last l) x)).
Proof. intros N. destruct x; try (now destruct N); reflexivity. Qed.
Lemma list_input_cases e : list_input e -> item e \/ exists off x, e = ListContinuation off x /\ match x with RawLine _ => False | _ => True end.
Proof. destruct e; cbn; intros H; try (now destruct H); try (left; discriminate). right. eauto. Qed.

Lemma add_read l0 l e : olist_ok l -> list_input e -> canAdd l0 e = true -> ol_kind l = ol_kind l0 ->
  marker_of (ol_last l) = marker_of (ol_last l0) ->
  exists l', list_add l e = Ok l' /\ olist_ok l' /\ lread l' = lread l ++ reading e.
Proof.
  intros O LI C K M. destruct (list_input_cases e LI) as [I|(off & x & -> & N)].
  - destruct (canAdd_item _ _ I C) as (k & K1 & K2 & m & M1 & M2).
    rewrite (list_add_item l e I) by (exists k; split; [exact K1|congruence]). eexists. split; [reflexivity|]. split.
    + destruct O as (m' & OK & F). exists m'. split; [exact OK|]. cbn [ol_init ol_last].
      apply Forall_app. split; [exact F|]. constructor; [|constructor].
      apply Forall_app in F. destruct F as [_ F]. inversion F as [|? ? E]; subst. rewrite marker_interactive. congruence.
    + unfold lread at 1, to_block. cbn [ol_kind ol_attrs ol_init ol_last]. rewrite (lread_more l _ O). now rewrite reading_interactive.
  - rewrite (list_add_cont l off x N). eexists. split; [reflexivity|]. split.
    + exact (attach_ok l (Some x) O).
    + exact (lread_attach l (Some x) O).
Qed.

Lemma pops_item e s : item e -> (match e with ListContinuation off _ => pops (Z.to_nat off) None s | _ => s end) = s.
Proof. destruct e; intros I; try reflexivity. now destruct I. Qed.

(** one element *)
Lemma step_read s e s' : Forall olist_ok s -> list_input e -> arrange_step s e = Ok s' ->
  Forall olist_ok s' /\ s' <> [] /\ sread s' = sread s ++ reading e.
Proof.
  intros O LI H. unfold arrange_step in H.
  assert (P : exists s0, (match e with ListContinuation off _ => pops (Z.to_nat off) None s | _ => s end) = s0 /\
             (s0 <> [] \/ item e -> sread s0 = sread s /\ Forall olist_ok s0)).
  { destruct (list_input_cases e LI) as [I|(off & x & -> & N)].
    - rewrite (pops_item e s I). eexists. split; [reflexivity|]. auto.
    - eexists. split; [reflexivity|]. intros [NE|NE]; [|now destruct NE].
      destruct (pops_read _ None s O NE) as [A B]. cbn in A. rewrite app_nil_r in A. auto. }
  destruct P as (s0 & EP & P). rewrite EP in H. clear EP.
  destruct (find_parent None s0 e) as [[l r]|] eqn:F.
  - assert (N : s0 <> []) by (intros ->; discriminate). destruct (P (or_introl N)) as [E0 O0].
    destruct (find_parent_read _ _ _ _ _ O0 F) as (E & OK & l0 & I0 & C & K & A & M).
    cbn [pread] in E. rewrite app_nil_r in E. inversion OK as [|? ? OL OR]; subst.
    destruct (add_read l0 l e OL LI C K M) as (l' & L1 & L2 & L3). rewrite L1 in H. cbn in H. injection H as <-.
    split; [now constructor|]. split; [discriminate|].
    rewrite <- E0, <- E. unfold sread. cbn [List.rev]. rewrite !flat_map_app. cbn [flat_map]. now rewrite !app_nil_r, L3, app_assoc.
  - destruct (listKind e) as [k|] eqn:K; [|discriminate]. injection H as <-.
    assert (I : item e) by (intros C; rewrite listKind_marker, C in K; discriminate).
    destruct (P (or_intror I)) as [E0 O0].
    destruct (newList_ok (adjustStyle e (match s0 with [] => None | l :: _ => Some l end)) (marker_adjust _ _ I)) as [N1 N2].
    split; [now constructor|]. split; [discriminate|].
    unfold sread at 1. cbn [List.rev]. rewrite flat_map_app. cbn [flat_map]. rewrite app_nil_r, N2, reading_adjust. fold (sread s0). now rewrite E0.
Qed.
Lemma loop_read es : forall s s', Forall olist_ok s -> Forall list_input es -> arrange_loop s es = Ok s' ->
  Forall olist_ok s' /\ (s <> [] \/ es <> [] -> s' <> []) /\ sread s' = sread s ++ flat_map reading es.
Proof.
  induction es as [|e es IH]; intros s s' O LI; cbn [arrange_loop].
  - intros [= <-]. cbn. rewrite app_nil_r. split; [exact O|]. split; [intros [N|N]; auto|reflexivity].
  - inversion LI as [|? ? L1 L2]; subst. destruct (arrange_step s e) as [s1| |] eqn:E; cbn; try discriminate. intros H.
    destruct (step_read _ _ _ O L1 E) as (O1 & N1 & R1). destruct (IH _ _ O1 L2 H) as (O2 & N2 & R2).
    split; [exact O2|]. split; [intros _; apply N2; now left|]. rewrite R2, R1, app_assoc. reflexivity.
Qed.
Lemma arrange_read es t : Forall list_input es -> es <> [] -> doArrangeListElements es = Ok t -> reading t = flat_map reading es.
Proof.
  intros LI NE. unfold doArrangeListElements. destruct (arrange_loop [] es) as [s| |] eqn:E; cbn; try discriminate. intros [= <-].
  destruct (loop_read _ _ _ (Forall_nil _) LI E) as (O & N & R). rewrite close_all_read; [|exact O|left; apply N; now right].
  cbn [pread]. now rewrite app_nil_r, R.
Qed.

(** ** all lists are homogeneous *)
Definition items_ok (l : olist) : Prop := Forall all_homogeneous (ol_init l ++ [ol_last l]).
Lemma all_hom_item v es : item v -> getElements v = Some es -> (all_homogeneous v <-> Forall all_homogeneous es).
Proof.
  intros I G. split.
  - intros H. apply Forall_forall. intros x Ix w R. apply H. exact (reached_in w v es x G Ix R).
  - intros F w R. inversion R as [|? es' x G' Ix R']; subst.
    + destruct v; cbn in I |- *; try exact Logic.I. now destruct I.
    + rewrite G in G'. injection G' as <-. rewrite Forall_forall in F. now apply (F x Ix w).
Qed.
Lemma all_hom_append v b : item v -> all_homogeneous v -> all_homogeneous b -> all_homogeneous (append_element v b).
Proof.
  intros I H B. destruct (item_elements v I) as [es G].
  assert (G' : getElements (append_element v b) = Some (es ++ [b])) by (unfold append_element; rewrite G; exact (get_set _ _ _ G)).
  apply (all_hom_item _ _ (item_append v b I) G'). apply Forall_app. split; [now apply (all_hom_item v es I G)|now constructor].
Qed.
Lemma all_hom_block l : olist_ok l -> items_ok l -> all_homogeneous (to_block l).
Proof.
  intros (m & K & F) H w R. inversion R as [|? es x G Ix R']; subst.
  - unfold to_block, homogeneous. split; [now destruct (ol_init l)|]. exists m. auto.
  - cbn in G. injection G as <-. unfold items_ok in H. rewrite Forall_forall in H. now apply (H x Ix w).
Qed.
Definition pend_ok (p : option val) : Prop := match p with Some b => all_homogeneous b | None => True end.
Lemma attach_items l p : olist_ok l -> items_ok l -> pend_ok p -> items_ok (attach l p).
Proof.
  intros O H P. destruct p as [b|]; [|exact H]. unfold items_ok in *. cbn [attach ol_init ol_last]. apply Forall_app in H. destruct H as [H1 H2].
  apply Forall_app. split; [exact H1|]. constructor; [|constructor]. inversion H2; subst. apply all_hom_append; auto. now apply olist_last.
Qed.
Definition stack_ok (s : list olist) : Prop := Forall (fun l => olist_ok l /\ items_ok l) s.
Lemma stack_ok_lists s : stack_ok s -> Forall olist_ok s.
Proof. apply Forall_impl. now intros l [H _]. Qed.
Lemma close_all_hom s : forall p, stack_ok s -> pend_ok p -> (s <> [] \/ p <> None) -> all_homogeneous (close_all p s).
Proof.
  induction s as [|l r IH]; intros p S P N; cbn [close_all].
  - destruct p; [exact P|]. destruct N as [N|N]; now destruct N.
  - inversion S as [|? ? [O H] S']; subst. apply IH; [exact S'| |right; discriminate].
    cbn [pend_ok]. apply all_hom_block; [now apply attach_ok|now apply attach_items].
Qed.
Lemma find_parent_hom s : forall p e l r, stack_ok s -> pend_ok p -> find_parent p s e = Some (l, r) -> stack_ok (l :: r).
Proof.
  induction s as [|x s IH]; intros p e l r S P; cbn [find_parent]; [discriminate|].
  inversion S as [|? ? [O H] S']; subst. destruct (canAdd x e).
  - intros [= <- <-]. constructor; [|exact S']. split; [now apply attach_ok|now apply attach_items].
  - apply IH; [exact S'|]. apply all_hom_block; [now apply attach_ok|now apply attach_items].
Qed.
Lemma pops_hom n : forall p s, stack_ok s -> pend_ok p -> stack_ok (pops n p s).
Proof.
  induction n as [|n IH]; intros p [|l s] S P; cbn [pops]; try exact S; inversion S as [|? ? [O H] S']; subst.
  - constructor; [|exact S']. split; [now apply attach_ok|now apply attach_items].
  - apply IH; [exact S'|]. apply all_hom_block; [now apply attach_ok|now apply attach_items].
Qed.
Lemma all_hom_paragraph a es a' : all_homogeneous (Paragraph a es) -> all_homogeneous (Paragraph a' es).
Proof.
  intros H w R. inversion R as [|? es' x G Ix R']; subst; [exact I|]. apply H. exact (reached_in w (Paragraph a es) es' x G Ix R').
Qed.
Lemma all_hom_interactive b e : item e -> all_homogeneous e -> all_homogeneous (interactive_if b e).
Proof.
  intros I H. destruct b; [|exact H]. destruct e; try exact H. cbn [interactive_if interactive].
  rewrite (all_hom_item (UnorderedListElement _ _ _ elements) elements I eq_refl) in H.
  eapply all_hom_item; [discriminate|reflexivity|]. destruct (String.eqb _ _); [exact H|]. destruct elements as [|x r]; [exact H|].
  destruct x; try exact H. inversion H; subst. constructor; [|assumption]. eapply all_hom_paragraph. eassumption.
Qed.
Lemma all_hom_adjust e t : item e -> all_homogeneous e -> all_homogeneous (adjustStyle e t).
Proof.
  intros I H. destruct e; try exact H. cbn. destruct t; [|exact H]. destruct (ol_first o); try exact H.
  rewrite (all_hom_item (UnorderedListElement _ _ _ elements) elements I eq_refl) in H.
  eapply all_hom_item; [discriminate|reflexivity|exact H].
Qed.
Lemma all_hom_withAttrs e a : item e -> all_homogeneous e -> all_homogeneous (withAttrs e a).
Proof.
  intros I H. destruct (item_elements e I) as [es G]. rewrite (all_hom_item e es I G) in H.
  destruct e; cbn in I; try (now destruct I); cbn in G; injection G as ->; eapply all_hom_item; try reflexivity; try discriminate; exact H.
Qed.

Lemma step_hom s e s' : stack_ok s -> list_input e -> all_homogeneous (source_block e) -> arrange_step s e = Ok s' -> stack_ok s'.
Proof.
  intros S LI SB H. destruct (step_read s e s' (stack_ok_lists s S) LI H) as [O' _]. unfold arrange_step in H.
  set (s0 := match e with ListContinuation off _ => pops (Z.to_nat off) None s | _ => s end) in H.
  assert (S0 : stack_ok s0) by (subst s0; destruct e; try exact S; now apply pops_hom).
  destruct (find_parent None s0 e) as [[l r]|] eqn:F.
  - pose proof (find_parent_hom s0 None e l r S0 I F) as SL. inversion SL as [|? ? [OL HL] SR]; subst.
    destruct (list_add l e) as [l'| |] eqn:A; cbn in H; try discriminate. injection H as <-.
    inversion O' as [|? ? OL' OR']; subst. constructor; [|exact SR]. split; [exact OL'|].
    destruct (list_input_cases e LI) as [It|(off & x & -> & N)].
    + assert (E : l' = mkOL (ol_kind l) (ol_attrs l) (ol_init l ++ [ol_last l]) (interactive_if (hasOption (ol_attrs l) "interactive") e)).
      { clear - A It. destruct e; cbn in It; try (now destruct It); unfold list_add in A; cbn [listKind] in A;
          match type of A with context [String.eqb ?a ?b] => destruct (String.eqb a b) end; congruence. }
      subst l'. unfold items_ok in *. cbn [ol_init ol_last]. apply Forall_app. split; [exact HL|]. constructor; [|constructor].
      apply all_hom_interactive; [exact It|]. destruct e; try exact SB. now destruct It.
    + rewrite (list_add_cont l off x N) in A. injection A as <-. exact (attach_items l (Some x) OL HL SB).
  - destruct (listKind e) as [k|] eqn:K; [|discriminate]. injection H as <-.
    assert (It : item e) by (intros C; rewrite listKind_marker, C in K; discriminate).
    assert (SB' : all_homogeneous e) by (destruct e; try exact SB; now destruct It).
    inversion O' as [|? ? OL' OR']; subst. constructor; [|exact S0]. split; [exact OL'|].
    unfold items_ok, newList. cbn [ol_init ol_last app]. constructor; [|constructor].
    assert (I2 := marker_adjust e (match s0 with [] => None | l :: _ => Some l end) It).
    apply all_hom_interactive; [|apply all_hom_withAttrs; [exact I2|now apply all_hom_adjust]].
    destruct (adjustStyle e _); cbn in I2; try (now destruct I2); discriminate.
Qed.
Lemma loop_hom es : forall s s', stack_ok s -> Forall list_input es -> Forall (fun e => all_homogeneous (source_block e)) es ->
  arrange_loop s es = Ok s' -> stack_ok s'.
Proof.
  induction es as [|e es IH]; intros s s' S LI SB; cbn [arrange_loop]; [now intros [= <-]|].
  inversion LI; inversion SB; subst. destruct (arrange_step s e) as [s1| |] eqn:E; cbn; try discriminate.
  apply IH; auto. eapply step_hom; eauto.
Qed.

(** ** nothing fails unless a continuation closes too many lists *)
Lemma step_total s e : Forall olist_ok s -> list_input e -> (item e \/ skipn (match e with ListContinuation off _ => Z.to_nat off | _ => 0 end) s <> []) ->
  exists s', arrange_step s e = Ok s'.
Proof.
  intros O LI H. unfold arrange_step.
  set (s0 := match e with ListContinuation off _ => pops (Z.to_nat off) None s | _ => s end).
  destruct (list_input_cases e LI) as [It|(off & x & -> & N)].
  - assert (E0 : s0 = s) by (subst s0; now apply pops_item). rewrite E0. clear s0 E0.
    destruct (find_parent None s e) as [[l r]|] eqn:F.
    + destruct (find_parent_read _ _ _ _ _ O F) as (_ & OK & l0 & I0 & C & K & A & M). inversion OK; subst.
      destruct (add_read l0 l e) as (l' & -> & _); auto. cbn. eauto.
    + unfold item in It. rewrite listKind_marker. destruct (marker_of e); [|congruence]. cbn. eauto.
  - destruct H as [H|H]; [now destruct H|]. assert (NE : s0 <> []).
    { subst s0. cbn in H. revert H. generalize (@None val). generalize (Z.to_nat off) as n. clear.
      intros n. revert s. induction n as [|n IH]; intros [|l s] p H; cbn in *; try congruence. now apply IH. }
    destruct s0 as [|l r]; [congruence|]. cbn [find_parent canAdd]. rewrite list_add_cont by exact N. cbn. eauto.
Qed.
