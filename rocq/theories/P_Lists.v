(** C24, C25: lists. *)
From Verif Require Import GoBase GoLemmas Types Attrs Elements Footnotes FilterSpec Lists ListSpec ListLemmas ListSib.

(** ** C24: list arrangement conserves elements *)

(** A run of list items and attached blocks is arranged into one list which, read from top to bottom, is the run: every
    item and every attached block, once, in the order of the source. *)
Theorem C24_run_conserved : forall es t,
  es <> [] -> Forall list_input es -> doArrangeListElements es = Ok t -> reading t = flat_map reading es.
Proof. intros es t N L H. now apply arrange_read. Qed.

(** A list holds only items of one kind with one marker, at every depth. *)
Theorem C24_homogeneous : forall es t,
  es <> [] -> Forall list_input es -> Forall (fun e => all_homogeneous (source_block e)) es ->
  doArrangeListElements es = Ok t -> all_homogeneous t.
Proof.
  intros es t N L SB. unfold doArrangeListElements. destruct (arrange_loop [] es) as [s| |] eqn:E; cbn; try discriminate. intros [= <-].
  destruct (loop_read _ _ _ (Forall_nil _) L E) as (_ & NE & _).
  apply close_all_hom; [|exact I|left; apply NE; now right]. eapply loop_hom; [|exact L|exact SB|exact E]. constructor.
Qed.

(** The arrangement of a run fails exactly when some continuation comes after so many blank lines that it closes all the lists that
    are open there ([open_after]: which lists are open); it never panics. *)
Theorem C24_outcome : forall es, Forall list_input es ->
  ((exists t, doArrangeListElements es = Ok t) <-> forall pre e post, es = pre ++ e :: post -> ~ closes_all (open_after pre) e) /\
  ((exists t, doArrangeListElements es = Ok t) \/ doArrangeListElements es = Err "unable to process element in the list").
Proof.
  intros es LI. unfold doArrangeListElements, open_after. destruct (loop_outcome es [] (Forall_nil _) LI) as [A B].
  split.
  - rewrite <- A. split; intros (x & H).
    + destruct (arrange_loop [] es) as [s| |]; try discriminate. eauto.
    + rewrite H. cbn. eauto.
  - destruct B as [(s & ->)| ->]; [left; cbn; eauto|now right].
Qed.

(** In a whole fragment (runs inside delimited blocks included), whatever is arranged reads the same as before. *)
Lemma arrangeElem_delimited k a es :
  arrangeElem (DelimitedBlock k a es) = do es' <- mapM arrangeElem es; Ok (DelimitedBlock k a es').
Proof.
  cbn [arrangeElem].
  match goal with |- bind ?x _ = _ => assert (E : x = mapM arrangeElem es) end.
  { induction es as [|x r IH]; cbn [mapM]; [reflexivity|]. destruct (arrangeElem x); cbn; try reflexivity. now rewrite IH. }
  now rewrite E.
Qed.
Lemma arrangeElem_read : forall v v', arrangeable v -> arrangeElem v = Ok v' -> reading v' = reading v.
Proof.
  fix IH 1. intros v. destruct v; try (intros v' _ [= <-]; reflexivity).
  - intros v' A H. destruct (mapM arrangeElem elements) as [es'| |] eqn:E; rewrite arrangeElem_delimited, E in H; cbn in H; try discriminate.
    injection H as <-. cbn [reading]. f_equal. cbn [arrangeable] in A. clear - IH A E. revert es' A E.
    induction elements as [|x r IHr]; intros es' A E; cbn [mapM] in E; [now injection E as <-|].
    cbn [fold_right] in A. destruct A as [A1 A2].
    destruct (arrangeElem x) as [x'| |] eqn:Ex; cbn in E; try discriminate.
    destruct (mapM arrangeElem r) as [r'| |] eqn:Er; cbn in E; try discriminate. injection E as <-. cbn [flat_map].
    rewrite (IH x x' A1 Ex), (IHr r' A2 eq_refl). reflexivity.
  - intros v' [N L] H. cbn [arrangeElem] in H. cbn [reading]. now apply arrange_read.
Qed.
Theorem C24_conserved : forall es es',
  Forall arrangeable es -> arrangeLists (inl es) = inl es' -> flat_map reading es' = flat_map reading es.
Proof.
  intros es es' A H. cbn [arrangeLists] in H. destruct (arrangeListElements es) as [r| |] eqn:E; try discriminate. injection H as ->.
  revert es' E. unfold arrangeListElements. induction A as [|x es A1 A2 IH]; intros es' E; cbn [mapM] in E; [now injection E as <-|].
  destruct (arrangeElem x) as [x'| |] eqn:Ex; cbn in E; try discriminate.
  destruct (mapM arrangeElem es) as [r'| |] eqn:Er; cbn in E; try discriminate. injection E as <-. cbn [flat_map].
  now rewrite (arrangeElem_read x x' A1 Ex), (IH r' eq_refl).
Qed.

Definition para (s : string) : val := Paragraph [] [StringElement s].
Definition ul (b s : string) : val := UnorderedListElement b "nocheck" [] [para s].
Definition ol_ (st s : string) : val := OrderedListElement st [] [para s].
(** non-vacuity: [* a / ** b / + block / . c / * d], inside an example block *)
Theorem C24_case : arrangeLists (inl [DelimitedBlock "example" []
    [ListElements [ul "1asterisk" "a"; ul "2asterisks" "b"; ListContinuation 0 (para "x"); ol_ "arabic" "c"; ul "1asterisk" "d"]]]) =
  inl [DelimitedBlock "example" [] [ListBlock "unordered_list" []
        [UnorderedListElement "1asterisk" "nocheck" [] [para "a"; ListBlock "unordered_list" []
            [UnorderedListElement "2asterisks" "nocheck" [] [para "b"; para "x"; ListBlock "ordered_list" [] [ol_ "arabic" "c"]]]];
         ul "1asterisk" "d"]]].
Proof. vm_compute. reflexivity. Qed.
Theorem C24_case_inputs : arrangeable (DelimitedBlock "example" []
    [ListElements [ul "1asterisk" "a"; ListContinuation 0 (para "x"); ol_ "arabic" "c"]]) /\
  Forall (fun e => all_homogeneous (source_block e)) [ul "1asterisk" "a"; ListContinuation 0 (para "x"); ol_ "arabic" "c"].
Proof.
  split; [cbn; repeat split; repeat constructor; discriminate|].
  repeat constructor; intros w R; cbn in R; repeat (inversion R as [|? ? ? G I R']; subst; [exact Logic.I|]; clear R; rename R' into R;
    cbn in G; try discriminate; injection G as <-; destruct I as [<-|[]]).
Qed.

(** The full property fails for runs in a block attached to an item: they are not arranged at all (the renderer then
    rejects the document: "unsupported type of element"), although the fragment is arranged without error. *)
Theorem C24_nested_refuted : exists es t run,
  Forall list_input es /\ doArrangeListElements es = Ok t /\ run <> [] /\ Forall list_input run /\ reached (ListElements run) t.
Proof.
  exists [ul "1asterisk" "a"; ListContinuation 0 (DelimitedBlock "example" [] [ListElements [ul "1asterisk" "b"]])].
  eexists. exists [ul "1asterisk" "b"]. split; [repeat constructor|]. split; [vm_compute; reflexivity|]. split; [discriminate|]. split; [repeat constructor|].
  eapply reached_in; [reflexivity|left; reflexivity|].
  eapply reached_in; [reflexivity|right; left; reflexivity|].
  eapply reached_in; [reflexivity|left; reflexivity|]. constructor.
Qed.
(** ... and a continuation after more blank lines than there are open lists makes the whole fragment fail: all of it,
    including the other blocks, is lost. *)
Theorem C24_offset_refuted : exists es x, Forall arrangeable (x :: es) /\ x = para "lost" /\
  arrangeLists (inl (x :: es)) = inr "unable to process element in the list".
Proof.
  exists [ListElements [ul "1asterisk" "a"; ListContinuation 1 (para "b")]], (para "lost").
  split; [|split; vm_compute; reflexivity]. repeat constructor; discriminate.
Qed.

(** ** C25: equal markers give siblings *)

(** Every item is where its marker puts it: the nesting depths and the markers of the items of the result, from top to bottom, are
    those [places] computes from the markers of the run alone.  Together with C24_run_conserved (the items and their contents come in
    the order of the source) this fixes the shape of the result. *)
Theorem C25_levels : forall es t,
  es <> [] -> Forall list_input es -> Forall no_own_list es -> doArrangeListElements es = Ok t -> levels 0 t = places [] es.
Proof. intros es t N L NL H. now apply arrange_levels. Qed.

Definition siblings_in (t : val) (m : marker) (x y : val) : Prop :=
  exists k a i x' y' j, reached (ListBlock k a (i ++ x' :: y' :: j)) t /\ extends m x x' /\ extends m y y'.

(** Item [x] is in a list with marker [m] (its own one, unless its bullet was replaced); [y] has that marker, and between them there
    are only items that belong neither to that list nor to a list around it, and no list opened in between has that marker (and
    blocks are attached without blank lines): in the result they are neighbours in one list. *)
Theorem C25_siblings : forall pre x mid y post t m o above,
  Forall list_input (pre ++ x :: mid ++ y :: post) ->
  marker_of x <> None -> open_after (pre ++ [x]) = m :: o -> marker_of y = Some m ->
  (forall e m', In e mid -> marker_of e = Some m' -> ~ In m' (m :: o)) ->
  (forall e off z, In e mid -> e = ListContinuation off z -> (off <= 0)%Z) ->
  open_after (pre ++ x :: mid) = above ++ m :: o -> ~ In m above ->
  doArrangeListElements (pre ++ x :: mid ++ y :: post) = Ok t -> siblings_in t m x y.
Proof.
  intros pre x mid y post t m o above L Ix Mo My D Z0 AB NA H.
  destruct (siblings pre x mid y post t m o above L Ix Mo My D Z0 AB NA H) as (w & Rw & k & a & i & x' & y' & j & -> & Ex & Ey).
  exists k, a, i, x', y', j. auto.
Qed.
(** the special case of the property: the same marker, deeper items only in between, one kind of bullets per level *)
Theorem C25_same_marker : forall x mid y post t m,
  Forall list_input (x :: mid ++ y :: post) -> marker_of x = Some m -> marker_of y = Some m ->
  (forall e, In e mid -> exists m', marker_of e = Some m' /\ kind_of_marker m' <> kind_of_marker m) ->
  doArrangeListElements (x :: mid ++ y :: post) = Ok t -> siblings_in t m x y.
Proof.
  intros x mid y post t m L Mx My D H.
  assert (OX : open_after [x] = [m]).
  { unfold open_after. cbn [fold_left]. destruct x; cbn in Mx; try discriminate; injection Mx as <-; reflexivity. }
  assert (AB : forall l o, (forall e, In e l -> exists m', marker_of e = Some m' /\ kind_of_marker m' <> kind_of_marker m) ->
             (exists above, o = above ++ [m] /\ Forall (fun m' => kind_of_marker m' <> kind_of_marker m) above) ->
             exists above, fold_left open_step l o = above ++ [m] /\ Forall (fun m' => kind_of_marker m' <> kind_of_marker m) above).
  { induction l as [|e l IH]; intros o De HO; [exact HO|]. cbn [fold_left]. apply IH; [intros e' I; apply De; now right|].
    destruct HO as (above & -> & F). destruct (De e (or_introl eq_refl)) as (m' & Me & K).
    assert (OS : open_step (above ++ [m]) e = match back_to m' (above ++ [m]) with Some o' => o' | None => adjusted (above ++ [m]) m' :: above ++ [m] end).
    { destruct e; cbn in Me; try discriminate; injection Me as <-; reflexivity. }
    rewrite OS. destruct (back_to m' (above ++ [m])) as [o'|] eqn:B.
    - clear OS De. revert B. induction F as [|z above Fz F IHF]; cbn [app back_to].
      + destruct (marker_eqb m' m) eqn:Q; [|discriminate]. apply marker_eqb_eq in Q. congruence.
      + destruct (marker_eqb m' z); [|exact IHF]. intros [= <-]. exists (z :: above). split; [reflexivity|now constructor].
    - exists (adjusted (above ++ [m]) m' :: above). split; [reflexivity|]. constructor; [|exact F].
      unfold adjusted. destruct m'; try exact K. destruct (above ++ [m]) as [|z r]; [exact K|]. destruct z; exact K. }
  destruct (AB mid [m] D) as (above & E & F); [exists []; split; [reflexivity|constructor]|].
  apply (C25_siblings [] x mid y post t m [] above); auto.
  - congruence.
  - intros e m' I Me [C|[]]. subst m'. destruct (D e I) as (m' & Me' & K). congruence.
  - intros e off z I ->. destruct (D _ I) as (m' & C & _). discriminate.
  - cbn [app]. unfold open_after in *. cbn [fold_left] in *. now rewrite OX.
  - intros I. rewrite Forall_forall in F. now apply (F m I).
Qed.
Theorem C25_case :
  let pre := [ul "dash" "0"; ul "1asterisk" "1"] in let x := ul "5asterisks" "x" in let y := ul "2asterisks" "y" in
  let mid := [ol_ "arabic" "m"; ListContinuation 0 (para "c"); LabeledListElement "::" [] [] [para "l"]] in
  let post := [ul "dash" "2"; ol_ "arabic" "z"] in
  let es := pre ++ x :: mid ++ y :: post in
  exists t, Forall list_input es /\ Forall no_own_list es /\ open_after (pre ++ [x]) = [MUnordered "2asterisks"; MUnordered "1asterisk"; MUnordered "dash"] /\
   (forall e m', In e mid -> marker_of e = Some m' -> ~ In m' (open_after (pre ++ [x]))) /\
   (forall e off z, In e mid -> e = ListContinuation off z -> (off <= 0)%Z) /\
   open_after (pre ++ x :: mid) = [MLabeled "::"; MOrdered "arabic"] ++ open_after (pre ++ [x]) /\
   doArrangeListElements es = Ok t /\ map fst (levels 0 t) = [1; 2; 3; 4; 5; 3; 1; 2]%nat.
Proof.
  cbv zeta. eexists. split; [repeat constructor|]. split; [repeat constructor|]. split; [reflexivity|]. split; [|split].
  - intros e m' I M C. cbn in C. destruct I as [<-|[<-|[<-|[]]]]; cbn in M; try discriminate; injection M as <-;
      repeat (destruct C as [C|C]; [discriminate|]); exact C.
  - intros e off z I ->. destruct I as [I|[I|[I|[]]]]; try discriminate. injection I as <- _. lia.
  - split; [reflexivity|]. split; vm_compute; reflexivity.
Qed.

(** The bullets that are written do not decide alone: [* a / - b / - c]: the bullet of [b] is rewritten, so [c] does not find its
    list and is nested in [b]; no list holds both. *)
Definition sublists_with (x y : string) (t : val) : Prop :=
  exists k a items u v bu cu au eu bv cv av ev, reached (ListBlock k a items) t /\ In u items /\ In v items /\
    u = UnorderedListElement bu cu au (para x :: eu) /\ v = UnorderedListElement bv cv av (para y :: ev).
Lemma reached_inv w v : reached w v -> w = v \/ exists es z, getElements v = Some es /\ In z es /\ reached w z.
Proof. intros R. inversion R; subst; [now left|right; eauto]. Qed.
Local Ltac step_reached R :=
  let G := fresh "G" in let I := fresh "I" in apply reached_inv in R; destruct R as [R|(? & ? & G & I & R)]; [try discriminate|cbn in G; try discriminate; injection G as <-].
Theorem C25_refuted : exists t,
  doArrangeListElements [ul "1asterisk" "a"; ul "dash" "b"; ul "dash" "c"] = Ok t /\
  t = ListBlock "unordered_list" [] [UnorderedListElement "1asterisk" "nocheck" [] [para "a";
        ListBlock "unordered_list" [] [UnorderedListElement "2asterisks" "nocheck" [] [para "b";
          ListBlock "unordered_list" [] [ul "3asterisks" "c"]]]]] /\
  ~ sublists_with "b" "c" t.
Proof.
  eexists. split; [vm_compute; reflexivity|]. split; [vm_compute; reflexivity|].
  intros (k & a & items & u & v & bu & cu & au & eu & bv & cv & av & ev & R & Iu & Iv & -> & ->).
  step_reached R; [injection R as -> -> ->; unfold para in *; destruct Iu as [Iu|[]]; destruct Iv as [Iv|[]]; congruence|]. destruct I as [<-|[]]. step_reached R. destruct I as [<-|[<-|[]]]; [step_reached R; destruct I as [<-|[]]; step_reached R|].
  step_reached R; [injection R as -> -> ->; unfold para in *; destruct Iu as [Iu|[]]; destruct Iv as [Iv|[]]; congruence|]. destruct I as [<-|[]]. step_reached R. destruct I as [<-|[<-|[]]]; [step_reached R; destruct I as [<-|[]]; step_reached R|].
  step_reached R; [injection R as -> -> ->; unfold para in *; destruct Iu as [Iu|[]]; destruct Iv as [Iv|[]]; congruence|]. destruct I as [<-|[]]. step_reached R. destruct I as [<-|[]]. step_reached R. destruct I as [<-|[]]. step_reached R.
Qed.

Print Assumptions C24_run_conserved.
Print Assumptions C24_homogeneous.
Print Assumptions C24_outcome.
Print Assumptions C24_conserved.
Print Assumptions C24_nested_refuted.
Print Assumptions C24_offset_refuted.
Print Assumptions C25_levels.
Print Assumptions C25_siblings.
Print Assumptions C25_same_marker.
Print Assumptions C25_refuted.
