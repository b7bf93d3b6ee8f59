(** C54: rendering terminates, cross references included. *)
From Verif Require Import GoBase GoLemmas Types Attrs Aggregate Toc TocRender Escape Merge Elements Ids Locations Indent Footnotes
  Templates Tmpl SectNum RenderAttrs Authors Render RenderKit P_RenderState.

(** rendering with a stack of [depth] calls, [base] being what happens when it is exhausted ([renderElement]: the process dies) *)
Fixpoint renderFrom (E : renv) (base : val -> M string) (depth : nat) (v : val) : M string :=
  match depth with O => base v | S k => renderElementWith E (renderFrom E base k) v end.

Definition KEq {A} (m1 m2 : M A) : Prop := forall st, m1 st = m2 st.
Lemma KEq_closed : closed (@KEq) (fun _ => True) (fun _ => True).
Proof.
  split; try (intros; intro; reflexivity).
  - intros A B m1 m2 f1 f2 H1 H2 st. unfold bindM. rewrite H1. destruct (m2 st) as [[a st']| |]; auto. apply H2.
  - intros B f1 f2 H st. unfold bindM, getAttrs. now apply H.
  - intros B f1 f2 H st. apply H.
  - intros A m1 m2 H st. unfold inBlock. now rewrite H.
  - intros A m1 m2 H st. unfold inList. now rewrite H.
Qed.

Section Rank.
Variable E : renv.
Variable rank : string -> nat.
(** a title refers only to elements of smaller rank *)
Hypothesis ranked : forall id l x id' label, mget (e_refs E) id = Some (VSlice l) -> In x l ->
  occurs (InternalCrossReference (VStr id') label) x -> rank id' < rank id.

Definition title_size : nat := fold_right (fun p m => Nat.max (vsize (snd p)) m) 0 (e_refs E).
Lemma title_size_max id v : mget (e_refs E) id = Some v -> vsize v <= title_size.
Proof.
  unfold title_size. intros H. apply mget_In in H. revert H. clear ranked. generalize (e_refs E) as m.
  induction m as [|p l IH]; intros H; [destruct H|]. cbn [fold_right].
  destruct H as [->|H]; cbn [snd]; [lia|]. apply IH in H. lia.
Qed.

Lemma bounded n : forall v, (forall id label, occurs (InternalCrossReference (VStr id) label) v -> rank id < n) ->
  forall base1 base2 d, vsize v + n * S title_size < d -> forall st, renderFrom E base1 d v st = renderFrom E base2 d v st.
Proof.
  induction n as [n IHn] using lt_wf_ind. intros v. induction v as [v IHv] using (well_founded_ind (well_founded_ltof _ vsize)).
  intros H base1 base2 d L. destruct d as [|k]; [lia|]. cbn [renderFrom].
  apply (k_with E (@KEq) _ _ KEq_closed); [exact I|]. intros x N. inversion N as [x' v' W|x' id l label R X|s k' n' v' a]; subst.
  - intros st. apply IHv.
    + unfold ltof. now apply within_size.
    + intros id label O. apply (H id label). destruct W as (c & C & O'). apply (occ_child _ c); [exact C|]. eapply occurs_trans; eauto.
    + apply within_size in W. lia.
  - intros st. assert (RN : rank id < n) by (apply (H id label); apply occ_refl).
    apply (IHn (rank id)); [exact RN| |].
    + intros id' label' O. eapply ranked; eauto.
    + apply title_size_max in R. assert (vsize x < vsize (VSlice l)) by (apply within_size, within_child; exact X).
      cbn [vsize] in L. assert ((rank id) * S title_size + S title_size <= n * S title_size) by nia. lia.
  - intros st. destruct k as [|k]; [cbn [vsize] in L; lia|]. reflexivity.
Qed.
End Rank.

Lemma from_split E base d e : forall v st, renderFrom E (renderFrom E base d) e v st = renderFrom E base (e + d) v st.
Proof.
  induction e as [|e IH]; intros v; [reflexivity|]. cbn [Nat.add renderFrom].
  apply (k_with E (@KEq) _ _ KEq_closed); [exact I|]. intros x _. exact (IH x).
Qed.
Lemma from_element E d : forall v st, renderElement E d v st = renderFrom E (fun _ _ => Panic "stack overflow") d v st.
Proof.
  induction d as [|d IH]; intros v; [reflexivity|]. cbn [renderElement renderFrom].
  apply (k_with E (@KEq) _ _ KEq_closed); [exact I|]. intros x _. exact (IH x).
Qed.

(** If the titles do not refer to each other in a cycle (there is a rank that decreases from a title to the titles it refers
    to), then for every element some depth of the stack is enough: the stack is never exhausted (what happens when it is makes
    no difference), and a deeper stack changes nothing. *)
Theorem C54_terminates : forall E (rank : string -> nat),
  (forall id l x id' label, mget (e_refs E) id = Some (VSlice l) -> In x l ->
     occurs (InternalCrossReference (VStr id') label) x -> rank id' < rank id) ->
  forall v, exists depth, forall st,
    (forall base, renderFrom E base depth v st = renderElement E depth v st) /\
    (forall more, renderElement E (depth + more) v st = renderElement E depth v st).
Proof.
  intros E rank R v.
  assert (B : exists n, forall id label, occurs (InternalCrossReference (VStr id) label) v -> rank id < n).
  { clear R. induction v as [v IH] using val_ind_children.
    assert (L : exists n, forall c, In c (children v) -> forall id label, occurs (InternalCrossReference (VStr id) label) c -> rank id < n).
    { induction (children v) as [|c l IHl]; [exists 0; intros c []|].
      destruct IHl as [n1 N1]; [intros c' C'; apply IH; now right|]. destruct (IH c (or_introl eq_refl)) as [n2 N2].
      exists (Nat.max n1 n2). intros c' [<-|C'] id label O; [apply N2 in O; lia|]. apply (N1 c' C') in O. lia. }
    destruct L as [n N].
    exists (match v with InternalCrossReference (VStr id) _ => Nat.max n (S (rank id)) | _ => n end).
    intros id label O. inversion O as [|x c w C O']; subst; [lia|]. specialize (N c C id label O'). destruct v; try exact N. destruct v1; try exact N. lia. }
  destruct B as [n N]. exists (S (vsize v + n * S (title_size E))). set (d := S _). intros st.
  assert (X : forall base, renderFrom E base d v st = renderElement E d v st).
  { intros base. rewrite from_element. apply (bounded E rank R n v N). unfold d. lia. }
  split; [exact X|]. intros more. rewrite from_element, <- from_split. apply X.
Qed.
Print Assumptions C54_terminates.

(** a table of titles meeting the hypothesis: "See <<b>>" under "a", and plain text under "b" *)
Theorem C54_instance :
  let refs := [("a", VSlice [StringElement "See "; InternalCrossReference (VStr "b") VNil]); ("b", VSlice [StringElement "B"])] in
  (forall id l x id' label, mget refs id = Some (VSlice l) -> In x l -> occurs (InternalCrossReference (VStr id') label) x ->
     (fun s => if String.eqb s "a" then 1 else 0) id' < (fun s => if String.eqb s "a" then 1 else 0) id).
Proof.
  intros refs id l x id' label H I O. cbn in H. destruct (String.eqb id "a") eqn:A.
  - injection H as <-. cbn [In] in I. destruct I as [<-|[<-|[]]].
    + inversion O as [|? ? ? C]; subst. destruct C.
    + inversion O as [|? c ? C O']; subst; [cbv beta; rewrite A; cbn; lia|]. cbn in C. destruct C as [<-|[<-|[]]]; inversion O' as [|? ? ? C']; subst; destruct C'.
  - destruct (String.eqb id "b"); [|discriminate]. injection H as <-. cbn [In] in I. destruct I as [<-|[]].
    inversion O as [|? ? ? C]; subst. destruct C.
Qed.

(** Without this hypothesis: rendering a reference to a title that refers to itself exhausts every stack *)
Definition cyclic : renv :=
  mkRenv false (fun s => s) (fun _ => "") (fun _ => Ok []) (fun _ _ => "") (fun _ => Ok "") (fun _ s => s) (fun _ => None) (fun _ => "")
         (fun _ _ _ s => Ok s) [("a", VSlice [StringElement "See "; InternalCrossReference (VStr "a") VNil])] [] false.
Lemma bind_panic {A B} (m : M A) (f : A -> M B) st : (exists e, m st = Panic e) -> exists e, bindM m f st = Panic e.
Proof. intros [e H]. exists e. unfold bindM. now rewrite H. Qed.
Lemma bind_ok {A B} (m : M A) (f : A -> M B) st a st' : m st = Ok (a, st') -> (exists e, f a st' = Panic e) -> exists e, bindM m f st = Panic e.
Proof. intros H [e X]. exists e. unfold bindM. now rewrite H. Qed.
Theorem C54_self_reference_refuted : forall depth st, exists e,
  renderElement cyclic depth (Section 1 [("id", VStr "a")] (Some [StringElement "See "; InternalCrossReference (VStr "a") VNil]) []) st = Panic e.
Proof.
  assert (X : forall depth st, exists e, renderElement cyclic depth (InternalCrossReference (VStr "a") VNil) st = Panic e).
  { induction depth as [|k IH]; intros st; [now eexists|]. cbn [renderElement renderElementWith].
    unfold renderInternalCrossReference, renderRefLabel. apply bind_panic. cbn [cyclic e_refs mget]. change (String.eqb "a" "a") with true. cbv iota.
    cbn [renderLabel]. destruct k as [|k]; [apply bind_panic; now eexists|].
    eapply bind_ok; [reflexivity|]. apply bind_panic, bind_panic. apply IH. }
  intros [|k] st; [now eexists|]. cbn [renderElement renderElementWith]. unfold renderSection, renderSectionTitle. apply bind_panic, bind_panic.
  cbn [renderInlineElements]. destruct k as [|k]; [apply bind_panic; now eexists|].
  eapply bind_ok; [reflexivity|]. apply bind_panic, bind_panic. apply X.
Qed.
Print Assumptions C54_self_reference_refuted.
