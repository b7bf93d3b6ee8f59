(** C41: authors. *)
From Verif Require Import GoBase GoLemmas Types Attrs AttrLemmas Authors AuthorsSpec AuthorsLemmas.

(** Each author (all have a name) gets her attributes, with her number, and nothing else is defined but the list itself. *)
Theorem C41_expand : forall ps, exists m, expandAuthors (map person_author ps) = Ok m /\
  mget m "authors" = Some (VAuthors (map person_author ps)) /\
  (forall i p b, nth_error ps i = Some p -> In b bases -> mget m (numbered b (S i)) = person_attr p b) /\
  (forall k, mget m k <> None -> k = "authors" \/ exists i b, (i < List.length ps)%nat /\ In b bases /\ k = numbered b (S i)).
Proof.
  intros ps. unfold expandAuthors. destruct (expand_spec ps 0 [(AttrAuthors, VAuthors (map person_author ps))]) as (m & E & S1 & S2).
  exists m. split; [exact E|]. split; [|split].
  - rewrite S2; [reflexivity|]. intros j b _ B X. symmetry in X. now apply key_authors in X.
  - intros i p b N B. rewrite <- key_numbered. pose proof (S1 i p b N B) as S1'. cbn [Nat.add] in S1'. rewrite S1'. destruct (person_attr p b); [reflexivity|].
    cbn [Nat.add mget]. destruct (String.eqb_spec (key b i) AttrAuthors) as [X|]; [|reflexivity]. now apply key_authors in X.
  - intros k K.
    destruct (in_dec String.string_dec k (flat_map (fun b => map (fun i => numbered b (S i)) (seq 0 (List.length ps))) bases)) as [I|I].
    + right. apply in_flat_map in I. destruct I as (b & B & I). apply in_map_iff in I. destruct I as (i & <- & I).
      apply in_seq in I. exists i, b. repeat split; auto. lia.
    + left. rewrite S2 in K.
      * cbn [mget] in K. destruct (String.eqb_spec k AttrAuthors) as [X|]; [exact X|congruence].
      * intros j b J B X. apply I. apply in_flat_map. exists b. split; [exact B|]. apply in_map_iff. exists j.
        split; [rewrite X; now rewrite key_numbered|]. apply in_seq. lia.
Qed.

(** what the detail block must show: for each author the number (empty for the first), the name and the email *)
Definition shown (i : nat) (p : person) : string * string * string :=
  (match i with O => "" | S _ => itoaN (N.of_nat (S i)) end, person_name p, person_email p).
Fixpoint shown_from (i : nat) (ps : list person) : list (string * string * string) :=
  match ps with [] => [] | p :: r => shown i p :: shown_from (S i) r end.

Lemma details_spec attrs : forall ps fuel i, (List.length ps < fuel)%nat ->
  (forall j p, nth_error ps j = Some p -> getAsString attrs (numbered "author" (S (i + j))) = Some (person_name p) /\
     match getAsString attrs (numbered "email" (S (i + j))) with Some e => e | None => "" end = person_email p) ->
  getAsString attrs (numbered "author" (S (i + List.length ps))) = None ->
  details_loop fuel attrs (S i) = shown_from i ps.
Proof.
  induction ps as [|p r IH]; intros [|fuel] i F H N; cbn [List.length] in F; [lia| |lia|].
  - cbn [List.length] in N. rewrite Nat.add_0_r in N. cbn [details_loop shown_from].
    destruct i; cbn in N |- *; now rewrite N.
  - destruct (H 0%nat p eq_refl) as [HA HE]. rewrite Nat.add_0_r in HA, HE.
    assert (X : details_loop (S fuel) attrs (S i) = shown i p :: details_loop fuel attrs (S (S i))).
    { destruct i; cbn [details_loop].
      - change (numbered "author" 1) with "author" in HA. change (numbered "email" 1) with "email" in HE.
        rewrite HA, HE. reflexivity.
      - change (numbered "author" (S (S i))) with ("author_" ++ itoaN (N.of_nat (S (S i))))%string in HA.
        change (numbered "email" (S (S i))) with ("email_" ++ itoaN (N.of_nat (S (S i))))%string in HE.
        rewrite HA, HE. reflexivity. }
    rewrite X. cbn [shown_from]. f_equal. apply IH.
    + lia.
    + intros j q Q. specialize (H (S j) q Q). replace (S i + j)%nat with (i + S j)%nat by lia. exact H.
    + replace (S i + List.length r)%nat with (i + List.length (p :: r))%nat by (cbn; lia). exact N.
Qed.

(** When no attribute of the configuration has the name of an author's attribute, the detail block shows exactly the authors of
    the document, in order, each with her email. *)
Theorem C41_details : forall ps m attrs, expandAuthors (map person_author ps) = Ok m ->
  (forall b n, In b ["author"; "email"] -> (0 < n)%nat -> mget attrs (numbered b n) = None) ->
  authorsDetails (aaddall attrs m) = shown_from 0 ps.
Proof.
  intros ps m attrs E NA. destruct (C41_expand ps) as (m' & E' & HA & HB & HO). rewrite E in E'. injection E' as <-.
  assert (PK : forall k, In k (mkeys m) -> plain_key k).
  { intros k K. assert (K' : mget m k <> None) by (rewrite mget_None; tauto). apply HO in K'.
    destruct K' as [->|(i & b & _ & B & ->)]; [repeat split; discriminate|].
    cbn in B. destruct B as [<-|[<-|[<-|[<-|[<-|[<-|[]]]]]]]; destruct i; cbn; repeat split; discriminate. }
  assert (ND : NoDup (mkeys m)).
  { eapply NoDup_expand; [|exact E]. repeat constructor. intros []. }
  assert (G : forall k, mget (aaddall attrs m) k = match mget m k with Some v => Some v | None => mget attrs k end)
    by (now apply mget_aaddall).
  assert (GA : forall j p, nth_error ps j = Some p -> getAsString (aaddall attrs m) (numbered "author" (S j)) = Some (person_name p)).
  { intros j p J. unfold getAsString. rewrite G, (HB j p "author" J) by (cbn; tauto). destruct p; reflexivity. }
  unfold authorsDetails. apply (details_spec (aaddall attrs m) ps).
  - apply Nat.lt_succ_r.
    assert (L : (List.length (map (fun j => numbered "author" (S j)) (seq 0 (List.length ps))) <= List.length (mkeys (aaddall attrs m)))%nat).
    { apply NoDup_incl_length.
      - apply FinFun.Injective_map_NoDup; [|apply seq_NoDup]. intros x y X. rewrite <- !key_numbered in X.
        apply key_inj in X; [tauto|cbn; tauto|cbn; tauto].
      - intros k K. apply in_map_iff in K. destruct K as (j & <- & J). apply in_seq in J.
        destruct (nth_error ps j) as [p|] eqn:Q; [|apply nth_error_None in Q; lia].
        specialize (GA j p Q). unfold getAsString in GA.
        destruct (mget (aaddall attrs m) (numbered "author" (S j))) eqn:X; [|discriminate].
        apply mget_In in X. apply in_map_iff. eexists. split; [|exact X]. reflexivity. }
    rewrite map_length, seq_length in L. unfold mkeys in L. rewrite map_length in L. exact L.
  - intros j p J. cbn [Nat.add]. split; [now apply GA|].
    unfold getAsString. rewrite G, (HB j p "email" J) by (cbn; tauto).
    destruct p as [f md l e]. cbn [person_attr String.eqb Ascii.eqb Bool.eqb person_email]. unfold optional.
    change (String.eqb "email" "author") with false. cbn.
    destruct (String.eqb_spec e "") as [->|]; [|reflexivity].
    rewrite (NA "email" (S j)); [reflexivity|cbn; tauto|lia].
  - cbn [Nat.add]. unfold getAsString. rewrite G.
    destruct (mget m (numbered "author" (S (List.length ps)))) eqn:X.
    + exfalso. assert (X' : mget m (numbered "author" (S (List.length ps))) <> None) by congruence. apply HO in X'.
      destruct X' as [Q|(i & b & I & B & Q)].
      * rewrite <- key_numbered in Q. apply key_authors in Q; [exact Q|cbn; tauto].
      * rewrite <- !key_numbered in Q. apply key_inj in Q; [lia|cbn; tauto|exact B].
    + rewrite NA; [reflexivity|cbn; tauto|lia].
Qed.

(** Whatever the attributes of the configuration: the detail block lists author, author_2, author_3, ... with their emails, up to the
    first number that is not defined (this also shows that the bound of the modelled loop is never the reason to stop). *)
Lemma details_general attrs fuel : forall i,
  let d := details_loop fuel attrs (S i) in
  (forall j x, nth_error d j = Some x -> exists name, getAsString attrs (numbered "author" (S (i + j))) = Some name /\
     x = (match (i + j)%nat with O => "" | S _ => itoaN (N.of_nat (S (i + j))) end, name,
          match getAsString attrs (numbered "email" (S (i + j))) with Some e => e | None => "" end)) /\
  ((List.length d < fuel)%nat -> getAsString attrs (numbered "author" (S (i + List.length d))) = None) /\ (List.length d <= fuel)%nat.
Proof.
  induction fuel as [|fuel IH]; intros i d.
  - split; [intros j x H; destruct j; discriminate|]. cbn. split; [lia|lia].
  - assert (D : d = match getAsString attrs (numbered "author" (S i)) with
                    | Some name => (match i with O => "" | S _ => itoaN (N.of_nat (S i)) end, name,
                          match getAsString attrs (numbered "email" (S i)) with Some e => e | None => "" end) :: details_loop fuel attrs (S (S i))
                    | None => [] end) by (unfold d; destruct i; reflexivity).
    rewrite D. destruct (getAsString attrs (numbered "author" (S i))) as [name|] eqn:A.
    + destruct (IH (S i)) as (I1 & I2 & I3). split; [|split].
      * intros [|j] x H; cbn in H.
        { injection H as <-. exists name. rewrite Nat.add_0_r. split; [exact A|reflexivity]. }
        { replace (i + S j)%nat with (S i + j)%nat by lia. now apply I1. }
      * cbn [List.length]. intros L. replace (S (i + S (List.length (details_loop fuel attrs (S (S i))))))%nat with (S (S i + List.length (details_loop fuel attrs (S (S i)))))%nat by lia. apply I2. lia.
      * cbn [List.length]. lia.
    + split; [intros j x H; destruct j; discriminate|]. cbn [List.length]. rewrite Nat.add_0_r. split; [auto|lia].
Qed.
Theorem C41_details_any : forall attrs, let d := authorsDetails attrs in
  (forall i x, nth_error d i = Some x -> exists name, getAsString attrs (numbered "author" (S i)) = Some name /\
     x = (match i with O => "" | S _ => itoaN (N.of_nat (S i)) end, name,
          match getAsString attrs (numbered "email" (S i)) with Some e => e | None => "" end)) /\
  getAsString attrs (numbered "author" (S (List.length d))) = None.
Proof.
  intros attrs d. destruct (details_general attrs (S (List.length attrs)) 0) as (A & B & C).
  change (details_loop (S (List.length attrs)) attrs 1) with d in A, B, C. split; [exact A|].
  cbn [Nat.add] in B. apply B.
  assert (L : (List.length (map (fun j => numbered "author" (S j)) (seq 0 (List.length d))) <= List.length (mkeys attrs))%nat).
  { apply NoDup_incl_length.
    - apply FinFun.Injective_map_NoDup; [|apply seq_NoDup]. intros x y X. rewrite <- !key_numbered in X.
      apply key_inj in X; [tauto|cbn; tauto|cbn; tauto].
    - intros k K. apply in_map_iff in K. destruct K as (j & <- & J). apply in_seq in J.
      destruct (nth_error d j) as [x|] eqn:Q; [|apply nth_error_None in Q; lia].
      destruct (A j x Q) as (name & GA & _). cbn [Nat.add] in GA. unfold getAsString in GA.
      destruct (mget attrs (numbered "author" (S j))) eqn:X; [|discriminate].
      apply mget_In in X. apply in_map_iff. eexists. split; [|exact X]. reflexivity. }
  rewrite map_length, seq_length in L. unfold mkeys in L. rewrite map_length in L. lia.
Qed.
(** An author list expands exactly if every author has a name; otherwise the conversion panics. *)
Theorem C41_outcome : forall l,
  (Forall (fun a => au_name a <> None) l -> exists m, expandAuthors l = Ok m) /\
  (~ Forall (fun a => au_name a <> None) l -> expandAuthors l = Panic "nil pointer dereference").
Proof.
  intros l. unfold expandAuthors. generalize (@cons (string * val) (AttrAuthors, VAuthors l) []) as m. generalize 0%nat as i.
  induction l as [|a r IH]; intros i m; cbn [expand_loop].
  - split; [eauto|]. intros H. now destruct H.
  - destruct (au_name a) as [n|] eqn:N.
    + match goal with |- context [expand_loop r (S i) ?x] => destruct (IH (S i) x) as [A B] end. split.
      * intros H. inversion H; subst. now apply A.
      * intros H. apply B. intros F. apply H. constructor; [congruence|exact F].
    + split; [|reflexivity]. intros H. inversion H; subst. congruence.
Qed.

(** The "author" meta tag names all authors of the header. *)
Theorem C41_meta : forall ps pre post,
  (forall e, In e pre -> match e with AttributeDeclaration n _ => n <> "authors" /\ n <> "author" /\ n <> "email" | _ => True end) ->
  renderAuthors (pre ++ AttributeDeclaration "authors" (VAuthors (map person_author ps)) :: post) = Ok (join "; " (map person_name ps)).
Proof.
  intros ps pre post H. unfold renderAuthors, headerAuthors.
  assert (L : authors_loop (pre ++ AttributeDeclaration "authors" (VAuthors (map person_author ps)) :: post) None = Ok (Some (map person_author ps))).
  { induction pre as [|e r IH]; [reflexivity|].
    assert (Hr : authors_loop (r ++ AttributeDeclaration "authors" (VAuthors (map person_author ps)) :: post) None = Ok (Some (map person_author ps))).
    { apply IH. intros x X. apply H. now right. }
    specialize (H e (or_introl eq_refl)).
    destruct e; try exact Hr. destruct H as (A & B & C). cbn [app authors_loop].
    unfold AttrAuthors, AttrAuthor, AttrEmail.
    rewrite (proj2 (String.eqb_neq _ _) A), (proj2 (String.eqb_neq _ _) B), (proj2 (String.eqb_neq _ _) C). exact Hr. }
  rewrite L. cbn [bind].
  assert (N : fullNames (map person_author ps) = Ok (map person_name ps)).
  { induction ps as [|[f md l e] r IH]; [reflexivity|]. cbn [map fullNames person_author au_name].
    assert (IH' : fullNames (map person_author r) = Ok (map person_name r)).
    { clear -IH. clear IH. induction r as [|[f md l e] r IH]; [reflexivity|]. cbn [map fullNames person_author au_name].
      rewrite IH. cbn [bind]. now rewrite (person_name_ok f md l e). }
    rewrite IH'. cbn [bind]. now rewrite (person_name_ok f md l e). }
  now rewrite N.
Qed.

Definition case_people := [Person "Ada" "" "Lovelace" "ada@x.org"; Person "Alan" "M." "Turing" ""; Person "Plato" "" "" ""].
Theorem C41_case : exists m, expandAuthors (map person_author case_people) = Ok m /\
  mget m "author_2" = Some (VStr "Alan M. Turing") /\ mget m "authorinitials" = Some (VStr "AL") /\ mget m "middlename_3" = None /\
  authorsDetails (aaddall [("x", VStr "y")] m) =
    [("", "Ada Lovelace", "ada@x.org"); ("2", "Alan M. Turing", ""); ("3", "Plato", "")].
Proof. eexists. repeat split; vm_compute; reflexivity. Qed.

(** ** What does not hold *)
(** An author without a name (the author line "<me@x.org>", or an "email" declaration without an author) stops the conversion. *)
Theorem C41_nameless_refuted : forall e,
  expandAuthors [mkAuthor None e] = Panic "nil pointer dereference" /\
  headerAuthors [AttributeDeclaration "email" (VStr e)] = Ok (Some [mkAuthor None e]) /\
  renderAuthors [AttributeDeclaration "email" (VStr e)] = Panic "nil pointer dereference" /\
  headerAuthors [AttributeDeclaration "email" (VStr e); AttributeDeclaration "author" (VStr e)] = Panic "nil pointer dereference".
Proof. intros e. repeat split. Qed.
(** The attributes of the authors of one document stay in the configuration, so that the detail block of the next one (with fewer
    authors) shows them again. *)
Theorem C41_leftover_refuted : exists attrs1 attrs2,
  expandAuthors (map person_author [Person "Ada" "" "" ""; Person "Alan" "" "" "a@x"]) = Ok attrs1 /\
  expandAuthors (map person_author [Person "Plato" "" "" ""]) = Ok attrs2 /\
  authorsDetails (aaddall attrs1 attrs2) = [("", "Plato", ""); ("2", "Alan", "a@x")].
Proof. eexists. eexists. repeat split; vm_compute; reflexivity. Qed.

(** ** The revision *)
Theorem C41_revision : forall n d r, let m := expandRevision (mkRevision n d r) in
  mget m "revision" = Some (VRevision (mkRevision n d r)) /\
  mget m "revnumber" = optional n /\ mget m "revdate" = optional d /\ mget m "revremark" = optional r /\
  (forall k, mget m k <> None -> In k ["revision"; "revnumber"; "revdate"; "revremark"]).
Proof.
  intros n d r m. subst m. unfold expandRevision. cbn [rev_number rev_date rev_remark].
  assert (G : forall k, mget (expandRevision (mkRevision n d r)) k =
     if String.eqb "revremark" k then match optional r with Some v => Some v | None => None end
     else if String.eqb "revdate" k then match optional d with Some v => Some v | None => None end
     else if String.eqb "revnumber" k then match optional n with Some v => Some v | None => None end
     else if String.eqb k "revision" then Some (VRevision (mkRevision n d r)) else None).
  { intros k. unfold expandRevision. rewrite !mget_set_nonempty. cbn [rev_number rev_date rev_remark mget].
    destruct (String.eqb_spec "revremark" k) as [<-|]; [destruct (optional r); reflexivity|].
    destruct (String.eqb_spec "revdate" k) as [<-|]; [destruct (optional d); reflexivity|].
    destruct (String.eqb_spec "revnumber" k) as [<-|]; [destruct (optional n); reflexivity|]. reflexivity. }
  unfold expandRevision in G. cbn [rev_number rev_date rev_remark] in G.
  repeat split; try (rewrite G; cbn; try destruct (optional n); try destruct (optional d); try destruct (optional r); reflexivity).
  intros k K. rewrite G in K. cbn [In].
  destruct (String.eqb_spec "revremark" k); [auto|]. destruct (String.eqb_spec "revdate" k); [auto|].
  destruct (String.eqb_spec "revnumber" k); [auto|]. destruct (String.eqb_spec k "revision"); [auto|congruence].
Qed.
