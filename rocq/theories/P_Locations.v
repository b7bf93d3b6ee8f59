(** C44: the directory of images. *)
From Verif Require Import GoBase GoLemmas Types Attrs Merge MergeSpec MergeLemmas Ids Locations.

Section C44.
  Variable fmtv : val -> string.
  Variable urlIsAbs : string -> option bool.
  Notation str := (toString fmtv).
  Notation src attrs l := (snd (getImageSrc fmtv urlIsAbs attrs l)).
  Notation after attrs l := (fst (getImageSrc fmtv urlIsAbs attrs l)).

  (** the text of a token of a path *)
  Definition token_text (t : token) : string := match t with Char c => String c "" | Elem v => stringify fmtv v end.
  Definition tokens_text (l : list token) : string := sconcat (map token_text l).

  Lemma tokens_text_app a b : tokens_text (a ++ b) = (tokens_text a ++ tokens_text b)%string.
  Proof. unfold tokens_text. induction a as [|x a IH]; cbn; [reflexivity|]. unfold sconcat in *. cbn. now rewrite IH, sapp_assoc. Qed.
  Lemma chars_text s : tokens_text (chars s) = s.
  Proof. unfold tokens_text, sconcat. induction s as [|c r IH]; cbn; [reflexivity|]. now rewrite IH. Qed.
  Lemma atom_text e : atom e -> stringify fmtv e = tokens_text (tokens e).
  Proof.
    intros [O|[s ->]].
    - rewrite (tokens_other _ O). unfold tokens_text, sconcat. cbn. now rewrite sapp_nil_r.
    - cbn [stringify tokens]. now rewrite chars_text.
  Qed.
  Lemma atoms_text l : Forall atom l -> stringify fmtv (VSlice l) = tokens_text (tokens_of l).
  Proof.
    induction 1 as [|e l A F IH]; [reflexivity|]. cbn [tokens_of flat_map]. rewrite tokens_text_app, <- (atom_text _ A).
    cbn [stringify] in *. now rewrite IH.
  Qed.
  Lemma reduce_text l : Reduce (VSlice l) <> VNil -> stringify fmtv (Reduce (VSlice l)) = tokens_text (tokens_of (merge l)).
  Proof.
    pose proof (atoms_merge l) as A. cbn [Reduce]. destruct (merge l) as [|e r]; [congruence|]. intros _.
    pose proof (atoms_text _ A) as T.
    destruct e; try exact T. destruct r; [|exact T]. cbn [stringify tokens_of flat_map tokens]. now rewrite app_nil_r, chars_text.
  Qed.
  Lemma reduce_tokens l : tokens (Reduce (VSlice l)) = tokens_of (merge l).
  Proof.
    cbn [Reduce]. destruct (merge l) as [|e r]; [reflexivity|].
    assert (T : tokens (VSlice (e :: r)) = tokens_of (e :: r)) by apply tokens_slice.
    destruct e; try exact T. destruct r; [|exact T]. cbn. now rewrite app_nil_r.
  Qed.

  (** a path that can have a directory in front: no scheme, not absolute, and accepted as a URL *)
  Definition relative (l : val) : Prop :=
    (exists p, l = Location "" p) /\ has_prefix (str l) "/" = false /\ urlIsAbs (str l) = Some false.
  Definition as_dir (d : string) : string := if has_suffix d "/" then d else (d ++ "/")%string.

  (** a path as the parser makes it: not empty, without the symbol " -- " *)
  Definition parsed_path (l : val) : Prop := exists s p, l = newLocation s p /\ Reduce (VSlice p) <> VNil /\ ~ In dash (tokens_of p).

  (** The directory is put in front of a relative path ... *)
  Theorem C44_relative_path : forall attrs d l, parsed_path l -> relative l -> getAsString attrs "imagesdir" = Some d -> d <> "" ->
    src attrs l = (as_dir d ++ str l)%string.
  Proof.
    intros attrs d l (s & p & -> & NN & ND) ((q & Q) & P & U) D Nd. unfold getImageSrc. rewrite D. cbn [snd].
    set (l := newLocation s p) in *. unfold newLocation in l. injection Q as Es Eq.
    unfold setPathPrefix, l. rewrite (proj2 (String.eqb_neq _ _) Nd). fold l. rewrite P. rewrite Es. cbn [String.eqb andb negb]. rewrite U.
    fold (as_dir d). unfold str at 1. cbn [String.append].
    assert (M : tokens_of (merge (merge [VStr (as_dir d); Reduce (VSlice p)])) = chars (as_dir d) ++ tokens_of (merge p)).
    { assert (T : tokens_of [VStr (as_dir d); Reduce (VSlice p)] = chars (as_dir d) ++ tokens_of (merge p)).
      { cbn [tokens_of flat_map]. rewrite reduce_tokens, app_nil_r. reflexivity. }
      assert (N : ~ In dash (chars (as_dir d) ++ tokens_of (merge p))).
      { intros I. apply in_app_iff in I. destruct I as [I|I].
        - clear -I. induction (as_dir d); cbn in I; [exact I|]. destruct I as [I|I]; [discriminate|auto].
        - apply ND. eapply drops_in_elem; [apply merge_tokens|exact I]. }
      assert (E1 : tokens_of (merge [VStr (as_dir d); Reduce (VSlice p)]) = chars (as_dir d) ++ tokens_of (merge p)).
      { rewrite <- T in N |- *. symmetry. apply drops_no_dash; [apply merge_tokens|exact N]. }
      rewrite <- E1 in N |- *. symmetry. apply drops_no_dash; [apply merge_tokens|exact N]. }
    rewrite reduce_text.
    - rewrite M, tokens_text_app, chars_text. unfold l, str. rewrite Es. cbn [String.append]. now rewrite (reduce_text p NN).
    - intros E0. set (X := merge [VStr (as_dir d); Reduce (VSlice p)]) in *. clearbody X. cbn [Reduce] in E0.
      destruct (merge X) as [|e r] eqn:EM.
      + assert (L : as_dir d <> "") by (unfold as_dir; destruct (has_suffix d "/"); [exact Nd|destruct d; discriminate]).
        destruct (as_dir d); [congruence|]. discriminate M.
      + destruct e; try discriminate E0. destruct r; discriminate E0.
  Qed.
  (** ... and nothing changes for other paths (with a scheme, absolute, or not accepted as a URL), or without a directory. *)
  Theorem C44_other_path : forall attrs l, (~ relative l \/ getAsString attrs "imagesdir" = None \/ getAsString attrs "imagesdir" = Some "") ->
    after attrs l = l /\ src attrs l = str l.
  Proof.
    intros attrs l H. assert (G : after attrs l = l).
    { unfold getImageSrc. cbn [fst]. destruct (getAsString attrs "imagesdir") as [d|]; [|reflexivity].
      destruct l; try reflexivity. unfold setPathPrefix. destruct (String.eqb_spec d "") as [|N]; [reflexivity|].
      destruct H as [H|[H|H]]; [|discriminate|congruence].
      destruct (String.eqb_spec scheme "") as [->|]; [|reflexivity]. cbn [andb].
      destruct (has_prefix _ "/") eqn:P; [reflexivity|]. cbn [negb]. destruct (urlIsAbs _) as [[|]|] eqn:U; try reflexivity.
      exfalso. apply H. repeat split; eauto. }
    split; [exact G|]. unfold getImageSrc in *. cbn [fst snd] in *. now rewrite G.
  Qed.

  (** Rendering the same image several times: [nth_source k] is the source written by its rendering number [k+1]. *)
  Fixpoint rendered (attrs : attributes) (k : nat) (l : val) : val := match k with O => l | S k => rendered attrs k (after attrs l) end.
  Definition nth_source (attrs : attributes) (k : nat) (l : val) : string := src attrs (rendered attrs k l).
  (** what one rendering makes of a path *)
  Definition with_dir (d t : string) : string :=
    if negb (has_prefix t "/") && match urlIsAbs t with Some false => true | _ => false end then (as_dir d ++ t)%string else t.
  (** [k] renderings of it *)
  Fixpoint with_dirs (k : nat) (d t : string) : string := match k with O => t | S k => with_dirs k d (with_dir d t) end.
  Lemma relative_dec l : (exists p, l = Location "" p) -> relative l \/ (~ relative l /\ forall d, with_dir d (str l) = str l).
  Proof.
    intros X. unfold relative, with_dir. destruct (has_prefix (str l) "/") eqn:P; [right; split; [intros (_ & H & _); discriminate|reflexivity]|].
    cbn [negb andb]. destruct (urlIsAbs (str l)) as [[|]|] eqn:U; [right|left; auto|right]; (split; [intros (_ & _ & H); discriminate|reflexivity]).
  Qed.
  Lemma after_src attrs l : src attrs l = str (after attrs l).
  Proof. reflexivity. Qed.
  Lemma after_relative attrs d s p : let l := newLocation s p in
    Reduce (VSlice p) <> VNil -> ~ In dash (tokens_of p) -> relative l -> getAsString attrs "imagesdir" = Some d -> d <> "" ->
    exists p', after attrs l = newLocation VNil p' /\ Reduce (VSlice p') <> VNil /\ ~ In dash (tokens_of p') /\ (exists q, after attrs l = Location "" q).
  Proof.
    intros l NN ND ((q & Q) & P & U) D Nd. unfold getImageSrc. rewrite D. cbn [fst]. unfold newLocation in l. injection Q as Es Eq.
    unfold setPathPrefix, l. rewrite (proj2 (String.eqb_neq _ _) Nd). fold l. rewrite P. rewrite Es. cbn [String.eqb andb negb]. rewrite U. fold (as_dir d).
    assert (L : as_dir d <> "") by (unfold as_dir; destruct (has_suffix d "/"); [exact Nd|destruct d; discriminate]).
    assert (T : tokens_of [VStr (as_dir d); Reduce (VSlice p)] = chars (as_dir d) ++ tokens_of (merge p)).
    { cbn [tokens_of flat_map]. rewrite reduce_tokens, app_nil_r. reflexivity. }
    assert (N : ~ In dash (chars (as_dir d) ++ tokens_of (merge p))).
    { intros I. apply in_app_iff in I. destruct I as [I|I].
      - clear -I. induction (as_dir d); cbn in I; [exact I|]. destruct I as [I|I]; [discriminate|auto].
      - apply ND. eapply drops_in_elem; [apply merge_tokens|exact I]. }
    assert (E1 : tokens_of (merge [VStr (as_dir d); Reduce (VSlice p)]) = chars (as_dir d) ++ tokens_of (merge p)).
    { rewrite <- T in N |- *. symmetry. apply drops_no_dash; [apply merge_tokens|exact N]. }
    exists (merge [VStr (as_dir d); Reduce (VSlice p)]). split; [reflexivity|]. split; [|split; [rewrite E1; exact N|eauto]].
    assert (M : tokens_of (merge (merge [VStr (as_dir d); Reduce (VSlice p)])) = chars (as_dir d) ++ tokens_of (merge p)).
    { rewrite <- E1 in N |- *. symmetry. apply drops_no_dash; [apply merge_tokens|exact N]. }
    set (X := merge [VStr (as_dir d); Reduce (VSlice p)]) in *. clearbody X. intros E0. cbn [Reduce] in E0. destruct (merge X) as [|e r] eqn:EM.
    - destruct (as_dir d); [congruence|]. discriminate M.
    - destruct e; try discriminate E0. destruct r; discriminate E0.
  Qed.

  (** Exactly: every rendering of an image without scheme puts the directory in front of the path the previous one left, as long as that
      is relative; with an absolute directory (or a URL) this happens once. *)
  Theorem C44_every_rendering : forall attrs d k l, parsed_path l -> (exists p, l = Location "" p) ->
    getAsString attrs "imagesdir" = Some d -> d <> "" ->
    nth_source attrs k l = with_dirs (S k) d (str l).
  Proof.
    intros attrs d k. unfold nth_source. induction k as [|k IH]; intros l PP X D Nd.
    - cbn [rendered with_dirs]. destruct (relative_dec l X) as [R|[R E]].
      + rewrite (C44_relative_path attrs d l PP R D Nd). destruct R as (_ & P & U). unfold with_dir. now rewrite P, U.
      + destruct (C44_other_path attrs l (or_introl R)) as [_ ->]. now rewrite E.
    - cbn [rendered]. destruct (relative_dec l X) as [R|[R E]].
      + assert (S1 := C44_relative_path attrs d l PP R D Nd). destruct PP as (s & p & -> & NN & ND).
        destruct (after_relative attrs d s p NN ND R D Nd) as (p' & E1 & N1 & D1 & X1).
        rewrite after_src in S1.
        rewrite (IH (after attrs (newLocation s p))) by (try assumption; exists VNil, p'; auto).
        rewrite S1. replace (as_dir d ++ str (newLocation s p))%string with (with_dir d (str (newLocation s p))).
        * reflexivity.
        * destruct R as (_ & P & U). unfold with_dir. now rewrite P, U.
      + destruct (C44_other_path attrs l (or_introl R)) as [-> _]. rewrite (IH l PP X D Nd).
        change (with_dirs (S (S k)) d (str l)) with (with_dirs (S k) d (with_dir d (str l))). now rewrite E.
  Qed.

  (** Never for the other paths, however often they are rendered. *)
  Theorem C44_never : forall attrs k l, (~ relative l \/ getAsString attrs "imagesdir" = None \/ getAsString attrs "imagesdir" = Some "") ->
    nth_source attrs k l = str l.
  Proof.
    intros attrs k l H. unfold nth_source. destruct (C44_other_path attrs l H) as [A B].
    assert (R : rendered attrs k l = l) by (induction k as [|k IH]; [reflexivity|]; cbn [rendered]; now rewrite A).
    now rewrite R.
  Qed.
  (** The change is made in the document: an image that is rendered a second time (a title is rendered for the table of contents
      and for the heading) gets the directory once more. *)
  Theorem C44_twice_refuted : forall p, p <> "" -> urlIsAbs p = Some false -> urlIsAbs ("img/" ++ p)%string = Some false -> has_prefix p "/" = false ->
    let attrs := [("imagesdir", VStr "img")] in let l := Location "" (VStr p) in
    src attrs l = ("img/" ++ p)%string /\ src attrs (after attrs l) = ("img/img/" ++ p)%string.
  Proof.
    intros p N U1 U2 P attrs l.
    assert (G : forall x, getImageSrc fmtv urlIsAbs attrs x = (setPathPrefix fmtv urlIsAbs "img" x, toString fmtv (setPathPrefix fmtv urlIsAbs "img" x))) by reflexivity.
    rewrite !G. cbn [fst snd]. unfold l.
    assert (A : setPathPrefix fmtv urlIsAbs "img" (Location "" (VStr p)) = Location "" (VStr ("img/" ++ p))).
    { unfold setPathPrefix. cbn [toString stringify String.append String.eqb andb]. rewrite P, U1. cbn [negb]. reflexivity. }
    rewrite A. split; [reflexivity|]. unfold setPathPrefix. cbn [toString stringify String.append String.eqb andb has_prefix Ascii.eqb Bool.eqb negb].
    cbn [String.append] in U2. rewrite U2. reflexivity.
  Qed.
  (** A path that is not a valid URL, such as one with a percent sign, does not get the directory. *)
  Theorem C44_percent_refuted : forall p d, urlIsAbs p = None -> src [("imagesdir", VStr d)] (Location "" (VStr p)) = p.
  Proof.
    intros p d U. destruct (C44_other_path [("imagesdir", VStr d)] (Location "" (VStr p))) as [_ E]; [|exact E].
    left. intros (_ & _ & R). cbn in R. congruence.
  Qed.
End C44.
Theorem C44_case : let abs (s : string) := Some (has_prefix s "http") in let l := newLocation VNil [VStr "a"; StringElement "b.png"] in
  parsed_path l /\ relative (fun _ => "") abs l /\ getImageSrc (fun _ => "") abs [("imagesdir", VStr "pics")] l = (Location "" (VStr "pics/ab.png"), "pics/ab.png").
Proof.
  intros abs l. split; [|split].
  - exists VNil, [VStr "a"; StringElement "b.png"]. split; [reflexivity|]. split; [discriminate|]. cbn. intros H.
    repeat (destruct H as [H|H]; [discriminate|]). exact H.
  - repeat split. eexists. reflexivity.
  - vm_compute. reflexivity.
Qed.
