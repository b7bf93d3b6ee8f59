(** C06, C07: footnotes. *)
From Verif Require Import GoBase Types Footnotes FootnotesSpec.

Lemma ref_str_of v : ref_str v = ref_of v. Proof. reflexivity. Qed.

(** the state after the macros [ms] *)
Fixpoint stored (ns : list macro) (k : Z) (l : list val) : Prop :=
  match ns, l with
  | [], [] => True
  | m :: ns', Footnote i r c :: l' => i = k /\ ref_of r = m_ref m /\ c = m_content m /\ stored ns' (k + 1) l'
  | _, _ => False
  end.
Definition state_ok (ms : list macro) (f : footnotes) : Prop :=
  fn_seq f = Z.of_nat (List.length (notes ms)) /\ stored (notes ms) 1 (fn_notes f).

Lemma stored_snoc ns : forall k l r c, stored ns k l ->
  stored (ns ++ [mkMacro (ref_of r) c]) k (l ++ [Footnote (k + Z.of_nat (List.length ns)) r c]).
Proof.
  induction ns as [|m ns IH]; intros k [|x l] r c H; try contradiction.
  - cbn. repeat split. lia.
  - destruct x; try contradiction. cbn [stored] in *. destruct H as (-> & E1 & E2 & H). cbn [app stored].
    repeat split; auto. specialize (IH (k + 1)%Z l r c H). 
    replace (k + Z.of_nat (List.length (m :: ns)))%Z with (k + 1 + Z.of_nat (List.length ns))%Z by (cbn [List.length]; lia).
    exact IH.
Qed.
Lemma stored_index ns : forall k l ref, stored ns k l -> indexOf l ref = first_with ref ns k.
Proof.
  induction ns as [|m ns IH]; intros k [|x l] ref H; try contradiction; [reflexivity|].
  destruct x; try contradiction. cbn [stored] in *. destruct H as (-> & E1 & E2 & H). cbn [indexOf first_with].
  rewrite ref_str_of, E1. destruct (String.eqb (m_ref m) ref); [reflexivity|]. now apply IH.
Qed.

Lemma notes_app a b : notes (a ++ b) = notes a ++ notes b.
Proof. unfold notes. apply filter_app. Qed.

Lemma reference_ok ms f r c : state_ok ms f ->
  let m := mkMacro (ref_of r) c in
  let (f', v) := reference f r c in
  state_ok (ms ++ [m]) f' /\ numbered_of v = [number_of ms m] /\ unmark v = VNil /\
  exists i d, v = FootnoteReference i r d.
Proof.
  intros [S1 S2] m. unfold reference. destruct c as [|x c].
  - rewrite (stored_index _ _ _ (ref_str r) S2). rewrite ref_str_of.
    assert (K : state_ok (ms ++ [m]) f).
    { unfold state_ok. rewrite notes_app. cbn. rewrite app_nil_r. now split. }
    destruct (first_with (ref_of r) (notes ms) 1) as [i|] eqn:E; (split; [exact K|]); (split; [|split; [reflexivity|eauto]]);
      cbn [numbered_of]; unfold number_of, has_content; cbn [m_content m_ref m]; now rewrite E.
  - split; [|split; [|split; [reflexivity|eauto]]].
    + unfold state_ok. cbn [fn_seq fn_notes]. rewrite notes_app. cbn [notes filter has_content m_content m].
      rewrite app_length. cbn [List.length]. split; [lia|]. rewrite S1. rewrite (Z.add_comm (Z.of_nat _)).
      now apply stored_snoc.
    + cbn [numbered_of]. unfold number_of. cbn [has_content m_content m m_ref]. now rewrite S1.
Qed.

Definition mac (l : list val) : list macro := flat_map macro_of l.
Definition num (l : list val) : list (Z * string * bool) := flat_map numbered_of l.

Lemma number_all_app b x y : number_all b (x ++ y) = number_all b x ++ number_all (b ++ x) y.
Proof.
  revert b. induction x as [|m x IH]; intros b; cbn [app number_all]; [now rewrite app_nil_r|].
  rewrite IH, <- app_assoc. reflexivity.
Qed.

(** [raw l]: the elements are as parsed, no number yet *)
Definition raw (l : list val) : Prop := num l = [].

Definition good (src : list val) (ms : list macro) (f' : footnotes) (out : list val) : Prop :=
  state_ok (ms ++ mac src) f' /\ num out = number_all ms (mac src).

Lemma sub_inline_ok es : forall ms f, state_ok ms f -> raw es ->
  let (f', es') := sub_inline f es in good es ms f' es' /\ map unmark es' = map unmark es.
Proof.
  induction es as [|e r IH]; intros ms f H R; cbn [sub_inline].
  - split; [|reflexivity]. split; cbn; [now rewrite app_nil_r|reflexivity].
  - unfold raw, num in R. cbn [flat_map] in R. apply app_eq_nil in R. destruct R as [R1 R2].
    assert (X : let (f1, e') := match e with Footnote _ ref c => reference f ref c | _ => (f, e) end in
                state_ok (ms ++ macro_of e) f1 /\ numbered_of e' = number_all ms (macro_of e) /\ unmark e' = unmark e).
    { destruct e; try (split; [cbn; rewrite app_nil_r; exact H|split; [exact R1|reflexivity]]).
      pose proof (reference_ok ms f e elements H) as X. cbn zeta in X.
      destruct (reference f e elements) as [f1 e']. destruct X as (X1 & X2 & X3 & _). cbn. auto. }
    destruct (match e with Footnote _ ref c => reference f ref c | _ => (f, e) end) as [f1 e'].
    destruct X as (X1 & X2 & X3). specialize (IH (ms ++ macro_of e) f1 X1 R2).
    destruct (sub_inline f1 r) as [f2 r']. destruct IH as [[I1 I2] I3].
    split; [split|].
    + unfold mac. cbn [flat_map]. rewrite app_assoc. exact I1.
    + unfold num, mac. cbn [flat_map]. rewrite number_all_app, X2. f_equal. exact I2.
    + cbn [map]. now rewrite X3, I3.
Qed.

Lemma loop_all l : forall f,
  (fix loop (f : footnotes) (l : list val) {struct l} : footnotes * list val :=
    match l with
    | [] => (f, [])
    | e :: r => let (f1, e') := substituteFootnotes f e in let (f2, r') := loop f1 r in (f2, e' :: r')
    end) f l = sub_all f l.
Proof.
  induction l as [|x l IH]; intros f; [reflexivity|]. cbn [sub_all].
  destruct (substituteFootnotes f x) as [f1 e']. rewrite IH. reflexivity.
Qed.

Definition elt_ok (v : val) : Prop := forall ms f, state_ok ms f -> raw (places v) ->
  let (f', v') := substituteFootnotes f v in good (places v) ms f' (places v') /\ around v' = around v.

Lemma raw_app a b : raw (a ++ b) -> raw a /\ raw b.
Proof. unfold raw, num. rewrite flat_map_app. apply app_eq_nil. Qed.

Lemma good_app a b ms f1 f2 oa ob : good a ms f1 oa -> good b (ms ++ mac a) f2 ob -> good (a ++ b) ms f2 (oa ++ ob).
Proof.
  unfold good, mac, num. rewrite !flat_map_app, number_all_app. intros [A1 A2] [B1 B2].
  rewrite app_assoc. split; [exact B1|]. now rewrite A2, B2.
Qed.

Lemma sub_all_ok l : Forall elt_ok l -> forall ms f, state_ok ms f -> raw (flat_map places l) ->
  let (f', l') := sub_all f l in good (flat_map places l) ms f' (flat_map places l') /\ map around l' = map around l.
Proof.
  induction 1 as [|v l Hv Hl IH]; intros ms f H R; cbn [sub_all flat_map].
  - split; [|reflexivity]. split; cbn; [now rewrite app_nil_r|reflexivity].
  - cbn [flat_map] in R. apply raw_app in R. destruct R as [R1 R2].
    specialize (Hv ms f H R1). destruct (substituteFootnotes f v) as [f1 v']. destruct Hv as [G1 A1].
    specialize (IH (ms ++ mac (places v)) f1 (proj1 G1) R2).
    destruct (sub_all f1 l) as [f2 l']. destruct IH as [G2 A2].
    cbn [flat_map map]. split; [now apply good_app with f1|now rewrite A1, A2].
Qed.

Lemma good_nil ms f : state_ok ms f -> good [] ms f [].
Proof. intros H. split; cbn; [now rewrite app_nil_r|reflexivity]. Qed.

Lemma substitute_ok v : elt_ok v.
Proof.
  induction v as [v IH] using val_ind_children. intros ms f H R.
  assert (FE : forall l, incl l (children v) -> Forall elt_ok l).
  { intros l I. apply Forall_forall. auto. }
  destruct v; try (split; [now apply good_nil|reflexivity]);
    cbn [substituteFootnotes places around] in *; try rewrite loop_all.
  - (* Paragraph *)
    pose proof (sub_inline_ok elements ms f H R) as X. destruct (sub_inline f elements) as [f' es']. cbn [places around].
    destruct X as [X1 X2]. split; [exact X1|now rewrite X2].
  - (* Section *) destruct title as [t|]; [|split; [now apply good_nil|reflexivity]].
    pose proof (sub_inline_ok t ms f H R) as X. destruct (sub_inline f t) as [f' es']. cbn [places around option_map].
    destruct X as [X1 X2]. split; [exact X1|now rewrite X2].
  - pose proof (sub_all_ok elements (FE elements ltac:(intros x; cbn; rewrite ?in_app_iff; auto)) ms f H R) as X.
    destruct (sub_all f elements) as [f' es']. cbn [places around]. destruct X as [X1 X2]. split; [exact X1|now rewrite X2].
  - pose proof (sub_all_ok elements (FE elements ltac:(intros x; cbn; rewrite ?in_app_iff; auto)) ms f H R) as X.
    destruct (sub_all f elements) as [f' es']. cbn [places around]. destruct X as [X1 X2]. split; [exact X1|now rewrite X2].
  - pose proof (sub_all_ok elements (FE elements ltac:(intros x; cbn; rewrite ?in_app_iff; auto)) ms f H R) as X.
    destruct (sub_all f elements) as [f' es']. cbn [places around]. destruct X as [X1 X2]. split; [exact X1|now rewrite X2].
  - pose proof (sub_all_ok elements (FE elements ltac:(intros x; cbn; rewrite ?in_app_iff; auto)) ms f H R) as X.
    destruct (sub_all f elements) as [f' es']. cbn [places around]. destruct X as [X1 X2]. split; [exact X1|now rewrite X2].
  - (* LabeledListElement *)
    apply raw_app in R. destruct R as [R1 R2].
    pose proof (sub_inline_ok term ms f H R1) as X. destruct (sub_inline f term) as [f1 t']. destruct X as [X1 X2].
    rewrite loop_all.
    pose proof (sub_all_ok elements (FE elements ltac:(intros x; cbn; rewrite ?in_app_iff; auto)) (ms ++ mac term) f1 (proj1 X1) R2) as Y.
    destruct (sub_all f1 elements) as [f2 es']. destruct Y as [Y1 Y2]. cbn [places around].
    split; [now apply good_app with f1|now rewrite X2, Y2].
Qed.

(** the elements of the fragments of a document; a fragment with an error has none *)
Definition elements_of (frs : list fragment) : list val := flat_map (fun fr => match fr with inl es => es | inr _ => [] end) frs.
Definition errors_of (frs : list fragment) : list (option string) := map (fun fr => match fr with inl _ => None | inr e => Some e end) frs.

Lemma stage_ok frs : forall ms f, state_ok ms f -> raw (flat_map places (elements_of frs)) ->
  let (f', frs') := collectStage f frs in
  good (flat_map places (elements_of frs)) ms f' (flat_map places (elements_of frs')) /\
  map around (elements_of frs') = map around (elements_of frs) /\ errors_of frs' = errors_of frs.
Proof.
  induction frs as [|fr frs IH]; intros ms f H R; cbn [collectStage].
  - split; [now apply good_nil|split; reflexivity].
  - unfold collectFootnotes. destruct fr as [es|e].
    + cbn [elements_of flat_map] in *. rewrite flat_map_app in *. apply raw_app in R. destruct R as [R1 R2].
      pose proof (sub_all_ok es (proj2 (Forall_forall _ _) (fun x _ => substitute_ok x)) ms f H R1) as X.
      destruct (sub_all f es) as [f1 es']. destruct X as [X1 X2].
      specialize (IH (ms ++ mac (flat_map places es)) f1 (proj1 X1) R2).
      destruct (collectStage f1 frs) as [f2 frs']. destruct IH as (I1 & I2 & I3).
      cbn [elements_of flat_map]. rewrite flat_map_app, !map_app. cbn [errors_of map].
      split; [now apply good_app with f1|]. split; [now rewrite X2; f_equal|]. now f_equal.
    + cbn [elements_of flat_map app] in *. specialize (IH ms f H R). destruct (collectStage f frs) as [f2 frs'].
      destruct IH as (I1 & I2 & I3). cbn [elements_of flat_map app errors_of map]. split; [exact I1|]. split; [exact I2|now f_equal].
Qed.

Lemma stored_eq ns : forall k l, stored ns k l ->
  l = map (fun p => match p with (i, Footnote _ r c) => Footnote i r c | (_, v) => v end) (combine (map (fun n => (k + Z.of_nat n)%Z) (seq 0 (List.length ns))) l) /\
  flat_map macro_of l = ns /\ map (fun v => match v with Footnote i _ _ => i | _ => 0%Z end) l = map (fun n => (k + Z.of_nat n)%Z) (seq 0 (List.length ns)).
Proof.
  induction ns as [|m ns IH]; intros k [|x l] H; try contradiction; [repeat split|].
  destruct x; try contradiction. cbn [stored] in H. destruct H as (-> & E1 & E2 & H). destruct (IH (k + 1)%Z l H) as (A & B & C).
  assert (SH : forall n, map (fun n => (k + 1 + Z.of_nat n)%Z) (seq 0 n) = map (fun n => (k + Z.of_nat n)%Z) (seq 1 n)).
  { intros n. rewrite <- (seq_shift n 0), map_map. apply map_ext. intros. lia. }
  cbn [List.length seq map combine flat_map macro_of app]. rewrite <- SH. split; [|split].
  - f_equal; [f_equal; lia|exact A].
  - rewrite E1, E2. destruct m. now f_equal.
  - f_equal; [lia|exact C].
Qed.

(** C06.  For every document (a sequence of fragments, some possibly failed) as it comes from the parser: the macros in
    the paragraphs, titles, terms and list items are numbered as [number_all] says, in document order; the notes shown at
    the end are exactly the macros with content, numbered 1, 2, 3, ... in order; all the rest of the document is
    unchanged. *)
Theorem C06_footnotes_numbered :
  forall frs f frs',
  numbers (elements_of frs) = [] ->
  collectStage newFootnotes frs = (f, frs') ->
  numbers (elements_of frs') = number_all [] (macros (elements_of frs)) /\
  flat_map macro_of (fn_notes f) = notes (macros (elements_of frs)) /\
  map (fun v => match v with Footnote i _ _ => i | _ => 0%Z end) (fn_notes f) =
    map (fun n => Z.of_nat (S n)) (seq 0 (List.length (notes (macros (elements_of frs))))) /\
  map around (elements_of frs') = map around (elements_of frs) /\ errors_of frs' = errors_of frs.
Proof.
  intros frs f frs' R E. pose proof (stage_ok frs [] newFootnotes ltac:(split; [reflexivity|exact I]) R) as X.
  rewrite E in X. destruct X as ([[S1 S2] N] & A & Er). cbn [app] in *.
  destruct (stored_eq _ _ _ S2) as (_ & B & C). fold (macros (elements_of frs)) in *.
  repeat split; auto. unfold mac in C. fold (macros (elements_of frs)) in C. rewrite C. apply map_ext. intros. lia.
Qed.
Print Assumptions C06_footnotes_numbered.

Lemma first_with_range r ns : forall k i, first_with r ns k = Some i -> (k <= i < k + Z.of_nat (List.length ns))%Z.
Proof.
  induction ns as [|m ns IH]; cbn [first_with List.length]; intros k i; [discriminate|].
  destruct (String.eqb (m_ref m) r); [intros [= ->]; lia|]. intros H. apply IH in H. lia.
Qed.
Lemma number_all_range ms : forall b i r d, In (i, r, d) (number_all b ms) ->
  i = (-1)%Z \/ (1 <= i <= Z.of_nat (List.length (notes (b ++ ms))))%Z.
Proof.
  induction ms as [|m ms IH]; intros b i r d; cbn [number_all In]; [intros []|]. intros [H|H].
  - rewrite notes_app, app_length. unfold number_of in H. destruct (has_content m) eqn:E.
    + injection H as <- _ _. right. unfold notes at 4. cbn [filter]. rewrite E. cbn [List.length]. lia.
    + destruct (first_with (m_ref m) (notes b) 1) as [j|] eqn:F; [|injection H as <- _ _; now left].
      injection H as <- _ _. apply first_with_range in F. right. lia.
  - apply IH in H. rewrite <- app_assoc in H. exact H.
Qed.

(** every number in the text is either the mark of an unresolved reference or the number of exactly one of the notes *)
Theorem C06_references_resolve :
  forall frs f frs' i r d,
  numbers (elements_of frs) = [] ->
  collectStage newFootnotes frs = (f, frs') ->
  In (i, r, d) (numbers (elements_of frs')) ->
  i = (-1)%Z \/ exists before note after, fn_notes f = before ++ note :: after /\
     (exists r' c, note = Footnote i r' c /\ c <> []) /\
     (forall r' c, ~ In (Footnote i r' c) before /\ ~ In (Footnote i r' c) after).
Proof.
  intros frs f frs' i r d R E H. pose proof (C06_footnotes_numbered _ _ _ R E) as (N & B & C & _).
  rewrite N in H. apply number_all_range in H. destruct H as [H|H]; [now left|right]. cbn [app] in H.
  set (ns := notes (macros (elements_of frs))) in *.
  set (ids := map (fun v => match v with Footnote i _ _ => i | _ => 0%Z end) (fn_notes f)) in *.
  assert (I : In i ids).
  { rewrite C. apply in_map_iff. exists (Z.to_nat (i - 1)). split; [lia|]. apply in_seq. lia. }
  assert (ND : NoDup ids).
  { rewrite C. apply FinFun.Injective_map_NoDup; [intros x y; lia|apply seq_NoDup]. }
  unfold ids in I. apply in_map_iff in I. destruct I as (v & Ev & Iv). apply in_split in Iv.
  destruct Iv as (b & a & Es). exists b, v, a. split; [exact Es|]. unfold ids in ND. rewrite Es, map_app in ND. cbn [map] in ND.
  rewrite Ev in ND. apply NoDup_remove_2 in ND.
  split.
  - destruct v; try lia. exists v, elements. subst id. split; [reflexivity|]. intros ->.
    assert (X : In (mkMacro (ref_of v) []) ns).
    { rewrite <- B, Es. apply in_flat_map. exists (Footnote i v []). split; [apply in_or_app; right; now left|now left]. }
    unfold ns, notes in X. apply filter_In in X. now destruct X.
  - intros r' c. split; intros X; apply ND; apply in_or_app; [left|right];
      apply in_map_iff; exists (Footnote i r' c); auto.
Qed.
Print Assumptions C06_references_resolve.

(** an anonymous macro without content, footnote:[], is taken as a repetition of the first anonymous note *)
Theorem C06_empty_note_refuted :
  exists frs f frs', collectStage newFootnotes frs = (f, frs') /\
    macros (elements_of frs) = [mkMacro "" [StringElement "some text"]; mkMacro "" []] /\
    numbers (elements_of frs') = [(1%Z, "", false); (1%Z, "", true)].
Proof.
  exists [inl [Paragraph [] [Footnote 0 (VStr "") [StringElement "some text"]; Footnote 0 (VStr "") []]]].
  eexists _, _. split; [reflexivity|]. split; reflexivity.
Qed.
Print Assumptions C06_empty_note_refuted.

(** a second definition with the same reference is a second note, which no reference can reach *)
Theorem C06_redefinition_refuted :
  exists frs f frs', collectStage newFootnotes frs = (f, frs') /\
    macros (elements_of frs) = [mkMacro "a" [StringElement "one"]; mkMacro "a" [StringElement "two"]; mkMacro "a" []] /\
    numbers (elements_of frs') = [(1%Z, "a", false); (2%Z, "a", false); (1%Z, "a", true)].
Proof.
  exists [inl [Paragraph [] [Footnote 0 (VStr "a") [StringElement "one"]; Footnote 0 (VStr "a") [StringElement "two"];
                             Footnote 0 (VStr "a") []]]].
  eexists _, _. split; [reflexivity|]. split; reflexivity.
Qed.

Theorem C06_example :
  let frs := [inl [Section 1 [] (Some [StringElement "T"; Footnote 0 (VStr "") [StringElement "x"]]) [];
                   Paragraph [] [Footnote 0 (VStr "r") []]]; inr "oops";
              inl [ListElements [LabeledListElement "::" [Footnote 0 (VStr "r") [StringElement "y"]] []
                      [Paragraph [] [Footnote 0 (VStr "r") []; Footnote 0 (VStr "") [StringElement "z"]]]]]] in
  numbers (elements_of frs) = [] /\
  numbers (elements_of (snd (collectStage newFootnotes frs))) =
    [(1%Z, "", false); ((-1)%Z, "r", false); (2%Z, "r", false); (2%Z, "r", true); (3%Z, "", false)].
Proof. split; reflexivity. Qed.

(** ** C07 *)
Lemma no_footnote_child v x : no_footnote v -> In x (children v) -> no_footnote x.
Proof. intros H I i r c O. apply (H i r c). now apply occurs_child with x. Qed.

Lemma no_footnote_intro v : (forall i r c, v <> Footnote i r c) -> Forall no_footnote (children v) -> no_footnote v.
Proof.
  intros N F i r c O. inversion O as [E|? x I O']; subst; [now apply (N i r c)|].
  rewrite Forall_forall in F. now apply (F x I i r c).
Qed.

Lemma Forall_snd (P : val -> Prop) (a : attributes) : Forall (fun kv => P (snd kv)) a -> Forall P (map snd a).
Proof. rewrite Forall_map. auto. Qed.

Lemma no_footnote_ref i r d : no_footnote r -> no_footnote (FootnoteReference i r d).
Proof. intros H. apply no_footnote_intro; [discriminate|]. cbn [children]. constructor; [exact H|constructor]. Qed.

Lemma sub_inline_clean es : Forall inline_place es -> forall f, Forall no_footnote (snd (sub_inline f es)).
Proof.
  induction 1 as [|e r He Hr IH]; intros f; cbn [sub_inline]; [constructor|].
  assert (X : no_footnote (snd (match e with Footnote _ ref c => reference f ref c | _ => (f, e) end))).
  { inversion He as [i s c Hc|v Hv]; subst.
    - unfold reference. destruct c; cbn [snd]; [|now apply no_footnote_ref].
      destruct (indexOf _ _); now apply no_footnote_ref.
    - destruct e; try exact Hv. exfalso. apply (Hv id e elements). constructor. }
  destruct (match e with Footnote _ ref c => reference f ref c | _ => (f, e) end) as [f1 e'].
  specialize (IH f1). destruct (sub_inline f1 r) as [f2 r']. cbn [snd] in *. now constructor.
Qed.

Definition clean_ok (v : val) : Prop := in_place v -> forall f, no_footnote (snd (substituteFootnotes f v)).
Lemma sub_all_clean l : Forall clean_ok l -> Forall in_place l -> forall f, Forall no_footnote (snd (sub_all f l)).
Proof.
  induction 1 as [|v l Hv Hl IH]; intros P f; cbn [sub_all]; [constructor|]. inversion P as [|? ? P1 P2]; subst.
  specialize (Hv P1 f). destruct (substituteFootnotes f v) as [f1 v']. specialize (IH P2 f1).
  destruct (sub_all f1 l) as [f2 l']. cbn [snd] in *. now constructor.
Qed.

Lemma no_footnote_inline es : Forall no_footnote es -> Forall inline_place es.
Proof. intros H. eapply Forall_impl; [|exact H]. intros a Ha. now apply il_other. Qed.
Lemma no_footnote_in es : Forall no_footnote es -> Forall in_place es.
Proof. intros H. eapply Forall_impl; [|exact H]. intros a Ha. now apply ip_none. Qed.

Lemma clean v : clean_ok v.
Proof.
  induction v as [v IH] using val_ind_children. intros P f.
  assert (FE : forall l, incl l (children v) -> Forall clean_ok l) by (intros l I; apply Forall_forall; auto).
  assert (NF : forall l, incl l (children v) -> no_footnote v -> Forall no_footnote l).
  { intros l I N. apply Forall_forall. intros x Hx. apply (no_footnote_child v); auto. }
  assert (OTHER : no_footnote v -> substituteFootnotes f v = (f, v) -> no_footnote (snd (substituteFootnotes f v))).
  { intros N E. now rewrite E. }
  destruct v; try (inversion P; subst; apply OTHER; [assumption|reflexivity]).
  - (* Paragraph *)
    assert (K : Forall inline_place elements /\ Forall (fun kv => no_footnote (snd kv)) attrs).
    { inversion P as [? N|? ? A B| | | | | |]; subst; [|auto].
      split; [apply no_footnote_inline, NF; auto; intros x; cbn; rewrite in_app_iff; auto|].
      rewrite <- Forall_map. apply NF; auto. intros x; cbn; rewrite in_app_iff; auto. }
    destruct K as [K1 K2]. cbn [substituteFootnotes]. pose proof (sub_inline_clean elements K1 f) as X.
    destruct (sub_inline f elements) as [f' es']. cbn [snd] in *. apply no_footnote_intro; [discriminate|].
    cbn [children]. apply Forall_app. split; [exact X|now apply Forall_snd].
  - (* Section *) destruct title as [t|]; [|inversion P; subst; apply OTHER; [assumption|reflexivity]].
    assert (K : Forall inline_place t /\ Forall no_footnote elements /\ Forall (fun kv => no_footnote (snd kv)) attrs).
    { inversion P as [? N| |? ? ? ? A B C| | | | |]; subst; [|auto].
      split; [apply no_footnote_inline, NF; auto; intros x; cbn; rewrite !in_app_iff; auto|].
      split; [apply NF; auto; intros x; cbn; rewrite !in_app_iff; auto|].
      rewrite <- Forall_map. apply NF; auto. intros x; cbn; rewrite !in_app_iff; auto. }
    destruct K as (K1 & K2 & K3). cbn [substituteFootnotes]. pose proof (sub_inline_clean t K1 f) as X.
    destruct (sub_inline f t) as [f' es']. cbn [snd] in *. apply no_footnote_intro; [discriminate|].
    cbn [children]. rewrite !Forall_app. repeat split; [exact X|exact K2|now apply Forall_snd].
  - (* ListElements *)
    assert (K : Forall in_place elements).
    { inversion P as [? N| | |? A| | | |]; subst; [|auto]. apply no_footnote_in, NF; auto. intros x; auto. }
    cbn [substituteFootnotes]. rewrite loop_all. pose proof (sub_all_clean elements (FE elements ltac:(intros x; auto)) K f) as X.
    destruct (sub_all f elements) as [f' es']. cbn [snd] in *. apply no_footnote_intro; [discriminate|]. exact X.
  - assert (K : Forall in_place elements /\ Forall (fun kv => no_footnote (snd kv)) attrs).
    { inversion P as [? N| | | |? ? ? A B| | |]; subst; [|auto].
      split; [apply no_footnote_in, NF; auto; intros x; cbn; rewrite in_app_iff; auto|].
      rewrite <- Forall_map. apply NF; auto. intros x; cbn; rewrite in_app_iff; auto. }
    destruct K as [K K2]. cbn [substituteFootnotes]. rewrite loop_all.
    pose proof (sub_all_clean elements (FE elements ltac:(intros x; cbn; rewrite in_app_iff; auto)) K f) as X.
    destruct (sub_all f elements) as [f' es']. cbn [snd] in *. apply no_footnote_intro; [discriminate|].
    cbn [children]. apply Forall_app. split; [exact X|now apply Forall_snd].
  - assert (K : Forall in_place elements /\ Forall (fun kv => no_footnote (snd kv)) attrs).
    { inversion P as [? N| | | | |? ? ? A B| |]; subst; [|auto].
      split; [apply no_footnote_in, NF; auto; intros x; cbn; rewrite in_app_iff; auto|].
      rewrite <- Forall_map. apply NF; auto. intros x; cbn; rewrite in_app_iff; auto. }
    destruct K as [K K2]. cbn [substituteFootnotes]. rewrite loop_all.
    pose proof (sub_all_clean elements (FE elements ltac:(intros x; cbn; rewrite in_app_iff; auto)) K f) as X.
    destruct (sub_all f elements) as [f' es']. cbn [snd] in *. apply no_footnote_intro; [discriminate|].
    cbn [children]. apply Forall_app. split; [exact X|now apply Forall_snd].
  - assert (K : Forall in_place elements /\ Forall (fun kv => no_footnote (snd kv)) attrs).
    { inversion P as [? N| | | | | |? ? ? ? A B|]; subst; [|auto].
      split; [apply no_footnote_in, NF; auto; intros x; cbn; rewrite in_app_iff; auto|].
      rewrite <- Forall_map. apply NF; auto. intros x; cbn; rewrite in_app_iff; auto. }
    destruct K as [K K2]. cbn [substituteFootnotes]. rewrite loop_all.
    pose proof (sub_all_clean elements (FE elements ltac:(intros x; cbn; rewrite in_app_iff; auto)) K f) as X.
    destruct (sub_all f elements) as [f' es']. cbn [snd] in *. apply no_footnote_intro; [discriminate|].
    cbn [children]. apply Forall_app. split; [exact X|now apply Forall_snd].
  - (* LabeledListElement *)
    assert (K : Forall inline_place term /\ Forall in_place elements /\ Forall (fun kv => no_footnote (snd kv)) attrs).
    { inversion P as [? N| | | | | | |? ? ? ? A B C]; subst; [|auto].
      split; [apply no_footnote_inline, NF; auto; intros x; cbn; rewrite !in_app_iff; auto|].
      split; [apply no_footnote_in, NF; auto; intros x; cbn; rewrite !in_app_iff; auto|].
      rewrite <- Forall_map. apply NF; auto. intros x; cbn; rewrite !in_app_iff; auto. }
    destruct K as (K1 & K & K2). cbn [substituteFootnotes].
    pose proof (sub_inline_clean term K1 f) as Y. destruct (sub_inline f term) as [f1 t']. rewrite loop_all.
    pose proof (sub_all_clean elements (FE elements ltac:(intros x; cbn; rewrite !in_app_iff; auto)) K f1) as X.
    destruct (sub_all f1 elements) as [f' es']. cbn [snd] in *. apply no_footnote_intro; [discriminate|].
    cbn [children]. rewrite !Forall_app. repeat split; [exact Y|exact X|now apply Forall_snd].
Qed.

(** conversely, what is clean after the stage was in place *)
Lemma sub_inline_place es : forall f, Forall no_footnote (snd (sub_inline f es)) -> Forall inline_place es.
Proof.
  induction es as [|e r IH]; intros f H; [constructor|]. cbn [sub_inline] in H.
  assert (X : no_footnote (snd (match e with Footnote _ ref c => reference f ref c | _ => (f, e) end)) -> inline_place e).
  { destruct e; try (intros N; now apply il_other). intros N. apply il_note. unfold reference in N.
    destruct elements; cbn [snd] in N; [destruct (indexOf _ _)|]; cbn [snd] in N; (eapply no_footnote_child; [exact N|now left]). }
  destruct (match e with Footnote _ ref c => reference f ref c | _ => (f, e) end) as [f1 e'].
  specialize (IH f1). destruct (sub_inline f1 r) as [f2 r']. cbn [snd] in *. inversion H; subst. constructor; auto.
Qed.
Definition place_ok (v : val) : Prop := forall f, no_footnote (snd (substituteFootnotes f v)) -> in_place v.
Lemma sub_all_place l : Forall place_ok l -> forall f, Forall no_footnote (snd (sub_all f l)) -> Forall in_place l.
Proof.
  induction 1 as [|v l Hv Hl IH]; intros f H; [constructor|]. cbn [sub_all] in H.
  specialize (Hv f). destruct (substituteFootnotes f v) as [f1 v']. specialize (IH f1).
  destruct (sub_all f1 l) as [f2 l']. cbn [snd] in *. inversion H; subst. constructor; auto.
Qed.
Lemma was_in_place v : place_ok v.
Proof.
  induction v as [v IH] using val_ind_children. intros f N.
  assert (FE : forall l, incl l (children v) -> Forall place_ok l) by (intros l I; apply Forall_forall; auto).
  assert (NF : forall w l, incl l (children w) -> no_footnote w -> Forall no_footnote l).
  { intros w l I X. apply Forall_forall. intros x Hx. apply (no_footnote_child w); auto. }
  destruct v; try (apply ip_none; exact N); cbn [substituteFootnotes] in N; rewrite ?loop_all in N.
  - pose proof (sub_inline_place elements f) as X. destruct (sub_inline f elements) as [f' es']. cbn [snd] in *.
    apply ip_par; [apply X; apply (NF _ _) with (2 := N)|rewrite <- Forall_map; apply (NF _ _) with (2 := N)]; intros x; cbn; rewrite in_app_iff; auto.
  - destruct title as [t|]; [|now apply ip_none].
    pose proof (sub_inline_place t f) as X. destruct (sub_inline f t) as [f' es']. cbn [snd] in *.
    apply ip_sec; [apply X; apply (NF _ _) with (2 := N)|apply (NF _ _) with (2 := N)|rewrite <- Forall_map; apply (NF _ _) with (2 := N)];
      intros x; cbn; rewrite !in_app_iff; auto.
  - pose proof (sub_all_place elements (FE elements ltac:(intros x; auto)) f) as X. destruct (sub_all f elements) as [f' es']. cbn [snd] in *.
    apply ip_list. apply X. apply (NF _ _) with (2 := N). intros x; auto.
  - pose proof (sub_all_place elements (FE elements ltac:(intros x; cbn; rewrite in_app_iff; auto)) f) as X.
    destruct (sub_all f elements) as [f' es']. cbn [snd] in *.
    apply ip_call; [apply X; apply (NF _ _) with (2 := N)|rewrite <- Forall_map; apply (NF _ _) with (2 := N)]; intros x; cbn; rewrite in_app_iff; auto.
  - pose proof (sub_all_place elements (FE elements ltac:(intros x; cbn; rewrite in_app_iff; auto)) f) as X.
    destruct (sub_all f elements) as [f' es']. cbn [snd] in *.
    apply ip_ord; [apply X; apply (NF _ _) with (2 := N)|rewrite <- Forall_map; apply (NF _ _) with (2 := N)]; intros x; cbn; rewrite in_app_iff; auto.
  - pose proof (sub_all_place elements (FE elements ltac:(intros x; cbn; rewrite in_app_iff; auto)) f) as X.
    destruct (sub_all f elements) as [f' es']. cbn [snd] in *.
    apply ip_unord; [apply X; apply (NF _ _) with (2 := N)|rewrite <- Forall_map; apply (NF _ _) with (2 := N)]; intros x; cbn; rewrite in_app_iff; auto.
  - pose proof (sub_inline_place term f) as Y. destruct (sub_inline f term) as [f1 t']. rewrite loop_all in N.
    pose proof (sub_all_place elements (FE elements ltac:(intros x; cbn; rewrite !in_app_iff; auto)) f1) as X.
    destruct (sub_all f1 elements) as [f' es']. cbn [snd] in *.
    apply ip_lab; [apply Y; apply (NF _ _) with (2 := N)|apply X; apply (NF _ _) with (2 := N)|rewrite <- Forall_map; apply (NF _ _) with (2 := N)];
      intros x; cbn; rewrite !in_app_iff; auto.
Qed.

(** C07: no macro remains in the document exactly when all footnotes stand directly in the text of paragraphs, section titles, list
    terms and list items *)
Theorem C07_no_footnote_left :
  forall frs f, Forall no_footnote (elements_of (snd (collectStage f frs))) <-> Forall in_place (elements_of frs).
Proof.
  induction frs as [|fr frs IH]; intros f; cbn [collectStage]; [split; constructor|]. unfold collectFootnotes.
  destruct fr as [es|e].
  - pose proof (sub_all_clean es (proj2 (Forall_forall _ _) (fun x _ => clean x))) as X. specialize (fun P => X P f).
    pose proof (sub_all_place es (proj2 (Forall_forall _ _) (fun x _ => was_in_place x)) f) as Y.
    destruct (sub_all f es) as [f1 es']. specialize (IH f1). destruct (collectStage f1 frs) as [f2 frs'].
    cbn [snd elements_of flat_map] in *. rewrite !Forall_app. tauto.
  - specialize (IH f). destruct (collectStage f frs) as [f2 frs']. exact IH.
Qed.
Print Assumptions C07_no_footnote_left.

(** no macro is in the text of the notes exactly when no macro that was collected has one in its text *)
Definition plain_macro (m : macro) : Prop := Forall no_footnote (m_content m).
Definition note_content (v : val) : list val := match v with Footnote _ _ c => c | _ => [] end.
Theorem C07_notes :
  forall frs f frs', numbers (elements_of frs) = [] -> collectStage newFootnotes frs = (f, frs') ->
  Forall (fun n => Forall no_footnote (note_content n)) (fn_notes f) <-> Forall plain_macro (macros (elements_of frs)).
Proof.
  intros frs f frs' R E. destruct (C06_footnotes_numbered frs f frs' R E) as (_ & M & _).
  assert (A : Forall plain_macro (flat_map macro_of (fn_notes f)) <-> Forall (fun n => Forall no_footnote (note_content n)) (fn_notes f)).
  { clear. induction (fn_notes f) as [|v l IH]; [split; constructor|]. cbn [flat_map]. rewrite Forall_app, IH, !Forall_cons_iff.
    enough (Forall plain_macro (macro_of v) <-> Forall no_footnote (note_content v)) by tauto.
    destruct v; cbn [macro_of note_content]; split; intros H; try constructor; try exact H; try constructor.
    inversion H; assumption. }
  rewrite <- A, M. clear. unfold notes. induction (macros (elements_of frs)) as [|m l IH]; [split; constructor|].
  cbn [filter]. destruct (has_content m) eqn:H; rewrite !Forall_cons_iff, ?IH; [tauto|].
  enough (plain_macro m) by tauto. destruct m as [r []]; [constructor|discriminate].
Qed.
Print Assumptions C07_notes.

Ltac occ := first [apply occurs_here | eapply occurs_child; [cbn; left; reflexivity|]; occ |
  eapply occurs_child; [cbn; right; right; left; reflexivity|]; occ ].
(** in a delimited block, in a table, in a list continuation, in bold text, in the document title
    the macro stays (and rendering then fails: no case for it in renderElement, elements.go:47-146) *)
Theorem C07_nested_refuted :
  let note := Footnote 0 (VStr "") [StringElement "x"] in
  Forall (fun v => exists f', collectStage newFootnotes [inl [v]] = (f', [inl [v]]) /\ occurs note v)
    [DelimitedBlock "example" [] [Paragraph [] [note]];
     Table [] VNil [TableRow [TableCell "" [note]]] VNil;
     ListElements [ListContinuation 0 (Paragraph [] [note])];
     Paragraph [] [QuotedText "*" [note] []];
     DocumentHeader (Some [note]) [] []].
Proof.
  cbn zeta. repeat constructor; eexists; (split; [reflexivity|]);
    occ.
Qed.
Print Assumptions C07_nested_refuted.

Theorem C07_example :
  Forall in_place [Paragraph [] [StringElement "a"; Footnote 0 (VStr "r") [StringElement "b"]]].
Proof.
  assert (NS : forall s, no_footnote (StringElement s)) by (intros; apply no_footnote_intro; [discriminate|constructor]).
  constructor; [|constructor]. apply ip_par; [|constructor].
  constructor; [now apply il_other|]. constructor; [|constructor]. apply il_note. apply no_footnote_intro; [discriminate|constructor].
Qed.

(** a footnote in the content of another one stays too, in the list of notes *)
Theorem C07_note_in_note_refuted :
  exists frs f frs', collectStage newFootnotes frs = (f, frs') /\
    Exists (occurs (Footnote 0 (VStr "") [StringElement "x"])) (fn_notes f).
Proof.
  exists [inl [Paragraph [] [Footnote 0 (VStr "") [Footnote 0 (VStr "") [StringElement "x"]]]]].
  eexists _, _. split; [reflexivity|]. cbn. constructor.
  eapply occurs_child; [cbn; right; left; reflexivity|]. constructor.
Qed.
