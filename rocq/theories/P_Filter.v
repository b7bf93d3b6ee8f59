(** C23: the filter stage. *)
From Verif Require Import GoBase Types Elements Footnotes Filter FilterSpec.

Definition items_fix := fix items (l : list val) : result (list val) :=
    match l with
    | [] => Ok []
    | e :: r => do e' <- filterElem e; do r' <- items r; Ok (e' :: r')
    end.
Lemma loop_eq l : (fix loop (l : list val) : result (list val) :=
    match l with
    | [] => Ok []
    | e :: r =>
        if matched e then loop r
        else do e' <- filterElem e;
             do r' <- loop r;
             Ok (if isEmpty e' then r' else e' :: r')
    end) l = filterElems l.
Proof. induction l as [|e l IH]; [reflexivity|]. cbn [filterElems]. destruct (matched e); [exact IH|]. now rewrite IH. Qed.

(** one description of what happens to an element that is kept *)
Definition isList (v : val) : bool := match v with ListBlock _ _ _ => true | _ => false end.
Lemma filterElem_eq v : filterElem v =
  match getElements v with
  | None => Ok v
  | Some es =>
      if isList v then do es' <- items_fix es; Ok (set_elements v es')
      else do es' <- filterElems es;
           match v with DelimitedBlock _ _ _ => Ok (set_elements v es') | _ => setElements v es' end
  end.
Proof.
  destruct v; cbn [filterElem getElements isList set_elements]; rewrite ?loop_eq; try reflexivity.
Qed.

Lemma matched_spec v : matched v = true <-> comment_or_blank v.
Proof.
  unfold comment_or_blank. split.
  - destruct v; cbn; try discriminate; eauto. rewrite String.eqb_eq. intros ->. eauto.
  - intros [->|[(s & ->)|(a & es & ->)]]; reflexivity.
Qed.

Lemma isEmpty_spec v : isEmpty v = true -> v = DocumentHeader None [] [].
Proof. destruct v; cbn; try discriminate. destruct title; [discriminate|]. destruct attrs; [|discriminate]. now destruct elements. Qed.

Lemma typed_in v es x : typed v -> getElements v = Some es -> In x es -> typed x.
Proof. intros T G I w R. apply T. eapply reached_in; eauto. Qed.

Definition cleaned (v : val) : Prop := forall c, reached c v -> c = v \/ (~ comment_or_blank c /\ isEmpty c = false).

Lemma getElements_size v es x : getElements v = Some es -> In x es -> In x (children v).
Proof. intros G I. now apply (getElements_children v es G). Qed.

Definition elem_ok (v : val) : Prop := typed v ->
  exists v', filterElem v = Ok v' /\ matched v' = matched v /\
    cleaned v' /\ typed v' /\ (is_item v -> is_item v') /\
    (forall cs, v = TableRow cs -> exists cs', v' = TableRow cs') /\
    (forall f cs, v = TableCell f cs -> exists f' cs', v' = TableCell f' cs') /\
    (getElements v = None -> v' = v) /\
    (forall es, getElements v = Some es -> exists es', v' = set_elements v es' /\ pruned es es').

Lemma filterElems_ok l : Forall elem_ok l -> Forall typed l ->
  exists l', filterElems l = Ok l' /\ pruned l l' /\ Forall cleaned l' /\ Forall typed l' /\ Forall (fun v => matched v = false /\ isEmpty v = false) l' /\
    (forall P : val -> Prop, (forall v v', In v l -> filterElem v = Ok v' -> P v') -> Forall P l').
Proof.
  induction 1 as [|v l Hv Hl IH]; intros T; cbn [filterElems].
  - exists []. split; [reflexivity|]. split; [constructor|]. repeat split; constructor.
  - inversion T as [|? ? T1 T2]; subst. destruct (IH T2) as (l' & E & P & C & TY & M & Q).
    destruct (matched v) eqn:Em.
    + exists l'. split; [exact E|]. split; [apply pr_drop; [now apply matched_spec|exact P]|]. repeat split; auto.
      intros P' H. apply Q. intros; eapply H; eauto; now right.
    + destruct (Hv T1) as (v' & Ev & Mv & Cv & Tv & _ & _ & _ & Lv & Kv). rewrite Ev, E. cbn [bind].
      destruct (isEmpty v') eqn:Ee.
      * exists l'. split; [reflexivity|]. split.
        { apply isEmpty_spec in Ee. subst v'. destruct (getElements v) as [es|] eqn:G.
          - destruct (Kv es eq_refl) as (es' & Eq & Pr). destruct v; cbn in Eq; try discriminate; try (now cbn in G).
            injection Eq as <- <- <-. cbn in G. injection G as ->. now apply pr_header.
          - specialize (Lv eq_refl). subst v. discriminate G. }
        repeat split; auto. intros P' H. apply Q. intros; eapply H; eauto; now right.
      * exists (v' :: l'). split; [reflexivity|]. split.
        { destruct (getElements v) as [es|] eqn:G.
          - destruct (Kv es eq_refl) as (es' & -> & Pr). now apply pr_keep with es.
          - rewrite (Lv eq_refl). now apply pr_leaf. }
        split; [now constructor|]. split; [now constructor|]. split; [constructor; [split; congruence|exact M]|].
        intros P' H. constructor; [apply (H v); [now left|exact Ev]|]. apply Q. intros; eapply H; eauto; now right.
Qed.

Lemma items_ok l : Forall elem_ok l -> Forall typed l -> Forall is_item l ->
  exists l', items_fix l = Ok l' /\ pruned l l' /\ Forall cleaned l' /\ Forall typed l' /\ Forall (fun v => matched v = false /\ isEmpty v = false) l' /\ Forall is_item l'.
Proof.
  induction 1 as [|v l Hv Hl IH]; intros T I; cbn [items_fix].
  - exists []. repeat split; constructor.
  - inversion T as [|? ? T1 T2]; subst. inversion I as [|? ? I1 I2]; subst. destruct (IH T2 I2) as (l' & E & P & C & TY & M & II).
    destruct (Hv T1) as (v' & Ev & Mv & Cv & Tv & Iv & _ & _ & Lv & Kv). fold items_fix. rewrite Ev, E. cbn [bind].
    exists (v' :: l'). split; [reflexivity|]. split.
    { destruct (getElements v) as [es|] eqn:G.
      - destruct (Kv es eq_refl) as (es' & -> & Pr). now apply pr_keep with es.
      - destruct v; try destruct I1; discriminate G. }
    split; [now constructor|]. split; [now constructor|]. split; [|constructor; auto].
    constructor; [|exact M]. rewrite Mv. specialize (Iv I1). destruct v; try destruct I1; (split; [reflexivity|]); destruct v'; try destruct Iv; reflexivity.
Qed.

Lemma cleaned_set v es es' : getElements v = Some es -> Forall cleaned es' -> Forall (fun v => matched v = false /\ isEmpty v = false) es' ->
  cleaned (set_elements v es').
Proof.
  intros G C M c R. inversion R as [|? es'' x G' I R']; subst; [now left|right].
  rewrite (get_set v es es' G) in G'. injection G' as <-.
  rewrite Forall_forall in C, M. destruct (C x I c R') as [->|N]; [|exact N].
  destruct (M x I) as [M1 M2]. rewrite <- matched_spec, M1. split; [discriminate|exact M2].
Qed.
Lemma typed_set v es es' : getElements v = Some es -> Forall typed es' ->
  match set_elements v es' with
  | Table _ _ rows _ => Forall (fun r => exists cs, r = TableRow cs) rows
  | TableRow cells => Forall (fun c => exists f es, c = TableCell f es) cells
  | ListBlock _ _ items => Forall is_item items
  | _ => True
  end -> typed (set_elements v es').
Proof.
  intros G T H w R. inversion R as [|? es'' x G' I R']; subst; [exact H|].
  rewrite (get_set v es es' G) in G'. injection G' as <-.
  rewrite Forall_forall in T. exact (T x I w R').
Qed.

Lemma matched_set v es es' : getElements v = Some es -> matched (set_elements v es') = matched v.
Proof. destruct v; cbn; try discriminate; reflexivity. Qed.

Lemma elem_all v : elem_ok v.
Proof.
  induction v as [v IH] using val_ind_children. intros T. rewrite filterElem_eq.
  destruct (getElements v) as [es|] eqn:G.
  2:{ exists v. split; [reflexivity|]. split; [reflexivity|]. split.
      - intros c R. inversion R as [|? es'' x G' I R']; subst; [now left|]. rewrite G in G'. discriminate.
      - split; [exact T|]. split; [auto|]. split; [eauto|]. split; [eauto|]. split; [auto|]. discriminate. }
  assert (FO : Forall elem_ok es). { apply Forall_forall. intros x I. apply IH. eapply getElements_size; eauto. }
  assert (FT : Forall typed es). { apply Forall_forall. intros x I. eapply typed_in; eauto. }
  pose proof (T v (reached_here v)) as Tv.
  destruct (isList v) eqn:EL.
  - destruct v; try discriminate EL. cbn in G. injection G as ->.
    destruct (items_ok es FO FT Tv) as (l' & E & P & C & TY & M & II).
    rewrite E. cbn [bind set_elements]. exists (ListBlock kind attrs l').
    split; [reflexivity|]. split; [reflexivity|].
    split; [apply (cleaned_set (ListBlock kind attrs es) es l' eq_refl C M)|].
    split; [apply (typed_set (ListBlock kind attrs es) es l' eq_refl TY); exact II|].
    split; [intros []|]. split; [discriminate|]. split; [discriminate|]. split; [discriminate|].
    intros es0 [= <-]. exists l'. split; [reflexivity|exact P].
  - destruct (filterElems_ok es FO FT) as (l' & E & P & C & TY & M & Q). rewrite E. cbn [bind].
    assert (X : (match v with DelimitedBlock _ _ _ => Ok (set_elements v l') | _ => setElements v l' end) = Ok (set_elements v l') /\
      match set_elements v l' with
      | Table _ _ rows _ => Forall (fun r => exists cs, r = TableRow cs) rows
      | TableRow cells => Forall (fun c => exists f es, c = TableCell f es) cells
      | ListBlock _ _ items => Forall is_item items
      | _ => True
      end).
    { destruct v; try discriminate G; try (split; [reflexivity|exact I]); cbn in G; injection G as ->; cbn [set_elements setElements]; try discriminate EL.
      - assert (F : Forall (fun r => exists cs, r = TableRow cs) l').
        { apply Q. intros v v' I Ev. rewrite Forall_forall in Tv. destruct (Tv v I) as (cs & ->).
          rewrite Forall_forall in FO, FT. destruct (FO _ I (FT _ I)) as (v'' & Ev' & _ & _ & _ & _ & H & _).
          rewrite Ev in Ev'. injection Ev' as ->. now apply (H cs). }
        assert (B : forallb is_row l' = true).
        { apply forallb_forall. intros x I. rewrite Forall_forall in F. destruct (F x I) as (cs & ->). reflexivity. }
        rewrite B. split; [reflexivity|exact F].
      - assert (F : Forall (fun c => exists f es, c = TableCell f es) l').
        { apply Q. intros v v' I Ev. rewrite Forall_forall in Tv. destruct (Tv v I) as (f & cs & ->).
          rewrite Forall_forall in FO, FT. destruct (FO _ I (FT _ I)) as (v'' & Ev' & _ & _ & _ & _ & _ & H & _).
          rewrite Ev in Ev'. injection Ev' as ->. now apply (H f cs). }
        assert (B : forallb is_cell l' = true).
        { apply forallb_forall. intros x I. rewrite Forall_forall in F. destruct (F x I) as (f & cs & ->). reflexivity. }
        rewrite B. split; [reflexivity|exact F]. }
    destruct X as [X1 X2]. exists (set_elements v l'). split; [exact X1|]. split; [now apply matched_set with es|].
    split; [now apply cleaned_set with es|]. split; [now apply typed_set with es|].
    split; [destruct v; cbn; auto|]. split; [intros cs ->; cbn; eauto|]. split; [intros f cs ->; cbn; eauto|].
    split; [discriminate|]. intros es0 [= <-]. exists l'. split; [reflexivity|exact P].
Qed.

(** C23.  For every list of blocks: the filter succeeds; what it returns is the input after the removal of comments, blank
    lines and empty headers only; and nothing reached in the result through the elements of elements is a comment or a
    blank line. *)
Theorem C23_filter_removes_exactly :
  forall es, Forall typed es ->
  exists es', filterOut (inl es) = inl es' /\ pruned es es' /\
    forall v c, In v es' -> reached c v -> ~ comment_or_blank c.
Proof.
  intros es T. destruct (filterElems_ok es (proj2 (Forall_forall _ _) (fun x _ => elem_all x)) T) as (l' & E & P & C & TY & M & _).
  exists l'. unfold filterOut. rewrite E. split; [reflexivity|]. split; [exact P|].
  intros v c I R. rewrite Forall_forall in C, M. destruct (C v I c R) as [->|[N _]]; [|exact N].
  rewrite <- matched_spec, (proj1 (M v I)). discriminate.
Qed.
Print Assumptions C23_filter_removes_exactly.

(** the same shape again: an element without noise is kept as it is *)
Definition stable (v : val) : Prop := cleaned v -> typed v -> filterElem v = Ok v.
Lemma filterElems_stable l : Forall stable l -> Forall cleaned l -> Forall typed l -> Forall (fun v => matched v = false /\ isEmpty v = false) l ->
  filterElems l = Ok l.
Proof.
  induction 1 as [|v l Hv Hl IH]; intros C T M; [reflexivity|]. cbn [filterElems].
  inversion C as [|? ? C1 C2]; inversion T as [|? ? T1 T2]; inversion M as [|? ? [M1 M1'] M2]; subst.
  rewrite M1, (Hv C1 T1). cbn [bind]. rewrite IH by auto. cbn [bind]. now rewrite M1'.
Qed.
Lemma items_stable l : Forall stable l -> Forall cleaned l -> Forall typed l -> items_fix l = Ok l.
Proof.
  induction 1 as [|v l Hv Hl IH]; intros C T; [reflexivity|]. cbn [items_fix]. fold items_fix.
  inversion C as [|? ? C1 C2]; inversion T as [|? ? T1 T2]; subst.
  rewrite (Hv C1 T1). cbn [bind]. rewrite IH by auto. reflexivity.
Qed.
Lemma stable_all v : stable v.
Proof.
  induction v as [v IH] using val_ind_children. intros C T. rewrite filterElem_eq.
  destruct (getElements v) as [es|] eqn:G; [|reflexivity].
  assert (SZ : forall x c, In x es -> reached c x -> vsize c < vsize v).
  { intros x c I R. assert (L : vsize x < vsize v) by (apply children_size; eapply getElements_size; eauto).
    assert (LE : vsize c <= vsize x).
    { clear -R. induction R as [|w es y G I R IHR]; [lia|].
      assert (vsize y < vsize w) by (apply children_size; eapply getElements_size; eauto). lia. }
    lia. }
  assert (S1 : Forall stable es) by (apply Forall_forall; intros x I; apply IH; eapply getElements_size; eauto).
  assert (S2 : forall x c, In x es -> reached c x -> ~ comment_or_blank c /\ isEmpty c = false).
  { intros x c I R. destruct (C c (reached_in c v es x G I R)) as [->|N]; [|exact N]. specialize (SZ x v I R). lia. }
  assert (S3 : Forall cleaned es). { apply Forall_forall. intros x I c R. right. now apply (S2 x). }
  assert (S4 : Forall typed es). { apply Forall_forall. intros x I. eapply typed_in; eauto. }
  assert (S5 : Forall (fun v => matched v = false /\ isEmpty v = false) es).
  { apply Forall_forall. intros x I. destruct (S2 x x I (reached_here x)) as [A B]. split; [|exact B].
    destruct (matched x) eqn:M; [|reflexivity]. now apply matched_spec in M. }
  rewrite (filterElems_stable es), (items_stable es) by auto. cbn [bind]. rewrite (set_get v es G).
  destruct (isList v); [reflexivity|]. destruct v; try reflexivity; cbn in G; try discriminate G; injection G as ->; cbn [setElements set_elements];
   try reflexivity.
  - pose proof (T _ (reached_here _)) as Tv. cbn in Tv.
    assert (B : forallb is_row es = true).
    { apply forallb_forall. intros x I. rewrite Forall_forall in Tv. destruct (Tv x I) as (cs & ->). reflexivity. }
    now rewrite B.
  - pose proof (T _ (reached_here _)) as Tv. cbn in Tv.
    assert (B : forallb is_cell es = true).
    { apply forallb_forall. intros x I. rewrite Forall_forall in Tv. destruct (Tv x I) as (cs & ? & ->). reflexivity. }
    now rewrite B.
Qed.

(** filtering twice is filtering once, for whole documents *)
Theorem C23_idempotent :
  forall frs, Forall (fun fr => match fr with inl es => Forall typed es | inr _ => True end) frs ->
  filterStage (filterStage frs) = filterStage frs.
Proof.
  intros frs T. unfold filterStage. rewrite map_map. apply map_ext_in. intros fr I. rewrite Forall_forall in T.
  specialize (T fr I). destruct fr as [es|e]; [|reflexivity]. unfold filterOut at 2 3.
  destruct (filterElems_ok es (proj2 (Forall_forall _ _) (fun x _ => elem_all x)) T) as (l' & E & P & C & TY & M & _).
  rewrite E. unfold filterOut. rewrite (filterElems_stable l'); auto. apply Forall_forall. intros x _. apply stable_all.
Qed.
Print Assumptions C23_idempotent.

(** a document without comments, blank lines and empty headers is unchanged *)
Theorem C23_identity :
  forall es, Forall typed es -> (forall v c, In v es -> reached c v -> ~ comment_or_blank c /\ isEmpty c = false) ->
  filterOut (inl es) = inl es.
Proof.
  intros es T H. unfold filterOut. rewrite (filterElems_stable es); auto; apply Forall_forall.
  - intros x _. apply stable_all.
  - intros x I c R. right. now apply (H x).
  - intros x I. destruct (H x x I (reached_here x)) as [A B]. split; [|exact B].
    destruct (matched x) eqn:M; [|reflexivity]. now apply matched_spec in M.
Qed.
Print Assumptions C23_identity.

Theorem C23_example :
  let es := [BlankLine; Paragraph [] [StringElement "a"]; DelimitedBlock "comment" [] [StringElement "x"];
             ListBlock "unordered_list" [] [UnorderedListElement "*" "" [] [Paragraph [] [SinglelineComment "c"; StringElement "b"]; BlankLine]];
             DocumentHeader None [] [SinglelineComment "c"]] in
  filterOut (inl es) = inl [Paragraph [] [StringElement "a"];
             ListBlock "unordered_list" [] [UnorderedListElement "*" "" [] [Paragraph [] [StringElement "b"]]]].
Proof. reflexivity. Qed.

(** the header row and the footer row of a table are not reached (Table.GetElements, types.go:3780-3786): whatever they hold, also
    blank lines and comments, stays *)
Theorem C23_table_header_refuted :
  (forall a h rows f es', filterOut (inl [Table a h rows f]) = inl es' -> exists rows', es' = [Table a h rows' f]) /\
  exists h, filterOut (inl [Table [] h [] VNil]) = inl [Table [] h [] VNil] /\
    exists cells, h = TableRow [TableCell "a" cells] /\ In BlankLine cells.
Proof.
  split.
  - intros a h rows f es'. unfold filterOut. cbn [filterElems matched]. 
    destruct (filterElem (Table a h rows f)) as [v|m|m] eqn:E; cbn [bind]; try discriminate.
    assert (K : exists rows', v = Table a h rows' f).
    { cbn [filterElem] in E. match type of E with bind ?x _ = _ => destruct x as [l|?|?] end; cbn [bind] in E; try discriminate.
      cbn [setElements] in E. match type of E with context[if ?b then _ else _] => destruct b end; inversion E; eauto. }
    destruct K as (rows' & ->). cbn. intros [= <-]. eauto.
  - exists (TableRow [TableCell "a" [BlankLine]]). split; [reflexivity|]. eexists. split; [reflexivity|now left].
Qed.
Print Assumptions C23_table_header_refuted.
