(** C56: gathering the lines of a list. *)
From Verif Require Import GoBase GoLemmas Types Attrs Elements Footnotes FilterSpec Lists ListSpec ListLemmas ListCollect ListCollectSpec.

(** the paragraph that takes the next line *)
Definition target (v : val) : option val :=
  match v with
  | ListContinuation _ x => Some x
  | _ => match getElements v with Some es => hd_error (List.rev es) | None => None end
  end.
Definition open_par (x : val) : Prop :=
  match x with
  | Paragraph _ es => es <> [] /\ forall s r, List.rev es = RawLine s :: r -> has_suffix s LF = false
  | _ => True
  end.
Definition open_ok (v : val) : Prop := match target v with Some x => open_par x | None => True end.
Lemma takes_or v : {takes_lines v} + {~ takes_lines v}.
Proof. destruct v; cbn; try (left; discriminate); try (right; intros H; now apply H); try (right; tauto). destruct v; try (right; tauto). now left. Qed.

Lemma unterminated_id s : has_suffix s LF = false -> unterminated s = s.
Proof. unfold unterminated, trim_suffix. now intros ->. Qed.
Lemma unterminated_add s : unterminated (s ++ LF)%string = s.
Proof. apply trim_suffix_app. Qed.

Lemma paragraph_add_ok a es x : open_par (Paragraph a es) -> is_line x ->
  exists es', paragraph_add a es x = Ok (Paragraph a es') /\ flat_map contents es' = flat_map contents es ++ contents x /\
    es' <> [] /\ exists r, List.rev es' = x :: r.
Proof.
  intros [N T] L. unfold paragraph_add. destruct (List.rev es) as [|z r] eqn:E.
  - apply (f_equal (@List.rev val)) in E. rewrite rev_involutive in E. now destruct N.
  - assert (ES : es = List.rev r ++ [z]) by (rewrite <- (rev_involutive es), E; reflexivity).
    assert (D : exists es', (match z with RawLine s => Ok (Paragraph a (List.rev r ++ [RawLine (s ++ LF)%string; x])) | _ => Ok (Paragraph a (es ++ [x])) end)
       = Ok (Paragraph a es') /\ ((exists s, z = RawLine s /\ es' = List.rev r ++ [RawLine (s ++ LF)%string; x]) \/ es' = es ++ [x])).
    { destruct z; eexists; (split; [reflexivity|]); auto. left. eauto. }
    destruct D as (es' & -> & D). exists es'. split; [reflexivity|]. destruct D as [(s & -> & ->)| ->].
    + specialize (T s r eq_refl). rewrite ES, !flat_map_app. cbn [flat_map contents]. rewrite unterminated_add, (unterminated_id s T), !app_nil_r, <- app_assoc.
      split; [reflexivity|]. split; [now destruct (List.rev r)|]. rewrite rev_app_distr. cbn. eauto.
    + rewrite flat_map_app. cbn [flat_map]. rewrite app_nil_r. split; [reflexivity|]. split; [now destruct es|].
      rewrite rev_app_distr. cbn. eauto.
Qed.
Lemma open_par_new a es x r : List.rev es = x :: r -> no_terminator x -> es <> [] -> open_par (Paragraph a es).
Proof. intros E T N. split; [exact N|]. intros s r' E'. rewrite E in E'. injection E' as -> _. apply T. constructor. Qed.

Lemma contents_item v m es : marker_of v = Some m -> getElements v = Some es ->
  contents v = withAttrs (set_elements v []) [] :: flat_map contents es.
Proof. destruct v; cbn; try discriminate; intros _ [= ->]; reflexivity. Qed.
Lemma contents_append v x : starts_item v -> contents (append_element v x) = contents v ++ contents x.
Proof.
  intros I. unfold starts_item in I. destruct (marker_of v) as [m|] eqn:M; [|congruence].
  destruct (item_elements v) as [es G]; [unfold item; congruence|].
  assert (G' : getElements (append_element v x) = Some (es ++ [x])) by (unfold append_element; rewrite G; exact (get_set _ _ _ G)).
  rewrite (contents_item _ m _ (eq_trans (marker_append v x) M) G'), (contents_item v m es M G), flat_map_app.
  cbn [flat_map app]. rewrite app_nil_r. f_equal. unfold append_element. rewrite G. destruct v; reflexivity.
Qed.

(** adding a line *)
Lemma addElement_ok e x : open_ok e -> is_line x -> no_terminator x -> takes_lines e ->
  exists e', addElement e x = Ok e' /\ contents e' = contents e ++ contents x /\ open_ok e' /\ takes_lines e' /\
    opens e' = opens e /\ getAttributes e' = getAttributes e /\ marker_of e' = marker_of e.
Proof.
  intros O L T TL. destruct (marker_of e) as [m|] eqn:M.
  - assert (I : starts_item e) by (unfold starts_item; congruence).
    destruct (item_elements e) as [es G]; [unfold item; congruence|].
    assert (A : addElement e x = addToListElement e x) by (destruct e; try reflexivity; discriminate).
    rewrite A. assert (OK : open_par (match List.rev es with z :: _ => z | [] => VNil end)).
    { unfold open_ok, target in O. destruct e; try discriminate; rewrite G in O; destruct (List.rev es); auto; exact Logic.I. }
    assert (APP : forall y, starts_item (append_element e y) /\ getElements (append_element e y) = Some (es ++ [y]) /\
                   opens (append_element e y) = opens e /\ getAttributes (append_element e y) = getAttributes e /\
                   takes_lines (append_element e y) /\ marker_of (append_element e y) = Some m).
    { intros y. unfold append_element. rewrite G. destruct e; try discriminate; repeat split; try discriminate; exact M. }
    destruct x; try (now destruct L).
    + (* RawLine *)
      cbn [addToListElement]. rewrite G. destruct (List.rev es) as [|z r] eqn:E.
      * eexists. split; [reflexivity|]. destruct (APP (Paragraph [] [RawLine content])) as (A1 & A2 & A3 & A4 & A5 & A6).
        split; [rewrite contents_append by exact I; reflexivity|]. split; [|auto].
        unfold open_ok. replace (target _) with (Some (Paragraph [] [RawLine content])).
        { eapply open_par_new; [reflexivity|exact T|discriminate]. }
        unfold target. destruct (append_element e _) eqn:Q; try (now destruct A1); rewrite A2, rev_app_distr; reflexivity.
      * assert (ES : es = List.rev r ++ [z]) by (rewrite <- (rev_involutive es), E; reflexivity).
        destruct (match z with Paragraph _ _ => true | _ => false end) eqn:PZ.
        { destruct z; try discriminate. destruct (paragraph_add_ok attrs elements (RawLine content) OK L) as (es' & P1 & P2 & P3 & r' & P4).
          rewrite P1. cbn [bind]. eexists. split; [reflexivity|].
          assert (G' : getElements (set_elements e (List.rev r ++ [Paragraph attrs es'])) = Some (List.rev r ++ [Paragraph attrs es'])) by exact (get_set _ _ _ G).
          assert (M' : marker_of (set_elements e (List.rev r ++ [Paragraph attrs es'])) = Some m) by (now rewrite marker_set).
          split.
          { rewrite (contents_item _ m _ M' G'), (contents_item e m es M G), ES, !flat_map_app. cbn [flat_map contents]. rewrite !app_nil_r, P2.
            cbn [app]. rewrite !app_assoc. f_equal. destruct e; reflexivity. }
          split; [|destruct e; try discriminate; repeat split; try discriminate; exact M].
          unfold open_ok. replace (target _) with (Some (Paragraph attrs es')).
          { eapply open_par_new; eauto. }
          unfold target. destruct (set_elements e _) eqn:Q; try discriminate; rewrite G', rev_app_distr; reflexivity. }
        { assert (D : addToListElement e (RawLine content) = Ok (append_element e (Paragraph [] [RawLine content]))).
          { cbn [addToListElement]. rewrite G, E. destruct z; try reflexivity. discriminate. }
          cbn [addToListElement] in D. rewrite G, E in D. rewrite D. eexists. split; [reflexivity|].
          destruct (APP (Paragraph [] [RawLine content])) as (A1 & A2 & A3 & A4 & A5 & A6).
          split; [rewrite contents_append by exact I; reflexivity|]. split; [|auto].
          unfold open_ok. replace (target _) with (Some (Paragraph [] [RawLine content])).
          { eapply open_par_new; [reflexivity|exact T|discriminate]. }
          unfold target. destruct (append_element e _) eqn:Q; try (now destruct A1); rewrite A2, rev_app_distr; reflexivity. }
    + (* comment *)
      cbn [addToListElement]. eexists. split; [reflexivity|]. destruct (APP (SinglelineComment content)) as (A1 & A2 & A3 & A4 & A5 & A6).
      split; [rewrite contents_append by exact I; reflexivity|]. split; [|auto].
      unfold open_ok. replace (target _) with (Some (SinglelineComment content)); [exact Logic.I|].
      unfold target. destruct (append_element e _) eqn:Q; try (now destruct A1); rewrite A2, rev_app_distr; reflexivity.
  - assert (EX : exists off a es, e = ListContinuation off (Paragraph a es)).
    { destruct e; cbn in TL; unfold starts_item in TL; cbn in TL; try congruence; try discriminate. destruct e; try (now destruct TL). eauto. }
    destruct EX as (off & a & es & ->). cbn [addElement].
    destruct (paragraph_add_ok a es x O L) as (es' & P1 & P2 & P3 & r & P4). rewrite P1. cbn [bind]. eexists. split; [reflexivity|].
    split; [cbn [contents]; rewrite P2; reflexivity|]. split; [|repeat split]. unfold open_ok. cbn [target]. eapply open_par_new; eauto.
Qed.
Lemma addElement_err e x : is_line x -> opens e = true -> ~ takes_lines e -> addElement e x = Err "unable to attach element in a list".
Proof.
  intros L O N. destruct e; try (destruct N; discriminate); try reflexivity; try discriminate.
  cbn [takes_lines] in N. destruct e; try reflexivity; try discriminate. now destruct N.
Qed.

(** the elements of a run as the loop meets them *)
Lemma source_open e : opens e = true -> source_element e -> open_ok e.
Proof.
  intros OP [P T]. unfold open_ok. destruct (marker_of e) as [m|] eqn:M.
  - assert (I : item e) by (unfold item; congruence). destruct (item_elements e I) as [es G].
    assert (TG : target e = hd_error (List.rev es)) by (destruct e; try discriminate; unfold target; now rewrite G).
    rewrite TG. destruct (List.rev es) as [|z r] eqn:E; [exact Logic.I|]. cbn [hd_error].
    assert (IN : In z es) by (apply in_rev; rewrite E; now left).
    assert (PZ : own_paragraph z).
    { unfold own_paragraphs in P. destruct e; try discriminate; rewrite G in P; rewrite Forall_forall in P; now apply P. }
    assert (TZ : no_terminator z).
    { intros s R. assert (X : no_terminator e) by (destruct e; try discriminate; exact T). apply X. exact (reached_in _ e es z G IN R). }
    destruct z; try exact Logic.I. split; [exact PZ|]. intros s r' E'. apply TZ. eapply reached_in; [reflexivity| |constructor].
    apply in_rev. rewrite E'. now left.
  - destruct e; try (unfold opens in OP; cbn in OP, M; try discriminate; now rewrite M in OP).
    cbn [target]. cbn in P, T. destruct e; try exact Logic.I. split; [exact P|]. intros s r E. apply T. eapply reached_in; [reflexivity| |constructor].
    apply in_rev. rewrite E. now left.
Qed.
Lemma set_attributes_same e a : marker_of e <> None -> contents (item_set_attributes e a) = contents e /\
  opens (item_set_attributes e a) = opens e /\ target (item_set_attributes e a) = target e /\ takes_lines (item_set_attributes e a) /\
  marker_of (item_set_attributes e a) = marker_of e.
Proof. destruct e; cbn; intros H; try congruence; repeat split; discriminate. Qed.

(** one element of the run *)
Inductive run_case (e : val) : Prop :=
| rc_attrs a : e = VAttributes a -> run_case e
| rc_item : marker_of e <> None -> opens e = true -> run_case e
| rc_line : is_line e -> opens e = false -> run_case e
| rc_none off : e = ListContinuation off VNil -> run_case e
| rc_cont off x : e = ListContinuation off x -> x <> VNil -> opens e = true -> run_case e.
Lemma run_cases e : run_element e -> run_case e.
Proof.
  intros R. destruct e; try (apply rc_item; [exact R|]; cbn in R; unfold starts_item in R; cbn in R |- *; congruence).
  - eapply rc_attrs. reflexivity.
  - now apply rc_line.
  - now apply rc_line.
  - destruct (match e with VNil => true | _ => false end) eqn:Q.
    + destruct e; try discriminate. eapply rc_none. reflexivity.
    + eapply rc_cont; [reflexivity| |]; destruct e; try discriminate; reflexivity.
Qed.
Lemma loop_item attrs done e r : marker_of e <> None ->
  newListElements_loop attrs done (e :: r) = newListElements_loop None (match attrs with Some a => item_set_attributes e a | None => e end :: done) r.
Proof. destruct e; cbn [marker_of]; intros H; try congruence; reflexivity. Qed.
Lemma loop_line attrs last d e r : is_line e ->
  newListElements_loop attrs (last :: d) (e :: r) = (do last' <- addElement last e; newListElements_loop attrs (last' :: d) r).
Proof. destruct e; cbn; intros H; try (now destruct H); reflexivity. Qed.
Lemma loop_cont attrs done off x r : x <> VNil ->
  newListElements_loop attrs done (ListContinuation off x :: r) = newListElements_loop None (ListContinuation off x :: done) r.
Proof. intros N. destruct x; try reflexivity. now destruct N. Qed.

(** whether a line goes astray, given the element that is open *)
Fixpoint astray (last : val) (es : list val) : Prop :=
  match es with
  | [] => False
  | e :: r => if opens e then astray e r else (is_line e /\ ~ takes_lines last) \/ astray last r
  end.
Lemma astray_same l l' : (takes_lines l <-> takes_lines l') -> forall es, astray l es <-> astray l' es.
Proof. intros H. induction es as [|e es IH]; cbn; [tauto|]. destruct (opens e); [tauto|]. rewrite IH, H. tauto. Qed.

Definition errmsg : string := "unable to attach element in a list".
Lemma loop_spec es : forall attrs last d, Forall run_element es -> Forall source_element es -> open_ok last -> opens last = true ->
  (astray last es -> newListElements_loop attrs (last :: d) es = Err errmsg) /\
  (~ astray last es -> exists out, newListElements_loop attrs (last :: d) es = Ok out /\
     flat_map contents out = flat_map contents (List.rev (last :: d)) ++ flat_map contents es /\
     (exists last' rest, out = List.rev d ++ last' :: rest /\ List.length rest = List.length (filter opens es) /\
        getAttributes last' = getAttributes last /\ marker_of last' = marker_of last) /\
     (Forall list_input (last :: d) -> Forall list_input out)).
Proof.
  induction es as [|e es IH]; intros attrs last d R S O OP.
  - cbn [astray newListElements_loop flat_map filter List.length]. split; [tauto|]. intros _. eexists. split; [reflexivity|].
    rewrite app_nil_r. split; [reflexivity|]. split; [exists last, []; repeat split|].
    intros F. apply Forall_rev. exact F.
  - inversion R as [|? ? R1 R2]; subst. inversion S as [|? ? S1 S2]; subst. cbn [astray flat_map filter].
    assert (OPENED : forall e' attrs', opens e' = true -> open_ok e' -> contents e' = contents e -> opens e = true ->
      list_input e' -> (takes_lines e' <-> takes_lines e) ->
      (astray e es -> newListElements_loop attrs' (e' :: last :: d) es = Err errmsg) /\
      (~ astray e es -> exists out, newListElements_loop attrs' (e' :: last :: d) es = Ok out /\
        flat_map contents out = flat_map contents (List.rev (last :: d)) ++ contents e ++ flat_map contents es /\
        (exists last' rest, out = List.rev d ++ last' :: rest /\ List.length rest = List.length (if opens e then e :: filter opens es else filter opens es) /\
          getAttributes last' = getAttributes last /\ marker_of last' = marker_of last) /\
        (Forall list_input (last :: d) -> Forall list_input out))).
    { intros e' attrs' OE' OO C OE LI TK. destruct (IH attrs' e' (last :: d) R2 S2 OO OE') as [A B].
      rewrite (astray_same e' e TK es) in A, B. split; [exact A|].
      intros N. destruct (B N) as (out & E1 & E2 & (l' & rest & E3 & E4 & E5 & E6) & E7). exists out. split; [exact E1|].
      split; [rewrite E2; cbn [List.rev]; rewrite !flat_map_app; cbn [flat_map]; rewrite !app_nil_r, C, <- !app_assoc; reflexivity|].
      split; [|intros F; apply E7; constructor; [exact LI|exact F]].
      exists last, (l' :: rest). cbn [List.rev] in E3. rewrite <- app_assoc in E3. split; [exact E3|]. rewrite OE. cbn [List.length].
      split; [now rewrite E4|]. split; reflexivity. }
    destruct (run_cases e R1) as [a ->|I OE|L OE|off ->|off x -> N OE].
    + (* attributes *) cbn [opens marker_of is_line newListElements_loop contents app].
      destruct (IH (Some (aaddall (match attrs with Some b => b | None => [] end) a)) last d R2 S2 O OP) as [A B]. split.
      * intros [[[] _]|H]. now apply A.
      * intros N. apply B. tauto.
    + (* item *) rewrite loop_item by exact I. rewrite OE.
      destruct (set_attributes_same e (match attrs with Some a => a | None => [] end) I) as (C1 & C2 & C3 & C4 & C5).
      assert (SO := source_open e OE S1).
      assert (TE : takes_lines e) by (destruct e; cbn in I |- *; unfold starts_item; cbn; congruence).
      assert (LIe : forall w, marker_of w <> None -> list_input w) by (intros w; destruct w; cbn; intros W; try exact Logic.I; congruence).
      destruct attrs as [a|].
      * rewrite OE in OPENED. apply OPENED; [now rewrite C2|unfold open_ok; now rewrite C3|exact C1|reflexivity|apply LIe; now rewrite C5|tauto].
      * rewrite OE in OPENED. apply OPENED; [exact OE|exact SO|reflexivity|reflexivity|now apply LIe|tauto].
    + (* line *) rewrite loop_line by exact L. rewrite OE.
      assert (T : no_terminator e) by (destruct S1 as [_ T]; destruct e; try (now destruct L); exact T).
      destruct (takes_or last) as [TL|TL].
      * destruct (addElement_ok last e O L T TL) as (l' & E1 & E2 & E3 & E4 & E5 & E6 & E7). rewrite E1. cbn [bind].
        destruct (IH attrs l' d R2 S2 E3 (eq_trans E5 OP)) as [A B]. rewrite (astray_same l' last) in A, B by tauto. split.
        { intros [[_ H]|H]; [tauto|now apply A]. }
        { intros N. destruct B as (out & F1 & F2 & (l2 & rest & F3 & F4 & F5 & F6) & F7); [tauto|]. exists out. split; [exact F1|].
          split; [rewrite F2; cbn [List.rev]; rewrite !flat_map_app; cbn [flat_map]; rewrite !app_nil_r, E2, <- !app_assoc; reflexivity|].
          split; [exists l2, rest; repeat split; congruence|]. intros F. apply F7. inversion F as [|? ? FI FD]; subst. constructor; [|exact FD].
          destruct last; cbn in FI; try (now destruct FI); cbn in E7; try (destruct l'; cbn in E7; try discriminate; exact Logic.I).
          cbn [addElement] in E1. destruct last; try discriminate. destruct (paragraph_add attrs0 elements e) eqn:PA; try discriminate. cbn in E1. injection E1 as <-.
          cbn. unfold paragraph_add in PA. destruct (List.rev elements) as [|z q]; [discriminate|]. destruct z; injection PA as <-; exact Logic.I. }
      * rewrite (addElement_err last e L OP TL). cbn [bind]. split; [reflexivity|]. intros N. destruct N. left. auto.
    + (* empty continuation *) cbn [opens newListElements_loop contents app is_line].
      destruct (IH None last d R2 S2 O OP) as [A B]. split; [intros [[[] _]|H]; auto|]. intros N. apply B. tauto.
    + rewrite loop_cont by exact N. rewrite OE. rewrite OE in OPENED. apply OPENED; [exact OE|now apply source_open|reflexivity|reflexivity|exact R1|tauto].
Qed.

(** astray lines, as the specification says it *)
Lemma astray_iff es : forall last, opens last = true -> (astray last es <-> stray_line (last :: es)).
Proof.
  induction es as [|e es IH]; intros last OP; cbn [astray].
  - split; [intros []|]. intros (pre & e & post & v & E & L & (a & b & E2 & OV & NB) & T). destruct pre as [|z pre].
    + destruct a; discriminate.
    + destruct pre; discriminate.
  - assert (SPLIT : stray_line (last :: e :: es) <-> (is_line e /\ ~ takes_lines last) \/ (if opens e then stray_line (e :: es) else stray_line (last :: es))).
    { split.
      - intros (pre & x & post & v & E & L & (a & b & E2 & OV & NB) & T). destruct pre as [|z pre]; [destruct a; discriminate|].
        cbn in E. injection E as E0 E. subst z. destruct pre as [|z pre].
        + cbn in E. injection E as -> ->. destruct a as [|? a]; cbn in E2; [|destruct a; discriminate]. injection E2 as <- <-. left. auto.
        + cbn in E. injection E as E0 E. subst z. right. destruct (opens e) eqn:OE.
          * destruct a as [|z a]; cbn in E2; injection E2 as <- E2.
            { subst b. rewrite (NB e) in OE by now left. discriminate. }
            exists (e :: pre), x, post, v. split; [cbn; now rewrite E|]. split; [exact L|]. split; [|exact T]. exists a, b. auto.
          * destruct a as [|z a]; cbn in E2; injection E2 as <- E2.
            { exists (last :: pre), x, post, last. split; [cbn; now rewrite E|]. split; [exact L|]. split; [|exact T]. exists [], pre. repeat split; auto.
              intros w I. apply NB. rewrite <- E2. now right. }
            destruct a as [|z2 a]; cbn in E2; injection E2 as <- E2; [congruence|].
            exists (last :: pre), x, post, v. split; [cbn; now rewrite E|]. split; [exact L|]. split; [|exact T]. exists (last :: a), b. rewrite E2. auto.
      - intros [[L T]|H].
        + exists [last], e, es, last. repeat split; auto. exists [], []. repeat split; auto. intros w [].
        + destruct (opens e) eqn:OE.
          * destruct H as (pre & x & post & v & E & L & (a & b & E2 & OV & NB) & T).
            exists (last :: pre), x, post, v. split; [cbn; now rewrite E|]. split; [exact L|]. split; [|exact T]. exists (last :: a), b. rewrite E2. auto.
          * destruct H as (pre & x & post & v & E & L & (a & b & E2 & OV & NB) & T). destruct pre as [|z pre]; [destruct a; discriminate|].
            cbn in E. injection E as E0 E. subst z.
            exists (last :: e :: pre), x, post, v. split; [cbn; now rewrite E|]. split; [exact L|]. split; [|exact T].
            destruct a as [|z a]; cbn in E2; injection E2 as <- E2.
            { exists [], (e :: b). rewrite E2. repeat split; auto. intros w [<-|I]; auto. }
            { exists (last :: e :: a), b. rewrite E2. auto. } }
    rewrite SPLIT. destruct (opens e) eqn:OE.
    + rewrite (IH e OE). split; [tauto|]. intros [[L _]|H]; [|exact H]. destruct e; cbn in L; try (now destruct L); discriminate.
    + rewrite (IH last OP). tauto.
Qed.

(** C56.  For every list as the grammar finds it (a first item, then anything): the lines are gathered, or fail, exactly as follows. *)
Theorem C56_outcome : forall first es,
  starts_item first -> source_element first -> Forall run_element es -> Forall source_element es ->
  ((exists out, newListElements (first :: es) = Ok out) <-> ~ stray_line (first :: es)) /\
  (stray_line (first :: es) -> newListElements (first :: es) = Err "unable to attach element in a list").
Proof.
  intros f es I S R SE. assert (OP : opens f = true) by (unfold starts_item in I; destruct f; cbn in I |- *; congruence).
  unfold newListElements. rewrite loop_item by exact I. rewrite <- (astray_iff es f OP).
  destruct (loop_spec es None f [] R SE (source_open f OP S) OP) as [A B]. split; [|exact A]. split.
  - intros (out & E) H. rewrite (A H) in E. discriminate.
  - intros N. destruct (B N) as (out & E & _). eauto.
Qed.
(** every item, every line of text, every comment and every attached block is kept, once and in order; the result is a run for the
    arrangement of lists (C24) *)
Theorem C56_kept : forall first es out,
  starts_item first -> source_element first -> Forall run_element es -> Forall source_element es ->
  newListElements (first :: es) = Ok out ->
  flat_map contents out = flat_map contents (first :: es) /\ Forall list_input out.
Proof.
  intros f es out I S R SE H. assert (OP : opens f = true) by (unfold starts_item in I; destruct f; cbn in I |- *; congruence).
  unfold newListElements in H. rewrite loop_item in H by exact I.
  destruct (loop_spec es None f [] R SE (source_open f OP S) OP) as [A B].
  assert (N : ~ astray f es) by (intros C; rewrite (A C) in H; discriminate).
  destruct (B N) as (out' & E1 & E2 & _ & E3). rewrite H in E1. injection E1 as <-. cbn [List.rev app flat_map] in *. rewrite app_nil_r in E2.
  split; [exact E2|]. apply E3. constructor; [|constructor]. unfold starts_item in I. destruct f; cbn in I |- *; try exact Logic.I; congruence.
Qed.

(** what is gathered first stays first *)
Lemma loop_prefix es : forall attrs l d out, newListElements_loop attrs (l :: d) es = Ok out ->
  exists l' rest, out = List.rev d ++ l' :: rest.
Proof.
  induction es as [|e es IH]; intros attrs l d out H.
  - cbn in H. injection H as <-. exists l, []. reflexivity.
  - assert (PUSH : forall at' e', newListElements_loop at' (e' :: l :: d) es = Ok out -> exists l' rest, out = List.rev d ++ l' :: rest).
    { intros at' e' H'. destruct (IH _ _ _ _ H') as (l' & rest & E). cbn [List.rev] in E. rewrite <- app_assoc in E. eauto. }
    destruct e; cbn [newListElements_loop] in H; eauto;
      try (destruct (addElement l _) as [l2|?|?] eqn:A; try discriminate; cbn [bind] in H; now apply IH in H).
    destruct e; cbn [newListElements_loop] in H; eauto.
Qed.
(** an element to which no more lines are added stays as it is *)
Lemma loop_closed es : forall attrs l d out, line_free es -> newListElements_loop attrs (l :: d) es = Ok out ->
  exists rest, out = List.rev d ++ l :: rest.
Proof.
  induction es as [|e es IH]; intros attrs l d out C H.
  - cbn in H. injection H as <-. exists []. reflexivity.
  - assert (NL : ~ is_line e).
    { intros L. destruct (C [] e es eq_refl L) as (w & [] & _). }
    assert (C' : opens e = false -> line_free es).
    { intros OE pre x r E L. destruct (C (e :: pre) x r) as (w & [<-|I] & OW); [cbn; now rewrite E|exact L|congruence|eauto]. }
    assert (PUSH : forall at' e', newListElements_loop at' (e' :: l :: d) es = Ok out -> exists rest, out = List.rev d ++ l :: rest).
    { intros at' e' H'. destruct (loop_prefix _ _ _ _ _ H') as (l' & rest & E). cbn [List.rev] in E. rewrite <- app_assoc in E. eauto. }
    destruct e; cbn [newListElements_loop] in H; eauto; try (destruct NL; exact Logic.I).
    destruct e; cbn [newListElements_loop] in H; eauto.
Qed.
(** the lines written before the element [e] are gathered before it *)
Lemma loop_split pre : forall attrs l d post out, Forall run_element pre -> newListElements_loop attrs (l :: d) (pre ++ post) = Ok out ->
  exists attrs' l' d', newListElements_loop attrs' (l' :: d') post = Ok out /\
    List.length d' = (List.length d + List.length (filter opens pre))%nat /\
    ((attrs = None \/ exists w r, pre = w :: r /\ (starts_item w \/ exists y, w = VAttributes y)) ->
     (forall a x b, pre = a ++ VAttributes x :: b -> exists w b', b = w :: b' /\ (starts_item w \/ exists y, w = VAttributes y)) ->
     attrs' = None).
Proof.
  induction pre as [|e pre IH]; intros attrs l d post out R H.
  - exists attrs, l, d. split; [exact H|]. split; [cbn; lia|]. intros [A|(w & r & A & _)] _; [exact A|discriminate].
  - inversion R as [|? ? R1 R2]; subst. cbn [app] in H. cbn [filter].
    destruct (run_cases e R1) as [a ->|I OE|L OE|off ->|off x -> N OE].
    + cbn [newListElements_loop] in H. cbn [opens marker_of].
      destruct (IH _ _ _ _ _ R2 H) as (a' & l' & d' & E1 & E2 & E3). exists a', l', d'. split; [exact E1|]. split; [exact E2|].
      intros _ G. destruct (G [] a pre eq_refl) as (w & b' & -> & W). apply E3; [right; eauto|]. intros a0 x b E. apply (G (VAttributes a :: a0) x b). cbn. now rewrite E.
    + rewrite loop_item in H by exact I. rewrite OE. destruct (IH _ _ _ _ _ R2 H) as (a' & l' & d' & E1 & E2 & E3). exists a', l', d'. split; [exact E1|].
      split; [rewrite E2; cbn [List.length]; lia|]. intros _ G. apply E3; [now left|]. intros a0 x b E. apply (G (e :: a0) x b). cbn. now rewrite E.
    + rewrite loop_line in H by exact L. rewrite OE. destruct (addElement l e) as [l2|?|?]; try discriminate. cbn [bind] in H.
      destruct (IH _ _ _ _ _ R2 H) as (a' & l' & d' & E1 & E2 & E3). exists a', l', d'. split; [exact E1|]. split; [exact E2|].
      intros A G. apply E3.
      * destruct A as [A|(w & r & A & W)]; [now left|]. injection A as <- <-. destruct W as [W|(y & ->)]; [|destruct L].
        destruct e; cbn in L; try (now destruct L); now destruct W.
      * intros a0 x b E. apply (G (e :: a0) x b). cbn. now rewrite E.
    + cbn [newListElements_loop] in H. cbn [opens]. destruct (IH _ _ _ _ _ R2 H) as (a' & l' & d' & E1 & E2 & E3). exists a', l', d'. split; [exact E1|]. split; [exact E2|].
      intros _ G. apply E3; [now left|]. intros a0 y b E. apply (G (ListContinuation off VNil :: a0) y b). cbn. now rewrite E.
    + rewrite loop_cont in H by exact N. rewrite OE. destruct (IH _ _ _ _ _ R2 H) as (a' & l' & d' & E1 & E2 & E3). exists a', l', d'. split; [exact E1|].
      split; [rewrite E2; cbn [List.length]; lia|]. intros _ G. apply E3; [now left|]. intros a0 y b E. apply (G (ListContinuation off x :: a0) y b). cbn. now rewrite E.
Qed.


(** lines of text *)
Lemma paragraph_line a ps s t : paragraph_add a (ps ++ [RawLine s]) (RawLine t) = Ok (Paragraph a ((ps ++ [RawLine (s ++ LF)%string]) ++ [RawLine t])).
Proof. unfold paragraph_add. rewrite rev_app_distr. cbn [List.rev app]. rewrite rev_involutive, <- app_assoc. reflexivity. Qed.
Lemma set_set e x y : set_elements (set_elements e x) y = set_elements e y.
Proof. destruct e; reflexivity. Qed.
Lemma set_same e x : getElements e = Some x -> marker_of e <> None -> set_elements e x = e.
Proof. destruct e; cbn; intros [= ->] H; try reflexivity; now destruct H. Qed.
Lemma item_lines ls : forall attrs e d pre a ps s post, starts_item e -> getElements e = Some (pre ++ [Paragraph a (ps ++ [RawLine s])]) ->
  newListElements_loop attrs (e :: d) (List.map RawLine ls ++ post) =
  newListElements_loop attrs (set_elements e (pre ++ [Paragraph a (ps ++ text_lines (s :: ls))]) :: d) post.
Proof.
  induction ls as [|t ls IH]; intros attrs e d pre a ps s post I G.
  - cbn [List.map app text_lines]. now rewrite (set_same e _ G I).
  - cbn [List.map app]. rewrite loop_line by exact Logic.I.
    assert (A : addElement e (RawLine t) = Ok (set_elements e (pre ++ [Paragraph a ((ps ++ [RawLine (s ++ LF)%string]) ++ [RawLine t])]))).
    { transitivity (addToListElement e (RawLine t)); [destruct e; try reflexivity; now destruct I|].
      cbn [addToListElement]. rewrite G, rev_app_distr. cbn [List.rev app]. rewrite paragraph_line. cbn [bind]. now rewrite rev_involutive. }
    rewrite A. cbn [bind].
    rewrite (IH attrs _ d pre a (ps ++ [RawLine (s ++ LF)%string]) t post).
    + rewrite set_set, <- app_assoc. reflexivity.
    + unfold starts_item. rewrite marker_set. exact I.
    + exact (get_set _ _ _ G).
Qed.
Lemma attached_lines ls : forall attrs off d a ps s post,
  newListElements_loop attrs (ListContinuation off (Paragraph a (ps ++ [RawLine s])) :: d) (List.map RawLine ls ++ post) =
  newListElements_loop attrs (ListContinuation off (Paragraph a (ps ++ text_lines (s :: ls))) :: d) post.
Proof.
  induction ls as [|t ls IH]; intros attrs off d a ps s post; [reflexivity|].
  cbn [List.map app]. rewrite loop_line by exact Logic.I. cbn [addElement]. rewrite paragraph_line. cbn [bind].
  rewrite IH, <- app_assoc. reflexivity.
Qed.

(** the text of an item: the line of its marker and the lines that follow it are one paragraph, a line each; it is the item at the same
    place in the result, and keeps its own kind and its other elements *)
Theorem C56_item_text : forall first before e a s ls post out,
  starts_item first -> Forall run_element before -> starts_item e -> getElements e = Some [Paragraph a [RawLine s]] -> line_free post ->
  newListElements (first :: before ++ e :: List.map RawLine ls ++ post) = Ok out ->
  exists out1 e' out2, out = out1 ++ e' :: out2 /\ List.length out1 = S (List.length (filter opens before)) /\
    marker_of e' = marker_of e /\ getElements e' = Some [Paragraph a (text_lines (s :: ls))].
Proof.
  intros f before e a s ls post out F R I G LF H. unfold newListElements in H. rewrite loop_item in H by exact F.
  destruct (loop_split before None f [] _ out R H) as (at' & l' & d' & H' & LEN & _).
  rewrite loop_item in H' by exact I.
  set (e1 := match at' with Some a0 => item_set_attributes e a0 | None => e end) in *.
  assert (I1 : marker_of e1 = marker_of e /\ getElements e1 = getElements e).
  { unfold e1. destruct at'; [|auto]. destruct e; try (now destruct I); split; reflexivity. }
  destruct I1 as [M1 G1].
  rewrite (item_lines ls None e1 (l' :: d') [] a [] s post) in H';
    [|unfold starts_item; now rewrite M1|rewrite G1; exact G].
  destruct (loop_closed post _ _ _ _ LF H') as (rest & ->).
  exists (List.rev (l' :: d')), (set_elements e1 [Paragraph a (text_lines (s :: ls))]), rest. split; [reflexivity|].
  split; [rewrite rev_length; cbn [List.length]; rewrite LEN; reflexivity|]. split; [now rewrite marker_set|].
  eapply get_set. rewrite G1. exact G.
Qed.
(** the same for the first item, and for an attached paragraph *)
Theorem C56_first_item_text : forall e a s ls post out,
  starts_item e -> getElements e = Some [Paragraph a [RawLine s]] -> line_free post ->
  newListElements (e :: List.map RawLine ls ++ post) = Ok out ->
  exists e' out2, out = e' :: out2 /\ marker_of e' = marker_of e /\ getAttributes e' = getAttributes e /\
    getElements e' = Some [Paragraph a (text_lines (s :: ls))].
Proof.
  intros e a s ls post out I G LF H. unfold newListElements in H. rewrite loop_item in H by exact I.
  rewrite (item_lines ls None e [] [] a [] s post) in H by (exact I || exact G).
  destruct (loop_closed post _ _ _ _ LF H) as (rest & ->). exists (set_elements e [Paragraph a (text_lines (s :: ls))]), rest.
  split; [reflexivity|]. split; [now rewrite marker_set|]. split; [destruct e; reflexivity|]. eapply get_set. exact G.
Qed.
Theorem C56_attached_text : forall first before off a s ls post out,
  starts_item first -> Forall run_element before -> line_free post ->
  newListElements (first :: before ++ ListContinuation off (Paragraph a [RawLine s]) :: List.map RawLine ls ++ post) = Ok out ->
  exists out1 out2, out = out1 ++ ListContinuation off (Paragraph a (text_lines (s :: ls))) :: out2 /\
    List.length out1 = S (List.length (filter opens before)).
Proof.
  intros f before off a s ls post out F R LF H. unfold newListElements in H. rewrite loop_item in H by exact F.
  destruct (loop_split before None f [] _ out R H) as (at' & l' & d' & H' & LEN & _).
  rewrite loop_cont in H' by discriminate.
  assert (AT := attached_lines ls None off (l' :: d') a [] s post). cbn [app] in AT. rewrite AT in H'.
  destruct (loop_closed post _ _ _ _ LF H') as (rest & ->).
  exists (List.rev (l' :: d')), rest. split; [reflexivity|]. rewrite rev_length; cbn [List.length]; now rewrite LEN.
Qed.

(** block attributes: they go to the item directly after them *)
Lemma pending_attributes l : forall attrs last d post,
  newListElements_loop attrs (last :: d) (List.map VAttributes l ++ post) =
  newListElements_loop (match l with [] => attrs | _ => Some (fold_left aaddall l (match attrs with Some b => b | None => [] end)) end) (last :: d) post.
Proof.
  induction l as [|a l IH]; intros attrs last d post; [reflexivity|]. cbn [List.map app newListElements_loop]. rewrite IH.
  cbn [fold_left]. destruct l; reflexivity.
Qed.
Theorem C56_attributes : forall first before l e post out,
  starts_item first -> Forall run_element before -> attributes_before_items before -> Forall run_element post ->
  starts_item e -> Forall source_element post -> source_element e ->
  newListElements (first :: before ++ List.map VAttributes l ++ e :: post) = Ok out ->
  exists out1 e' out2, out = out1 ++ e' :: out2 /\ List.length out1 = S (List.length (filter opens before)) /\
    marker_of e' = marker_of e /\ getAttributes e' = attributes_from l e.
Proof.
  intros f before l e post out F R AB RP I SP SE H. unfold newListElements in H. rewrite loop_item in H by exact F.
  destruct (loop_split before None f [] _ out R H) as (at' & l' & d' & H' & LEN & NONE).
  rewrite NONE in H' by auto. rewrite pending_attributes in H'. rewrite loop_item in H' by exact I.
  set (e1 := match _ with Some a0 => item_set_attributes e a0 | None => e end) in H'.
  assert (OPE : opens e = true) by (unfold starts_item in I; destruct e; cbn in I |- *; congruence).
  assert (E1 : marker_of e1 = marker_of e /\ getAttributes e1 = attributes_from l e /\ opens e1 = true /\ open_ok e1).
  { assert (SO := source_open e OPE SE). unfold e1. destruct l as [|x l].
    - repeat split; auto.
    - destruct (set_attributes_same e (fold_left aaddall (x :: l) []) I) as (C1 & C2 & C3 & C4 & C5).
      split; [exact C5|]. split; [|split; [congruence|unfold open_ok; now rewrite C3]].
      destruct e; try (now destruct I); reflexivity. }
  destruct E1 as (M1 & A1 & O1 & OK1).
  destruct (loop_spec post None e1 (l' :: d') RP SP OK1 O1) as [ST NS].
  assert (N : ~ astray e1 post) by (intros C; rewrite (ST C) in H'; discriminate).
  destruct (NS N) as (out' & Q1 & _ & (e2 & rest & Q2 & _ & Q3 & Q4) & _). rewrite H' in Q1. injection Q1 as <-.
  exists (List.rev (l' :: d')), e2, rest. split; [exact Q2|]. split; [rewrite rev_length; cbn [List.length]; now rewrite LEN|].
  split; [congruence|]. congruence.
Qed.

(** Refuted: "a line of text, or a comment, can follow an attached block": the whole fragment fails, whatever the block and the line. *)
Theorem C56_line_after_block_refuted : forall first off b e es,
  starts_item first -> source_element first -> Forall run_element es -> Forall source_element es ->
  is_line e -> b <> VNil -> (forall a ps, b <> Paragraph a ps) -> (forall s, b <> RawLine s) -> own_paragraph b -> no_terminator b -> no_terminator e ->
  newListElements (first :: ListContinuation off b :: e :: es) = Err "unable to attach element in a list".
Proof.
  intros f off b e es I S R SE L N NP NR OW NT NE.
  apply C56_outcome; auto.
  - constructor; [destruct b; cbn; auto; exact (NR content eq_refl)|]. constructor; [|exact R]. destruct e; cbn in L |- *; auto; now destruct L.
  - constructor; [split; [exact OW|exact NT]|]. constructor; [|exact SE]. split; destruct e; cbn in L |- *; try (now destruct L); auto; exact NE.
  - exists [f; ListContinuation off b], e, es, (ListContinuation off b). split; [reflexivity|]. split; [exact L|].
    split; [|destruct b; cbn; auto; intros _; eapply NP; reflexivity].
    exists [f], []. split; [reflexivity|]. split; [destruct b; try reflexivity; now destruct N|intros w []].
Qed.
(** Refuted: "a comment does not change the text of an item": it splits its paragraph in two, for every text around it. *)
Theorem C56_comment_splits_refuted : forall b c a s t k,
  newListElements [UnorderedListElement b c [] [Paragraph a [RawLine s]]; SinglelineComment k; RawLine t] =
  Ok [UnorderedListElement b c [] [Paragraph a [RawLine s]; SinglelineComment k; Paragraph [] [RawLine t]]].
Proof. reflexivity. Qed.

(** Not vacuous: [* a], [b], [[square]], [* c], [+], [d], [e]. *)
Theorem C56_nonvacuous : exists out,
  newListElements [UnorderedListElement "1asterisk" "" [] [Paragraph [] [RawLine "a"]]; RawLine "b"; VAttributes [(AttrPositional1, VStr "square")];
    UnorderedListElement "1asterisk" "" [] [Paragraph [] [RawLine "c"]]; ListContinuation 0 (Paragraph [] [RawLine "d"]); RawLine "e"] = Ok out /\
  out = [UnorderedListElement "1asterisk" "" [] [Paragraph [] [RawLine ("a" ++ LF); RawLine "b"]];
         UnorderedListElement "1asterisk" "" [("style", VStr "square")] [Paragraph [] [RawLine "c"]];
         ListContinuation 0 (Paragraph [] [RawLine ("d" ++ LF); RawLine "e"])].
Proof. eexists. split; reflexivity. Qed.

Print Assumptions C56_outcome.
Print Assumptions C56_kept.
Print Assumptions C56_item_text.
Print Assumptions C56_first_item_text.
Print Assumptions C56_attached_text.
Print Assumptions C56_attributes.
Print Assumptions C56_line_after_block_refuted.
Print Assumptions C56_comment_splits_refuted.
