(** C17, C18: what conversions do to the attributes of the configuration; C46: numbers of captions. *)
From Verif Require Import GoBase GoLemmas Types Attrs AttrLemmas Aggregate Toc TocRender Escape Merge Elements Ids Locations Indent Footnotes
  Templates Tmpl SectNum RenderAttrs Authors AuthorsSpec Context Render RenderKit RenderStateSpec RenderState.

(** an environment for the examples: HTML5, no cross references *)
Definition env0 : renv :=
  mkRenv false (fun s => s) (fun _ => "") (fun _ => Ok [mkRcol "<" "<" "100" "d"]) (fun _ _ => "a.png") (fun _ => Ok "a")
         (fun _ s => s) (fun _ => None) (fun _ => "") (fun _ _ _ s => Ok s) [] [] false.
Definition conf0 : rconf := mkRconf false "" [].
Definition doc0 (els : list val) : rdoc := mkRdoc els None [].
Definition par (s : string) : val := Paragraph [] [StringElement s].

(** ** C17 *)
(** A conversion changes no attribute of the configuration except the four captions, the attributes of authors and revision
    if the header has some, and the attributes that something in the document declares or resets. *)
Theorem C17_changes_only_declared : forall E depth c d attrs out title attrs',
  render E depth c d (Some attrs) = Ok (out, title, attrs') ->
  forall k, ~ In k label_names ->
    (author_name k -> forall x n, somewhere E d attrs x -> In n ["authors"; "author"; "email"] -> ~ declares x n) ->
    (revision_name k -> forall x, somewhere E d attrs x -> ~ declares x "revision") ->
    (forall x, somewhere E d attrs x -> ~ declares x k) ->
  mget attrs' k = mget attrs k.
Proof.
  intros E depth c d attrs out title attrs' H k N1 N2 N3 N4. eapply render_frame; eauto.
  intros [M|[[(x & n & S & I & D) A]|[[(x & S & D) A]|(x & S & D)]]].
  - contradiction.
  - exact (N2 A x n S I D).
  - exact (N3 A x S D).
  - exact (N4 x S D).
Qed.
Print Assumptions C17_changes_only_declared.
(** For a document that declares nothing, the attributes afterwards are the given ones with the four captions set, and a
    second conversion gives the same result. *)
Theorem C17_repeatable : forall E depth c d attrs out title attrs',
  (forall x k, somewhere E d attrs x -> ~ declares x k) ->
  render E depth c d (Some attrs) = Ok (out, title, attrs') ->
  (forall k, mget attrs' k = match mget [("figure-caption", VStr "Figure"); ("example-caption", VStr "Example"); ("table-caption", VStr "Table");
                                         ("version-label", VStr "version")] k with Some v => Some v | None => mget attrs k end) /\
  render E depth c d (Some attrs') = Ok (out, title, attrs').
Proof.
  intros E depth c d attrs out title attrs' N H. destruct (render_repeat _ _ _ _ _ _ _ _ N H) as [-> R]. split; [|exact R].
  intros k. unfold labels. cbn [mget]. rewrite !mget_mset.
  destruct (String.eqb_spec k "figure-caption") as [->|N1]; [reflexivity|].
  destruct (String.eqb_spec k "example-caption") as [->|N2]; [reflexivity|].
  destruct (String.eqb_spec k "table-caption") as [->|N3]; [reflexivity|].
  destruct (String.eqb_spec k "version-label") as [->|N4]; [reflexivity|].
  destruct (String.eqb_spec "version-label" k); [congruence|]. destruct (String.eqb_spec "table-caption" k); [congruence|].
  destruct (String.eqb_spec "example-caption" k); [congruence|]. destruct (String.eqb_spec "figure-caption" k); [congruence|]. reflexivity.
Qed.
Print Assumptions C17_repeatable.
(** a document meeting the hypotheses of [C17_repeatable] *)
Definition plain_doc : rdoc := doc0 [par "a"; DelimitedBlock "sidebar" [] [par "b"]].
Theorem C17_repeatable_instance :
  (forall x k, somewhere env0 plain_doc [("x", VStr "1")] x -> ~ declares x k) /\
  (exists out title attrs', render env0 9 conf0 plain_doc (Some [("x", VStr "1")]) = Ok (out, title, attrs')).
Proof.
  split.
  - intros x k (v & O & [I|[[]|[[id I]|I]]]) D; [|discriminate I|discriminate I].
    cbn in I. assert (G : forall w, occurs x w -> (match w with AttributeDeclaration _ _ | AttributeReset _ | FrontMatter _ => false | _ => true end = true) ->
      (forall c, In c (children w) -> occurs x c -> False) -> False).
    { intros w W T C. destruct W as [w|x c w Ic W]; [destruct w; try discriminate T; destruct D|]. exact (C c Ic W). }
    assert (GP : forall s, occurs x (par s) -> False).
    { intros s W. apply (G _ W eq_refl). cbn. intros c [<-|[]] W'. apply (G _ W' eq_refl). cbn. intros c' []. }
    destruct I as [<-|[<-|[]]]; [now apply (GP "a")|]. apply (G _ O eq_refl). cbn. intros c [<-|[]] W. now apply (GP "b").
  - eexists _, _, _. vm_compute. reflexivity.
Qed.

(** The property does not hold for all documents: rendering a document again with the same configuration may give something
    else, since what it declares was left in the configuration ... *)
Theorem C17_second_conversion_refuted : exists d attrs out1 title1 attrs1 out2 title2 attrs2,
  render env0 9 conf0 d (Some attrs) = Ok (out1, title1, attrs1) /\
  render env0 9 conf0 d (Some attrs1) = Ok (out2, title2, attrs2) /\ out1 <> out2.
Proof.
  exists (doc0 [Paragraph [] [Icon "tip" []]; AttributeDeclaration "icons" (VStr "font")]), [].
  do 6 eexists. split; [vm_compute; reflexivity|]. split; [vm_compute; reflexivity|]. discriminate.
Qed.
Print Assumptions C17_second_conversion_refuted.
(** ... and another document, parsed with this configuration, then cannot even declare the attribute *)
Theorem C17_leak_refuted : exists d out title attrs',
  render env0 9 conf0 d (Some []) = Ok (out, title, attrs') /\
  cget (cset (newContextAttributes []) "product" (VStr "B")) "product" = Some (VStr "B") /\
  cget (cset (newContextAttributes attrs') "product" (VStr "B")) "product" = Some (VStr "A").
Proof.
  exists (doc0 [AttributeDeclaration "product" (VStr "A"); par "x"]).
  do 3 eexists. split; [vm_compute; reflexivity|]. split; vm_compute; reflexivity.
Qed.
Print Assumptions C17_leak_refuted.

(** ** C18 *)
(** Attributes of the configuration keep their value when rendering begins, and while any part of the document is rendered,
    as long as the document neither declares nor resets them (nor gives authors or a revision that define them). *)
Theorem C18_attributes_honoured : forall E d attrs k,
  ~ In k label_names -> ~ author_name k -> ~ revision_name k -> (forall x, somewhere E d attrs x -> ~ declares x k) ->
  (forall a, renderAttrs (rd_elements d) (Some attrs) = Ok a -> mget a k = mget attrs k) /\
  (forall depth v st s st', somewhere E d attrs v -> (forall t, mget (r_attrs st) "toc-title" = Some t -> somewhere E d attrs t) ->
     renderElement E depth v st = Ok (s, st') -> mget (r_attrs st') k = mget (r_attrs st) k).
Proof.
  intros E d attrs k N1 N2 N3 N4. split.
  - intros a H. eapply start_frame; eauto. intros [M|[[(x & n & S & I & D) A]|[[(x & S & D) A]|(x & S & D)]]]; try contradiction. exact (N4 x S D).
  - intros depth v st s st' S T H. set (P := fun k' => exists x, somewhere E d attrs x /\ declares x k').
    assert (VS : forall w, somewhere E d attrs w -> V P w).
    { intros w (u & O & I) x X k' D. exists x. split; [|exact D]. exists u. split; [eapply occurs_trans; eauto|exact I]. }
    destruct (KF_element P E) with (depth := depth) (v := v) (st := st) (r := s) (st' := st') as [_ F]; auto.
    + intros id w I. apply VS. exists w. split; [apply occ_refl|]. right. right. left. now exists id.
    + intros t X. apply VS. now apply T.
    + apply F. intros (x & SX & D). exact (N4 x SX D).
Qed.
Print Assumptions C18_attributes_honoured.
(** The captions are not honoured: the caller's caption is replaced by the built-in one *)
Definition figure : val := ImageBlock (Location "" (VStr "a.png")) [("title", VStr "T")].
Theorem C18_captions_refuted :
  (forall attrs els a, (forall k, In k label_names -> forall x, In x els -> ~ declares x k) -> docHeader els = None ->
     renderAttrs els (Some attrs) = Ok a -> mget a "figure-caption" = Some (VStr "Figure") /\ mget a "table-caption" = Some (VStr "Table") /\
     mget a "example-caption" = Some (VStr "Example") /\ mget a "version-label" = Some (VStr "version")) /\
  (exists out title attrs', render env0 9 conf0 (doc0 [figure]) (Some [("figure-caption", VStr "Abbildung")]) = Ok (out, title, attrs') /\
     contains out "Abbildung" = false /\ contains out "Figure 1. T" = true).
Proof.
  split.
  - intros attrs els a N D H. unfold renderAttrs, newContextAttrs, expandHeader, headerDecls in H. rewrite D in H. cbn [bind] in H. injection H as <-.
    assert (L : forall k, In k label_names -> mget (leadingDecls els (labels attrs)) k = mget (labels attrs) k).
    { intros k K. apply leading_other. intros x. now apply N. }
    rewrite !L by (cbn; tauto). unfold labels. repeat split; repeat first [rewrite mget_mset_eq; reflexivity | rewrite mget_mset_neq by discriminate].
  - do 3 eexists. split; [vm_compute; reflexivity|]. split; vm_compute; reflexivity.
Qed.
Print Assumptions C18_captions_refuted.

(** ** C46 *)
(** In every conversion, the numbers given for captions of a kind are 1, 2, 3, ..., in the order in which they are given. *)
Theorem C46_consecutive : forall E depth c d a r st', 
  renderDocument E (renderElement E depth) c d (mkRst a [] false 0 []) = Ok (r, st') ->
  forall kind, exists n, rev (numbers kind (r_log st')) = map Z.of_nat (seq 1 n).
Proof.
  intros E depth c d a r st' H kind. apply (KC_document E depth c d) in H.
  - destruct H as [G _]. destruct (G kind) as (n & L & _). exists n. exact L.
  - intros name. exists 0. split; reflexivity.
Qed.
Print Assumptions C46_consecutive.

Lemma exec_nodes_app tl a : forall b e s, exec_nodes tl (a ++ b) e = Ok s ->
  exists s1 s2, exec_nodes tl a e = Ok s1 /\ exec_nodes tl b e = Ok s2 /\ s = (s1 ++ s2)%string.
Proof.
  induction a as [|n a IH]; intros b e s H; cbn [app exec_nodes] in *.
  - exists "", s. repeat split. exact H.
  - destruct (exec_node tl n e) as [t| |]; cbn [bind] in *; try discriminate.
    destruct (exec_nodes tl (a ++ b) e) as [u| |] eqn:X; cbn [bind] in H; try discriminate. injection H as <-.
    apply IH in X. destruct X as (s1 & s2 & X1 & X2 & ->). rewrite X1. exists (t ++ s1)%string, s2. cbn [bind]. repeat split; [exact X2|].
    now rewrite sapp_assoc.
Qed.
(** the output of a template contains that of each of its parts *)
Lemma exec_contains tl tmpl ns i n e s : tmpl <> "" -> parse tmpl = Some ns -> nth_error ns i = Some n -> execute tl tmpl e = Ok s ->
  exists a m b, exec_node tl n e = Ok m /\ s = (a ++ m ++ b)%string.
Proof.
  intros NE P N H. unfold execute in H. destruct (String.eqb_spec tmpl ""); [contradiction|]. rewrite P in H.
  apply nth_error_split in N. destruct N as (l1 & l2 & -> & _). apply exec_nodes_app in H. destruct H as (s1 & s2 & _ & H & ->).
  cbn [exec_nodes] in H. destruct (exec_node tl n e) as [m| |]; cbn [bind] in H; try discriminate.
  destruct (exec_nodes tl l2 e) as [u| |]; cbn [bind] in H; try discriminate. injection H as <-.
  exists s1, m, u. split; reflexivity.
Qed.

(** the rendering of a caption when the element has none of its own: the label of the kind, and its next number *)
Lemma caption_next attrs key counter placeholder lbl st : good st -> mget attrs "caption" = None ->
  mget (r_attrs st) key = Some (VStr lbl) ->
  In (lbl, placeholder) [("Figure", "{counter:figure-number}"); ("Table", "{counter:table-number}"); ("Example", "{counter:example-number}")] ->
  let n := Z.of_nat (S (List.length (numbers counter (r_log st)))) in
  exists st', renderCaption attrs key counter placeholder st = Ok ((lbl ++ " " ++ itoa n ++ ". ", n)%string, st') /\
    good st' /\ r_attrs st' = r_attrs st /\ r_log st' = (counter, n) :: r_log st.
Proof.
  intros G C L I n. unfold renderCaption, bindM, getAttrs.
  assert (X : getAsString attrs "caption" = None) by (unfold getAsString; now rewrite C). rewrite X.
  assert (Y : getAsString (r_attrs st) key = Some lbl) by (unfold getAsString; now rewrite L). rewrite Y.
  destruct (nextCounter counter st) as [[z st']| |] eqn:N; try discriminate N.
  destruct (next_good _ _ G _ _ N) as (G' & Z & LG). fold n in Z. subst z.
  exists st'. assert (A : r_attrs st' = r_attrs st) by (unfold nextCounter in N; injection N as _ <-; reflexivity).
  cbn [In] in I. destruct I as [I|[I|[I|[]]]]; injection I as <- <-.
  all: match goal with |- context [if contains ?c ?p then _ else _] => replace (contains c p) with true by (vm_compute; reflexivity) end.
  all: rewrite N; (split; [|auto]); unfold ret; repeat f_equal; vm_compute; reflexivity.
Qed.

Lemma template_caption E t f cap title st s st' : In t [TBlockImage; TTable; TExampleBlock] ->
  exec E t f st = Ok (s, st') -> mget f ".Caption" = Some (FS cap) -> mget f ".Title" = Some (FS title) -> title <> "" ->
  exists a b, s = (a ++ (cap ++ title) ++ b)%string /\ st' = st.
Proof.
  intros I H C T NT. unfold exec, lift in H. destruct (execute (e_toLower E) (template E t) f) as [o| |] eqn:X; try discriminate. injection H as <- <-.
  assert (G : exists ns i lit r q, parse (template E t) = Some ns /\ nth_error ns i = Some (NIf (CField ".Title") (NLit lit :: NField ".Caption" :: NField ".Title" :: r) q)
              /\ template E t <> "").
  { unfold template. cbn [In] in I. destruct I as [<-|[<-|[<-|[]]]]; destruct (e_xhtml E).
    1,2: eexists _, 16%nat, _, _, _; split; [vm_compute; reflexivity|]; split; [reflexivity|discriminate].
    1,2: eexists _, 13%nat, _, _, _; split; [vm_compute; reflexivity|]; split; [reflexivity|discriminate].
    all: eexists _, 5%nat, _, _, _; split; [vm_compute; reflexivity|]; split; [reflexivity|discriminate]. }
  destruct G as (ns & i & lit & r & q & P & N & NE).
  destruct (exec_contains _ _ _ _ _ _ _ NE P N X) as (a & m & b & M & ->).
  cbn [exec_node] in M. unfold eval, field in M. rewrite T in M. cbn [bind truth] in M.
  destruct (String.eqb_spec title ""); [contradiction|]. cbn [negb] in M.
  rewrite C in M. cbn [bind show] in M.
  match type of M with context [bind (?g r f) _] => destruct (g r f) as [w| |]; cbn [bind] in M; try discriminate end.
  injection M as <-. exists (a ++ lit)%string, (w ++ b)%string. split; [|reflexivity]. now rewrite !sapp_assoc.
Qed.

(** the numbers shown: a figure with a title gets the next number of figures ... *)
Theorem C46_figure : forall E depth loc attrs t st s st',
  good st -> mget (r_attrs st) "figure-caption" = Some (VStr "Figure") ->
  mget attrs "caption" = None -> mget attrs "title" = Some (VStr t) -> t <> "" ->
  renderElement E depth (ImageBlock loc attrs) st = Ok (s, st') ->
  let n := Z.of_nat (S (List.length (numbers "imageCounter" (r_log st)))) in
  (exists a b, s = (a ++ ("Figure " ++ itoa n ++ ". " ++ t) ++ b)%string) /\
  exists new, r_log st' = new ++ ("imageCounter", n) :: r_log st.
Proof.
  intros E depth loc attrs t st s st' G L C T NT H n. destruct depth as [|k]; [discriminate|].
  cbn [renderElement renderElementWith] in H. unfold renderImageBlock, bindM in H.
  unfold renderElementTitle in H. rewrite T in H. unfold ret in H at 1.
  destruct (String.eqb_spec t ""); [contradiction|].
  destruct (caption_next attrs "figure-caption" "imageCounter" "{counter:figure-number}" "Figure" st G C L (or_introl eq_refl)) as (st1 & R & G1 & A1 & L1).
  rewrite R in H. cbn [fst snd] in H. fold n in H, L1.
  assert (KR : KC (renderImageRoles (renderElement E k) attrs) (renderImageRoles (renderElement E k) attrs)).
  { apply (k_imageRoles (@KC) _ _ KC_closed). intros v x _ _. apply KC_element. }
  destruct (renderImageRoles (renderElement E k) attrs st1) as [[roles st2]| |] eqn:X; try discriminate.
  destruct (KR _ _ _ G1 X) as (G2 & new & L2). unfold getAttrs in H. unfold lift in H at 1.
  destruct (renderImageAlt E attrs (e_src E (r_attrs st2) loc)) as [alt| |]; try discriminate.
  apply (template_caption E TBlockImage _ ("Figure" ++ " " ++ itoa n ++ ". ") t) in H; [|now left|reflexivity|reflexivity|exact NT].
  destruct H as (a & b & -> & ->). split.
  - exists a, b. now rewrite !sapp_assoc.
  - exists new. now rewrite L2, L1.
Qed.
Print Assumptions C46_figure.

(** ... a table with a title gets the next number of tables ... *)
Theorem C46_table : forall E depth attrs header rows footer t st s st',
  good st -> mget (r_attrs st) "table-caption" = Some (VStr "Table") ->
  mget attrs "caption" = None -> mget attrs "title" = Some (VStr t) -> t <> "" ->
  renderElement E depth (Table attrs header rows footer) st = Ok (s, st') ->
  let n := Z.of_nat (S (List.length (numbers "tableCounter" (r_log st)))) in
  (exists a b, s = (a ++ ("Table " ++ itoa n ++ ". " ++ t) ++ b)%string) /\
  exists new, r_log st' = new ++ ("tableCounter", n) :: r_log st.
Proof.
  intros E depth attrs header rows footer t st s st' G L C T NT H n. destruct depth as [|k]; [discriminate|].
  cbn [renderElement renderElementWith] in H. unfold renderTable in H. unfold bindM in H.
  assert (HT : ahas attrs "title" = true) by (unfold ahas, mhas; now rewrite T). rewrite HT in H.
  destruct (caption_next attrs "table-caption" "tableCounter" "{counter:table-number}" "Table" st G C L) as (st1 & R & G1 & A1 & L1); [cbn; tauto|].
  rewrite R in H. cbn [fst snd] in H. fold n in H, L1. unfold lift in H at 1.
  destruct (e_columns E (Table attrs header rows footer)) as [cols| |]; try discriminate.
  assert (KE : forall t tc row, KC (renderEdgeRow E (renderElement E k) t tc row cols) (renderEdgeRow E (renderElement E k) t tc row cols)).
  { intros t1 tc row. apply (k_edgeRow E (@KC) _ _ KC_closed). intros x _. apply KC_element. }
  assert (KB : KC (renderRows E (renderElement E k) cols rows) (renderRows E (renderElement E k) cols rows)).
  { apply (k_rows E (@KC) _ _ KC_closed). intros v _ x _. apply KC_element. }
  assert (KR : KC (renderElementRoles (renderElement E k) attrs) (renderElementRoles (renderElement E k) attrs)).
  { apply (k_roles (@KC) _ _ KC_closed). intros v x _ _. apply KC_element. }
  destruct (renderEdgeRow E (renderElement E k) TTableHeader TTableHeaderCell header cols st1) as [[h st2]| |] eqn:X2; try discriminate.
  destruct (KE _ _ _ _ _ _ G1 X2) as (G2 & n2 & L2).
  destruct (renderEdgeRow E (renderElement E k) TTableFooter TTableFooterCell footer cols st2) as [[f st3]| |] eqn:X3; try discriminate.
  destruct (KE _ _ _ _ _ _ G2 X3) as (G3 & n3 & L3).
  destruct (renderRows E (renderElement E k) cols rows st3) as [[b st4]| |] eqn:X4; try discriminate.
  destruct (KB _ _ _ G3 X4) as (G4 & n4 & L4).
  destruct (exec E TTableBody [(".Content", FS b)] st4) as [[b' st5]| |] eqn:X5; try discriminate.
  assert (st5 = st4) as ->. { unfold exec, lift in X5. destruct (execute _ _ _); try discriminate. now injection X5 as _ <-. }
  destruct (renderElementRoles (renderElement E k) attrs st4) as [[roles st6]| |] eqn:X6; try discriminate.
  destruct (KR _ _ _ G4 X6) as (G6 & n6 & L6).
  unfold renderElementTitle in H. rewrite T in H. unfold ret in H at 1.
  apply (template_caption E TTable _ ("Table" ++ " " ++ itoa n ++ ". ") t) in H; [|cbn; tauto|reflexivity|reflexivity|exact NT].
  destruct H as (x & y & -> & ->). split.
  - exists x, y. now rewrite !sapp_assoc.
  - exists (n6 ++ n4 ++ n3 ++ n2). rewrite L6, L4, L3, L2, L1. now rewrite !app_assoc.
Qed.
Print Assumptions C46_table.

(** ... and an example block the next number of examples once its content is rendered *)
Theorem C46_example : forall E depth attrs es t st s st',
  good st -> mget attrs "style" = None -> mget attrs "caption" = None -> mget attrs "title" = Some (VStr t) -> t <> "" ->
  (forall st1 c, renderElements (renderElement E (pred depth)) es st = Ok (c, st1) -> 
     forall st2 r, renderElementRoles (renderElement E (pred depth)) attrs st1 = Ok (r, st2) -> mget (r_attrs st2) "example-caption" = Some (VStr "Example")) ->
  renderElement E depth (DelimitedBlock "example" attrs es) st = Ok (s, st') ->
  exists before, let n := Z.of_nat (S (List.length (numbers "exampleBlockCounter" (before ++ r_log st)))) in
  (exists a b, s = (a ++ ("Example " ++ itoa n ++ ". " ++ t) ++ b)%string) /\
  r_log st' = ("exampleBlockCounter", n) :: before ++ r_log st.
Proof.
  intros E depth attrs es t st s st' G S C T NT L H. destruct depth as [|k]; [discriminate|]. cbn [pred] in L.
  cbn [renderElement renderElementWith] in H. unfold renderDelimitedBlock in H.
  change (String.eqb "example" "example") with true in H. cbv iota in H.
  assert (HS : ahas attrs "style" = false) by (unfold ahas, mhas; now rewrite S). rewrite HS in H.
  unfold renderExampleBlock, bindM in H.
  destruct (renderElements (renderElement E k) es st) as [[c st1]| |] eqn:X1; try discriminate.
  pose proof (KC_elements E k es) as KE. destruct (KE _ _ _ G X1) as (G1 & n1 & L1).
  assert (KR : KC (renderElementRoles (renderElement E k) attrs) (renderElementRoles (renderElement E k) attrs)).
  { apply (k_roles (@KC) _ _ KC_closed). intros v x _ _. apply KC_element. }
  destruct (renderElementRoles (renderElement E k) attrs st1) as [[roles st2]| |] eqn:X2; try discriminate.
  destruct (KR _ _ _ G1 X2) as (G2 & n2 & L2).
  specialize (L st1 c eq_refl st2 roles X2).
  destruct (caption_next attrs "example-caption" "exampleBlockCounter" "{counter:example-number}" "Example" st2 G2 C L) as (st3 & R & G3 & A3 & L3); [cbn; tauto|].
  rewrite R in H. cbn [fst snd] in H. unfold renderElementTitle in H. rewrite T in H. unfold ret in H at 1.
  exists (n2 ++ n1). rewrite <- app_assoc, <- L1, <- L2.
  apply (template_caption E TExampleBlock _ ("Example" ++ " " ++ itoa (Z.of_nat (Datatypes.S (List.length (numbers "exampleBlockCounter" (r_log st2))))) ++ ". ") t) in H;
    [|cbn; tauto|reflexivity|reflexivity|exact NT].
  destruct H as (x & y & -> & ->). split.
  - exists x, y. now rewrite !sapp_assoc.
  - exact L3.
Qed.
Print Assumptions C46_example.

(** Not in document order for nested examples, and with gaps: an example without a title uses up a number *)
Definition example (title : option string) (es : list val) : val :=
  DelimitedBlock "example" (match title with Some t => [("title", VStr t)] | None => [] end) es.
Theorem C46_document_order_refuted :
  (exists out title attrs', render env0 9 conf0 (doc0 [example (Some "Outer") [example (Some "Inner") [par "x"]]]) (Some []) = Ok (out, title, attrs') /\
     contains out "Example 2. Outer" = true /\ contains out "Example 1. Inner" = true) /\
  (exists out title attrs', render env0 9 conf0 (doc0 [example None [par "x"]; example (Some "First") [par "x"]]) (Some []) = Ok (out, title, attrs') /\
     contains out "Example 2. First" = true /\ contains out "Example 1" = false).
Proof. split; do 3 eexists; (split; [vm_compute; reflexivity|]); split; vm_compute; reflexivity. Qed.
Print Assumptions C46_document_order_refuted.

Theorem C46_instance :
  good (mkRst [] [] false 0 []) /\
  (exists out title attrs', render env0 9 conf0 (doc0 [figure; par "x"; figure; Table [("title", VStr "U")] VNil [] VNil]) (Some []) = Ok (out, title, attrs') /\
     contains out "Figure 1. T" = true /\ contains out "Figure 2. T" = true /\ contains out "Table 1. U" = true).
Proof.
  split; [intros name; exists 0; split; reflexivity|]. do 3 eexists. split; [vm_compute; reflexivity|]. repeat split; vm_compute; reflexivity.
Qed.
