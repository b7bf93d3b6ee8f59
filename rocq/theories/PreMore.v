(** Proofs about inclusion: working directory, termination, plain documents. *)
From Coq Require Import Relations.
From Verif Require Import GoBase GoLemmas Types Attrs Context Cond Include Preprocess PreSpec PreLemmas InclLemmas.

(** the directory in which a run ends, whatever its outcome *)
Definition ends_in {A} (r : run A) (d : string) : Prop :=
  match r with
  | RDone _ d' | RErr _ d' | RPanic _ d' => d' = d
  | RTimeout => True
  end.

(** ** lines *)
Definition no_LF (s : string) : Prop := ~ In (chr 10) (list_ascii_of_string s).

Lemma split_char_app sep a b : ~ In sep (list_ascii_of_string a) ->
  split_char sep (a ++ String sep b)%string = a :: split_char sep b.
Proof.
  induction a as [|c a IH]; cbn; intros H.
  - now rewrite Ascii.eqb_refl.
  - destruct (Ascii.eqb_spec c sep) as [->|N]; [exfalso; apply H; auto|].
    rewrite IH by tauto. reflexivity.
Qed.
Lemma split_char_none sep a : ~ In sep (list_ascii_of_string a) -> split_char sep a = [a].
Proof.
  induction a as [|c a IH]; cbn; intros H; [reflexivity|].
  destruct (Ascii.eqb_spec c sep) as [->|N]; [exfalso; apply H; auto|].
  now rewrite IH by tauto.
Qed.
Lemma split_char_no_sep sep s x : In x (split_char sep s) -> ~ In sep (list_ascii_of_string x).
Proof.
  revert x. induction s as [|c s IH]; intros x.
  - intros [<-|[]]. cbn. tauto.
  - cbn. destruct (Ascii.eqb_spec c sep) as [->|N].
    + intros [<-|H]; [cbn; tauto|auto].
    + destruct (split_char sep s) as [|y ys] eqn:E.
      * intros [<-|[]]. cbn. intros [X|[]]. congruence.
      * intros [<-|H].
        -- cbn. intros [X|X]; [congruence|]. revert X. apply IH. now left.
        -- apply IH. now right.
Qed.
Lemma drop_last_empty_incl l x : In x (drop_last_empty l) -> In x l.
Proof.
  induction l as [|a [|b l] IH]; cbn [drop_last_empty]; [tauto| |].
  - destruct (String.eqb a ""); cbn; tauto.
  - intros [<-|H]; [now left|right; auto].
Qed.
Lemma raw_lines_no_LF s l : In l (raw_lines s) -> no_LF l.
Proof. intros H. apply drop_last_empty_incl in H. eapply split_char_no_sep; exact H. Qed.

Lemma drop_last_empty_snoc l x : drop_last_empty (l ++ [x]) = if String.eqb x "" then l else l ++ [x].
Proof.
  induction l as [|a l IH]; cbn [app drop_last_empty]; [destruct (String.eqb x ""); reflexivity|].
  destruct (l ++ [x]) eqn:E; [destruct l; discriminate|]. rewrite IH. destruct (String.eqb x ""); reflexivity.
Qed.
(** terminated lines *)
Definition terminated (ls : list string) : string := sconcat (map (fun l => l ++ LF)%string ls).
Lemma split_terminated ls : Forall no_LF ls -> forall tail,
  split_char (chr 10) (terminated ls ++ tail)%string = ls ++ split_char (chr 10) tail.
Proof.
  unfold terminated. induction 1 as [|l ls H HF IH]; intros tail; [reflexivity|].
  cbn [map sconcat fold_right app]. fold (sconcat (map (fun l => l ++ LF)%string ls)).
  rewrite !sapp_assoc. unfold LF at 1. cbn [append].
  rewrite split_char_app by exact H. now rewrite IH.
Qed.
Lemma raw_lines_terminated ls : Forall no_LF ls -> raw_lines (terminated ls) = ls.
Proof.
  intros H. unfold raw_lines. rewrite <- (sapp_nil_r (terminated ls)), split_terminated by exact H.
  cbn [split_char]. rewrite drop_last_empty_snoc. reflexivity.
Qed.
Lemma raw_lines_unterminated ls x : Forall no_LF ls -> no_LF x -> x <> "" ->
  raw_lines (terminated ls ++ x)%string = ls ++ [x].
Proof.
  intros H HX HE. unfold raw_lines. rewrite split_terminated by exact H.
  rewrite split_char_none by exact HX. rewrite drop_last_empty_snoc.
  apply String.eqb_neq in HE. now rewrite HE.
Qed.

Lemma scan_loop_in l ls : In l (fst (scan_loop ls)) -> exists x, In x ls /\ l = dropCR x.
Proof.
  induction ls as [|x ls IH]; cbn [scan_loop]; [cbn; tauto|].
  destruct (too_long x); [cbn; tauto|]. destruct (scan_loop ls) as [a e]. cbn [fst] in *.
  intros [<-|H]; [exists x; split; [now left|reflexivity]|].
  destruct (IH H) as (y & HY & E). exists y. split; [now right|exact E].
Qed.
Lemma no_LF_dropCR x : no_LF x -> no_LF (dropCR x).
Proof.
  unfold dropCR, trim_suffix, no_LF. destruct (has_suffix _ _); [|auto].
  generalize (String.length x - String.length (String (chr 13) ""))%nat. intros n H X. apply H.
  revert n X. clear H. induction x as [|c x IH]; intros [|n]; cbn; try tauto.
  intros [E|E]; [auto|right; eauto].
Qed.
Lemma scan_no_LF s l : In l (fst (scan s)) -> no_LF l.
Proof.
  intros H. apply scan_loop_in in H. destruct H as (x & HX & ->). apply no_LF_dropCR.
  eapply raw_lines_no_LF; exact HX.
Qed.

Section Pre.
  Variable parseLine : bool -> bool -> string -> option rawelt.
  Variable fileLine : string -> option (list lineitem).
  Variable parseLineRanges : string -> option (list linerange).
  Variable parseTagRanges : string -> option (list tagrange).
  Variable target : ctxattrs -> val -> result string.
  Variable joinPath : string -> string -> string.
  Variable dirOf : string -> string.
  Variable absPath : string -> string -> string.
  Variable isAsciidoc : string -> bool.
  Variable dirOK : string -> bool.
  Variable readFile : string -> option string.

  Notation preprocess' := (preprocess parseLine fileLine parseLineRanges parseTagRanges target joinPath
    dirOf absPath isAsciidoc dirOK readFile).
  Notation loop' := (loop parseLine fileLine parseLineRanges parseTagRanges target joinPath
    dirOf absPath isAsciidoc dirOK readFile).
  Notation includeFile' := (includeFile fileLine parseLineRanges parseTagRanges target joinPath
    dirOf absPath isAsciidoc dirOK readFile).
  Notation contentOf' := (contentOf fileLine parseLineRanges parseTagRanges joinPath
    dirOf absPath isAsciidoc dirOK readFile).

  (** ** working directory *)
  Lemma contentOf_cwd cwd ctx path attrs : dirOK cwd = true -> ends_in (contentOf' cwd ctx path attrs) cwd.
  Proof.
    intros D. unfold contentOf, openFile. cbv zeta.
    assert (R : forall c, fst (chdir dirOK c cwd) = cwd) by (intros c; unfold chdir; now rewrite D).
    destruct (chdir dirOK cwd (dirOf _)) as [cwd1 ok]. destruct ok; [|rewrite R; reflexivity].
    destruct (readFile _) as [content|]; rewrite R; [|reflexivity].
    destruct (scan content) as [lines tl].
    match goal with |- context[match ?x with Ok _ => _ | Err _ => _ | Panic _ => _ end] => destruct x end;
      try reflexivity.
    destruct tl; [reflexivity|].
    destruct (getAsString attrs "leveloffset"); [|reflexivity]. destruct (atoi s); reflexivity.
  Qed.
  Lemma loop_cwd pre lines : (forall d c s, dirOK d = true -> ends_in (pre d c s) d) ->
    forall cwd ctx b c t, dirOK cwd = true -> ends_in (loop' pre cwd ctx b c t lines) cwd.
  Proof.
    intros HP. induction lines as [|l r IH]; intros cwd ctx b c t D; cbn [loop]; [reflexivity|].
    destruct (parseLine (p_secs ctx) (p_within ctx) l) as [e|]; [|auto].
    destruct e as [n v|n|path attrs|cd| |k len|lvl]; auto.
    - unfold includeFile. destruct (target _ path) as [p| |]; try reflexivity.
      pose proof (contentOf_cwd cwd (pclone ctx) p attrs D) as HC.
      destruct (contentOf' cwd (pclone ctx) p attrs) as [[[content adoc] ctx'] d|m d|m d|]; cbn in HC; subst; try reflexivity.
      + destruct adoc; cbn [negb]; [|auto].
        match goal with |- context[pre cwd ?c content] => specialize (HP cwd c content D); destruct (pre cwd c content) as [[out offs'] d'|m d'|m d'|] end;
          cbn in HP; subst; try reflexivity. auto.
    - destruct (singleLineContent cd); auto.
    - destruct (offsApply _ _) as [[offs' s]| |]; try reflexivity. auto.
  Qed.
  Lemma preprocess_cwd fuel : forall cwd ctx source, dirOK cwd = true ->
    ends_in (preprocess' fuel cwd ctx source) cwd.
  Proof.
    induction fuel as [|f IH]; intros cwd ctx source D; [exact I|]. cbn [preprocess].
    apply loop_cwd; auto.
  Qed.

  (** ** termination *)
  (** file [f] has a line (possibly without its carriage return) that includes file [g] *)
  Definition includes (cwd f g : string) : Prop :=
    exists content l0 l secs w path attrs a p,
      readFile f = Some content /\ In l0 (fst (scan content)) /\ (l = l0 \/ l = dropCR l0) /\
      parseLine secs w l = Some (RInclude path attrs) /\ target a path = Ok p /\
      g = absPath cwd (joinPath (dirOf f) p).

  Lemma readAll_sub lines out : readAll fileLine lines = Ok out ->
    exists ls, out = terminated ls /\ incl ls lines.
  Proof.
    revert out. induction lines as [|l r IH]; cbn; intros out H.
    - injection H as <-. exists []. split; [reflexivity|apply incl_refl].
    - destruct (fileLine l) as [fl|]; [|discriminate].
      destruct (readAll fileLine r) as [rest| |]; try discriminate. cbn in H.
      destruct (IH _ eq_refl) as (ls & -> & HI). injection H as <-. destruct (hasTag fl).
      + exists ls. split; [reflexivity|]. now apply incl_tl.
      + exists (l :: ls). split; [unfold terminated; cbn; now rewrite sapp_assoc|].
        apply incl_cons; [now left|now apply incl_tl].
  Qed.
  Lemma readWithinLines_sub rs lines : forall n out, readWithinLines fileLine rs lines n = Ok out ->
    exists ls, out = terminated ls /\ incl ls lines.
  Proof.
    induction lines as [|l r IH]; cbn; intros n out H.
    - injection H as <-. exists []. split; [reflexivity|apply incl_refl].
    - destruct (fileLine l) as [fl|]; [|discriminate].
      destruct (readWithinLines fileLine rs r (n + 1)) as [rest| |] eqn:E; try discriminate. cbn in H.
      destruct (IH _ _ E) as (ls & -> & HI). injection H as <-.
      destruct (hasTag fl); [|destruct (lr_match rs (n + 1))].
      + exists ls. split; [reflexivity|]. now apply incl_tl.
      + exists (l :: ls). split; [unfold terminated; cbn; now rewrite sapp_assoc|].
        apply incl_cons; [now left|now apply incl_tl].
      + exists ls. split; [reflexivity|]. now apply incl_tl.
  Qed.
  Lemma readTagsLoop_sub rs lines : forall n cur out, readTagsLoop fileLine rs lines n cur = Ok out ->
    exists ls, fst out = terminated ls /\ incl ls lines.
  Proof.
    induction lines as [|l r IH]; cbn [readTagsLoop]; intros n cur out H.
    - injection H as <-. exists []. split; [reflexivity|apply incl_refl].
    - destruct (fileLine l) as [fl|]; [|discriminate]. cbv zeta in H.
      match type of H with bind ?x _ = _ => destruct x as [cur2| |] end; try discriminate. cbn [bind] in H.
      destruct (readTagsLoop fileLine rs r (n + 1) cur2) as [[rest cur']| |] eqn:E; try discriminate. cbn [bind] in H.
      destruct (IH _ _ _ E) as (ls & ES & HI). cbn [fst] in ES. subst rest. injection H as <-. cbn [fst].
      destruct (tr_match rs cur2 && negb (hasTag fl)).
      + exists (l :: ls). split; [unfold terminated; cbn; now rewrite sapp_assoc|].
        apply incl_cons; [now left|now apply incl_tl].
      + exists ls. split; [reflexivity|]. now apply incl_tl.
  Qed.

  Lemma contentOf_lines cwd ctx path attrs txt adoc ctx' d :
    contentOf' cwd ctx path attrs = RDone (txt, adoc, ctx') d ->
    let f := absPath cwd (joinPath (dirOf (p_file ctx)) path) in
    p_file ctx' = f /\ exists content, readFile f = Some content /\
      forall l, In l (fst (scan txt)) -> exists l0, In l0 (fst (scan content)) /\ (l = l0 \/ l = dropCR l0).
  Proof.
    unfold contentOf, openFile. set (f := absPath cwd _). cbv zeta.
    destruct (chdir dirOK cwd (dirOf f)) as [cwd' ok]. destruct ok; [|discriminate].
    destruct (readFile f) as [content|] eqn:RF; [|discriminate].
    destruct (scan content) as [lines tl] eqn:SC.
    set (sel := match getAsString attrs "lines" with Some _ => _ | None => _ end).
    assert (HS : forall txt, sel = Ok txt -> exists ls, txt = terminated ls /\ incl ls lines).
    { intros t. unfold sel. destruct (getAsString attrs "lines").
      - destruct (parseLineRanges s); [|discriminate]. apply readWithinLines_sub.
      - destruct (getAsString attrs "tags"); [|apply readAll_sub].
        destruct (parseTagRanges s); [|discriminate]. unfold readWithinTags. intros H.
        destruct (readTagsLoop fileLine l lines 0 []) as [[c cur]| |] eqn:E; try discriminate.
        cbn in H. destruct (forallb _ l); [|discriminate]. injection H as <-.
        apply readTagsLoop_sub in E. exact E. }
    destruct sel as [t| |]; try discriminate. destruct tl; [discriminate|].
    destruct (HS t eq_refl) as (ls & -> & HI).
    assert (R : forall l, In l (fst (scan (terminated ls))) -> exists l0, In l0 lines /\ (l = l0 \/ l = dropCR l0)).
    { intros l H. unfold scan in H. rewrite raw_lines_terminated in H.
      - apply scan_loop_in in H. destruct H as (x & HX & ->). exists x. auto.
      - apply Forall_forall. intros x HX. eapply (scan_no_LF content). rewrite SC. cbn. now apply HI. }
    destruct (getAsString attrs "leveloffset") as [lvl|].
    - destruct (atoi lvl); [|discriminate]. intros [= <- <- <- <-]. cbn. split; [reflexivity|].
      exists content. rewrite SC. split; [reflexivity|]. intros l H. destruct (R l H) as (l0 & H1 & H2).
      exists l0. auto.
    - intros [= <- <- <- <-]. cbn. split; [reflexivity|].
      exists content. rewrite SC. split; [reflexivity|]. intros l H. destruct (R l H) as (l0 & H1 & H2).
      exists l0. auto.
  Qed.

  Definition reaches cwd := clos_refl_trans string (includes cwd).

  (** no file reaches itself *)
  Definition acyclic (cwd : string) : Prop := forall f g, includes cwd f g -> ~ reaches cwd g f.

  Definition no_timeout {A} (r : run A) : Prop := r <> RTimeout.

  Lemma loop_no_timeout cwd pre lines : dirOK cwd = true ->
    (forall d c s, dirOK d = true -> ends_in (pre d c s) d) ->
    forall f0, 
    (forall l secs w path attrs a p ctx' txt, In l lines -> parseLine secs w l = Some (RInclude path attrs) ->
       target a path = Ok p -> p_file ctx' = absPath cwd (joinPath (dirOf f0) p) ->
       (exists content, readFile (p_file ctx') = Some content /\
        forall l, In l (fst (scan txt)) -> exists l0, In l0 (fst (scan content)) /\ (l = l0 \/ l = dropCR l0)) ->
       pre cwd ctx' txt <> RTimeout) ->
    forall ctx b c t, p_file ctx = f0 -> loop' pre cwd ctx b c t lines <> RTimeout.
  Proof.
    intros D HP f0. induction lines as [|l r IH]; intros HI ctx b c t HF; cbn [loop]; [discriminate|].
    assert (IH' : forall ctx b c t, p_file ctx = f0 -> loop' pre cwd ctx b c t r <> RTimeout).
    { apply IH. intros. eapply HI; eauto. now right. }
    destruct (parseLine (p_secs ctx) (p_within ctx) l) as [e|] eqn:PL; [|auto].
    destruct e as [n v|n|path attrs|cd| |k len|lvl]; auto.
    - unfold includeFile. destruct (target (p_attrs (pclone ctx)) path) as [p| |] eqn:TG; try discriminate.
      pose proof (contentOf_cwd cwd (pclone ctx) p attrs D) as HC.
      destruct (contentOf' cwd (pclone ctx) p attrs) as [[[content adoc] ctx'] d|m d|m d|] eqn:EC; cbn in HC; subst; try discriminate.
      + destruct adoc; cbn [negb]; [|auto].
        apply contentOf_lines in EC. cbn [pclone p_file] in EC. destruct EC as (E1 & E2).
        match goal with |- context[pre cwd ?c content] =>
          pose proof (HI l _ _ path attrs _ p c content (or_introl eq_refl) PL TG E1) as NT;
          pose proof (HP cwd c content D) as HE; destruct (pre cwd c content) as [[out offs'] d'|m d'|m d'|] end;
          cbn in HE; subst; try discriminate; auto.
        exfalso. apply NT; [|reflexivity]. cbn [p_file]. rewrite E1. exact E2.
      + exfalso. clear - EC. unfold contentOf, openFile in EC.
        destruct (chdir dirOK cwd _) as [? []]; [|discriminate].
        destruct (readFile _); [|discriminate]. destruct (scan s0).
        match type of EC with context[match ?x with Ok _ => _ | Err _ => _ | Panic _ => _ end] => destruct x end; try discriminate.
        destruct b; [discriminate|]. destruct (getAsString attrs "leveloffset"); [|discriminate].
        destruct (atoi s1); discriminate.
    - destruct (singleLineContent cd); auto.
    - destruct (offsApply _ _) as [[offs' s]| |]; try discriminate. auto.
  Qed.

  Lemma preprocess_terminates cwd files : dirOK cwd = true ->
    (forall f, readFile f <> None -> In f files) -> acyclic cwd ->
    forall path, NoDup path -> incl path files ->
    forall fuel ctx source, (List.length files < List.length path + fuel)%nat ->
    (match path with
     | [] => True
     | f :: _ => p_file ctx = f /\ (forall x, In x path -> reaches cwd x f) /\
                 exists content, readFile f = Some content /\
                 forall l, In l (fst (scan source)) -> exists l0, In l0 (fst (scan content)) /\ (l = l0 \/ l = dropCR l0)
     end) ->
    preprocess' fuel cwd ctx source <> RTimeout.
  Proof.
    intros D FIN AC path ND INC fuel. revert path ND INC.
    induction fuel as [|fuel IH]; intros path ND INC ctx source LEN HP.
    - exfalso. pose proof (NoDup_incl_length ND INC). lia.
    - cbn [preprocess]. apply (loop_no_timeout cwd _ _ D) with (f0 := p_file ctx); auto.
      { intros. now apply preprocess_cwd. }
      intros l secs w pth attrs a p ctx' txt HL PL TG PF (content & RC & SUB).
      apply (IH (p_file ctx' :: path)).
      + constructor; [|exact ND]. intros HI.
        destruct path as [|f rest]; [destruct HI|]. destruct HP as (F1 & F2 & c1 & F3 & F4).
        destruct (F4 l HL) as (l0 & HL0 & HL1).
        assert (INCL : includes cwd f (p_file ctx')).
        { exists c1, l0, l, secs, w, pth, attrs, a, p. rewrite <- F1 at 2. repeat split; auto. }
        apply (AC _ _ INCL). now apply F2.
      + apply incl_cons; [|exact INC]. apply FIN. congruence.
      + cbn. lia.
      + split; [reflexivity|]. split; [|eauto].
        intros x [<-|HX]; [apply rt_refl|].
        destruct path as [|f rest]; [destruct HX|]. destruct HP as (F1 & F2 & c1 & F3 & F4).
        eapply rt_trans; [apply F2; exact HX|]. apply rt_step.
        destruct (F4 l HL) as (l0 & HL0 & HL1).
        exists c1, l0, l, secs, w, pth, attrs, a, p. rewrite <- F1 at 2. repeat split; auto.
  Qed.

  (** ** documents without directives *)
  Lemma loop_plain pre lines : forall cwd ctx b c t done,
    text_of b done -> b_enabled b = true -> 
    (forall l w, In l lines -> match parseLine (p_secs ctx) w l with
       | None | Some (RDecl _ _) | Some (RReset _) | Some (RDelim _ _) => True
       | Some (RSection _) => p_offs ctx = []
       | _ => False end) ->
    loop' pre cwd ctx b c t lines = RDone (join LF (done ++ lines), p_offs ctx) cwd.
  Proof.
    induction lines as [|l r IH]; intros cwd ctx b c t done HT HE HL; cbn [loop].
    - rewrite app_nil_r. destruct HT as [-> _]. reflexivity.
    - pose proof (HL l (p_within ctx) (or_introl eq_refl)) as H0.
      assert (W : text_of (bWrite b l) (done ++ [l])) by (apply bWrite_on; auto).
      assert (E : b_enabled (bWrite b l) = true) by now rewrite bWrite_enabled.
      assert (A : done ++ l :: r = (done ++ [l]) ++ r) by now rewrite <- app_assoc.
      rewrite A.
      destruct (parseLine (p_secs ctx) (p_within ctx) l) as [e|].
      2:{ apply IH; auto. intros; apply HL; now right. }
      destruct e as [n v|n|path attrs|cd| |k len|lvl]; try contradiction.
      + etransitivity; [eapply IH; [exact W|exact E|]|reflexivity]. intros x w HX; apply HL; now right.
      + etransitivity; [eapply IH; [exact W|exact E|]|reflexivity]. intros x w HX; apply HL; now right.
      + etransitivity; [eapply IH; [exact W|exact E|]|reflexivity]. intros x w HX; apply HL; now right.
      + rewrite H0. cbn [offsApply snd]. rewrite <- H0. 
        replace (mkP (p_file ctx) (p_attrs ctx) (p_offs ctx) (p_secs ctx) (p_within ctx)) with ctx by now destruct ctx.
        apply IH; auto. intros x w HX; apply HL; now right.
  Qed.
  Lemma preprocess_plain fuel cwd ctx source :
    (forall l w, In l (fst (scan source)) -> match parseLine (p_secs ctx) w l with
       | None | Some (RDecl _ _) | Some (RReset _) | Some (RDelim _ _) => True
       | Some (RSection _) => p_offs ctx = []
       | _ => False end) ->
    preprocess' (S fuel) cwd ctx source = RDone (join LF (fst (scan source)), p_offs ctx) cwd.
  Proof. intros H. cbn [preprocess]. apply (loop_plain _ _ _ _ _ _ _ []); auto. split; reflexivity. Qed.

  (** ** headings of included files *)
  (** the line as emitted under relative offsets [os] *)
  Definition shifted (secs w : bool) (os : list Z) (l l' : string) : Prop :=
    (exists lvl title, parseLine secs w l = Some (RSection lvl) /\ l = heading lvl title /\
       (-1 <= lvl)%Z /\ partial_ok lvl os /\ l' = heading (lvl + zsum os) title) \/
    (match parseLine secs w l with None | Some (RDecl _ _) | Some (RReset _) => True | _ => False end /\ l' = l).
  Lemma loop_shift pre os lines lines' : forall cwd ctx b c t done,
    text_of b done -> b_enabled b = true -> p_offs ctx = map (mkOff false) os ->
    Forall2 (shifted (p_secs ctx) (p_within ctx) os) lines lines' ->
    loop' pre cwd ctx b c t lines = RDone (join LF (done ++ lines'), p_offs ctx) cwd.
  Proof.
    intros cwd ctx b c t done HT HE HO HF. revert ctx b c t done HT HE HO HF. revert lines'.
    induction lines as [|l r IH]; intros lines' ctx b c t done HT HE HO HF; inversion HF as [|? l' ? r' H1 H2]; subst; cbn [loop].
    - rewrite app_nil_r. destruct HT as [-> _]. reflexivity.
    - assert (W : text_of (bWrite b l') (done ++ [l'])) by (apply bWrite_on; auto).
      assert (E : b_enabled (bWrite b l') = true) by now rewrite bWrite_enabled.
      assert (A : done ++ l' :: r' = (done ++ [l']) ++ r') by now rewrite <- app_assoc.
      rewrite A. destruct H1 as [(lvl & title & PL & EL & HL & PO & EL')|[PL ->]].
      + rewrite PL, HO, EL, offsApply_relative, <- EL', <- HO by assumption.
        replace (mkP (p_file ctx) (p_attrs ctx) (p_offs ctx) (p_secs ctx) (p_within ctx)) with ctx by now destruct ctx.
        apply IH; auto.
      + destruct (parseLine (p_secs ctx) (p_within ctx) l) as [e|]; [|apply IH; auto].
        destruct e; try contradiction.
        * etransitivity; [eapply IH; [exact W|exact E|exact HO|exact H2]|reflexivity].
        * etransitivity; [eapply IH; [exact W|exact E|exact HO|exact H2]|reflexivity].
  Qed.
  Lemma preprocess_shift fuel cwd ctx source os lines' : p_offs ctx = map (mkOff false) os ->
    Forall2 (shifted (p_secs ctx) (p_within ctx) os) (fst (scan source)) lines' ->
    preprocess' (S fuel) cwd ctx source = RDone (join LF lines', p_offs ctx) cwd.
  Proof. intros HO H. cbn [preprocess]. apply (loop_shift _ os _ lines' _ _ _ _ _ []); auto. split; reflexivity. Qed.

  Lemma contentOf_offset cwd ctx path attrs txt adoc ctx' d k :
    contentOf' cwd ctx path attrs = RDone (txt, adoc, ctx') d ->
    getAsString attrs "leveloffset" = Some k ->
    exists z, atoi k = Some z /\
      p_offs ctx' = if has_prefix k "+" || has_prefix k "-" then p_offs ctx ++ [mkOff false z] else [mkOff true z].
  Proof.
    unfold contentOf, openFile. cbv zeta. intros H HK. rewrite HK in H.
    destruct (chdir dirOK cwd _) as [? []]; [|discriminate].
    destruct (readFile _); [|discriminate]. destruct (scan s0).
    match type of H with context[match ?x with Ok _ => _ | Err _ => _ | Panic _ => _ end] => destruct x end; try discriminate.
    destruct b; [discriminate|]. destruct (atoi k) as [z|]; [|discriminate].
    injection H as _ _ <- _. exists z. split; reflexivity.
  Qed.
  Lemma contentOf_no_offset cwd ctx path attrs txt adoc ctx' d :
    contentOf' cwd ctx path attrs = RDone (txt, adoc, ctx') d ->
    getAsString attrs "leveloffset" = None -> p_offs ctx' = p_offs ctx.
  Proof.
    unfold contentOf, openFile. cbv zeta. intros H HK. rewrite HK in H.
    destruct (chdir dirOK cwd _) as [? []]; [|discriminate].
    destruct (readFile _); [|discriminate]. destruct (scan s0).
    match type of H with context[match ?x with Ok _ => _ | Err _ => _ | Panic _ => _ end] => destruct x end; try discriminate.
    destruct b; [discriminate|]. injection H as _ _ <- _. reflexivity.
  Qed.
End Pre.

Lemma scan_short ls : Forall (fun l => too_long l = false) ls -> scan_loop ls = (map dropCR ls, false).
Proof. induction 1 as [|l ls H HF IH]; [reflexivity|]. cbn. rewrite H, IH. reflexivity. Qed.

(** ** source text with terminators *)
Lemma written_terminated ls : written_as ls = terminated (map line_bytes ls).
Proof. unfold written_as, terminated. now rewrite map_map. Qed.
Lemma has_suffix_sapp a b : has_suffix (a ++ b)%string b = true.
Proof. apply has_suffix_iff. eauto. Qed.
Lemma dropCR_bytes l : good_line l -> dropCR (line_bytes l) = fst l.
Proof.
  intros (_ & N & _). unfold dropCR, trim_suffix. fold CR. unfold line_bytes. destruct l as [t []]; cbn [fst snd] in *.
  - rewrite has_suffix_sapp. rewrite slength_app. replace (String.length t + String.length CR - String.length CR)%nat with (String.length t) by lia.
    apply stake_app.
  - rewrite sapp_nil_r. destruct (has_suffix t CR) eqn:E; [|reflexivity]. apply has_suffix_iff in E. destruct E as (r & E). now apply N in E.
Qed.
Lemma list_ascii_app a b : list_ascii_of_string (a ++ b)%string = list_ascii_of_string a ++ list_ascii_of_string b.
Proof. induction a as [|c a IH]; [reflexivity|]. cbn [append list_ascii_of_string app]. now rewrite IH. Qed.
Lemma no_LF_bytes l : good_line l -> no_LF (line_bytes l).
Proof.
  intros (N & _). unfold no_LF, line_bytes. rewrite list_ascii_app. intros H. apply in_app_iff in H. destruct H as [H|H]; [tauto|].
  destruct (snd l); cbn in H; [|tauto]. destruct H as [H|[]]. discriminate.
Qed.
Lemma short_bytes l : good_line l -> too_long (line_bytes l) = false.
Proof. intros (_ & _ & L). unfold too_long. apply N.leb_gt. exact L. Qed.
Lemma scan_good ls : Forall good_line ls -> scan_loop (map line_bytes ls) = (map fst ls, false).
Proof.
  intros H. rewrite scan_short.
  - f_equal. rewrite map_map. induction H as [|l ls G _ IH]; [reflexivity|]. cbn. now rewrite dropCR_bytes, IH.
  - apply Forall_forall. intros x Hx. apply in_map_iff in Hx. destruct Hx as (l & <- & Hl). rewrite Forall_forall in H. now apply short_bytes, H.
Qed.
Lemma good_no_LF ls : Forall good_line ls -> Forall no_LF (map line_bytes ls).
Proof. intros H. apply Forall_forall. intros x Hx. apply in_map_iff in Hx. destruct Hx as (l & <- & Hl). rewrite Forall_forall in H. now apply no_LF_bytes, H. Qed.
Lemma scan_written ls : Forall good_line ls -> fst (scan (written_as ls)) = map fst ls.
Proof. intros H. unfold scan. rewrite written_terminated, raw_lines_terminated by now apply good_no_LF. now rewrite scan_good. Qed.
Lemma scan_written_last ls x : Forall good_line ls -> good_line x -> line_bytes x <> "" ->
  fst (scan (written_as ls ++ line_bytes x)%string) = map fst ls ++ [fst x].
Proof.
  intros H G N. unfold scan. rewrite written_terminated, raw_lines_unterminated; [|now apply good_no_LF|now apply no_LF_bytes|exact N].
  replace (map line_bytes ls ++ [line_bytes x]) with (map line_bytes (ls ++ [x])) by now rewrite map_app.
  rewrite scan_good; [now rewrite map_app|]. apply Forall_app. auto.
Qed.
Lemma scan_loop_long ls x rest : Forall good_line ls -> too_long x = true -> fst (scan_loop (map line_bytes ls ++ x :: rest)) = map fst ls.
Proof.
  intros H L. induction H as [|l ls G _ IH]; cbn [map app scan_loop].
  - now rewrite L.
  - rewrite short_bytes by exact G. destruct (scan_loop (map line_bytes ls ++ x :: rest)) as [a e]. cbn [fst] in *. now rewrite dropCR_bytes, IH.
Qed.
Lemma scan_long ls x rest : Forall good_line ls -> no_LF x -> (65536 <= N.of_nat (String.length x))%N ->
  (rest = "" \/ exists r, rest = (LF ++ r)%string) -> fst (scan (written_as ls ++ x ++ rest)%string) = map fst ls.
Proof.
  intros H NX L HR. assert (T : too_long x = true) by (now apply N.leb_le).
  assert (X : x <> "") by (intros ->; cbn in L; lia).
  unfold scan. destruct HR as [->|(r & ->)].
  - rewrite sapp_nil_r, written_terminated, raw_lines_unterminated; [|now apply good_no_LF|exact NX|exact X]. now apply scan_loop_long.
  - unfold raw_lines. rewrite written_terminated, split_terminated by now apply good_no_LF.
    unfold LF. cbn [append]. rewrite split_char_app by exact NX.
    destruct (split_char (chr 10) r) as [|y ys] eqn:E; [now apply split_char_nonempty in E|].
    assert (D : forall l : list string, exists r', drop_last_empty (l ++ x :: y :: ys) = l ++ x :: r').
    { induction l as [|a l (r' & IH)]; cbn [app].
      - change (drop_last_empty (x :: y :: ys)) with (x :: drop_last_empty (y :: ys)). eauto.
      - exists r'. rewrite <- IH. destruct l; reflexivity. }
    destruct (D (map line_bytes ls)) as (r' & ->). now apply scan_loop_long.
Qed.
