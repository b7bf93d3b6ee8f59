(** Properties C08-C14, C42, C47, C48: preprocessing (conditionals, inclusions, level offsets).

    In the general theorems the grammar of lines ([parseLine]), the file system ([dirOK], [readFile])
    and the path functions are arbitrary.  In the refutations and examples the grammar is the one of
    RawLine.v. *)
From Coq Require Import Sorting.Sorted.
From Verif Require Import GoBase GoLemmas Types Attrs Context Cond Include Preprocess RawLine PreSpec PreLemmas InclLemmas
  PreMore PreDisabled PreOffsets InclOutcome.

Section General.
  Variable parseLine : bool -> bool -> string -> option rawelt.
  Variable fileLine : string -> option (list lineitem).
  Variable parseLineRanges : string -> option (list linerange).
  Variable parseTagRanges : string -> option (list tagrange).
  Variable target : ctxattrs -> val -> result string.
  Variable joinPath : string -> string -> string.
  Variable dirOf : string -> string.
  Variable absPath : string -> string -> string.
  Variable isAsciidoc : string -> bool.
  Variable dirOK : string -> bool.
  Variable readFile : string -> option string.
  Notation preprocess' := (preprocess parseLine fileLine parseLineRanges parseTagRanges target joinPath
    dirOf absPath isAsciidoc dirOK readFile).
  Notation contentOf' := (contentOf fileLine parseLineRanges parseTagRanges joinPath
    dirOf absPath isAsciidoc dirOK readFile).

  (** ** C08: the output consists of the texts of the lines all of whose enclosing conditions were true
      when they were opened, in order *)
  Theorem C08_conditionals_select :
    forall fuel cwd ctx source out offs cwd',
    preprocess' fuel cwd ctx source = RDone (out, offs) cwd' ->
    exists evs texts,
      line_events parseLine (p_secs ctx) (p_attrs ctx, p_within ctx, []) (fst (scan source)) evs /\
      visible [] evs texts /\ out = join LF texts.
  Proof. apply preprocess_events. Qed.

  (** ** C09: a disabled region is processed exactly as if it were enabled (in [s2] its condition holds), except that its lines are
      not emitted: the output is the one of the enabled region without the texts [B] of the region, or both conversions fail in the same
      way *)
  Theorem C09_disabled_like_enabled :
    forall fuel cwd ctx s0 s1 s2 before o1 o2 ls e after,
    fst (scan s0) = before ->
    fst (scan s1) = before ++ o1 :: ls ++ e :: after ->
    fst (scan s2) = before ++ o2 :: ls ++ e :: after ->
    (exists cd1 cd2, let st := lines_state parseLine (p_secs ctx) (p_attrs ctx, p_within ctx, []) before in
       parseLine (p_secs ctx) (snd (fst st)) o1 = Some (RCond cd1) /\ singleLineContent cd1 = None /\
       evalCond (callAttributes (fst (fst st))) cd1 = false /\
       parseLine (p_secs ctx) (snd (fst st)) o2 = Some (RCond cd2) /\ singleLineContent cd2 = None /\
       evalCond (callAttributes (fst (fst st))) cd2 = true) ->
    balanced parseLine (p_secs ctx) ls -> closes_region parseLine (p_secs ctx) e ->
    (exists A B C offs0 d0 offs d,
       preprocess' fuel cwd ctx s0 = RDone (join LF A, offs0) d0 /\
       preprocess' fuel cwd ctx s1 = RDone (join LF (A ++ C), offs) d /\
       preprocess' fuel cwd ctx s2 = RDone (join LF (A ++ B ++ C), offs) d) \/
    ((forall out d, preprocess' fuel cwd ctx s1 <> RDone out d) /\ preprocess' fuel cwd ctx s2 = preprocess' fuel cwd ctx s1).
  Proof.
    intros fuel cwd ctx s0 s1 s2 before o1 o2 ls e after E0 E1 E2 HO HB HC.
    destruct (disabled_like_enabled parseLine fileLine parseLineRanges parseTagRanges target joinPath dirOf absPath isAsciidoc dirOK readFile
      fuel cwd ctx s0 s1 s2 before o1 o2 ls e after E0 E1 E2 HO HB HC) as [H|[F H]]; [left; exact H|right; split; [|exact H]].
    intros out d X. rewrite X in F. exact F.
  Qed.
  (** a disabled region whose lines are text and conditional directives leaves no trace at all *)
  Theorem C09_disabled_region :
    forall fuel cwd ctx s1 s2 before o ls e after,
    fst (scan s1) = before ++ o :: ls ++ e :: after ->
    fst (scan s2) = before ++ after ->
    (exists cd, let st := lines_state parseLine (p_secs ctx) (p_attrs ctx, p_within ctx, []) before in
       parseLine (p_secs ctx) (snd (fst st)) o = Some (RCond cd) /\
       singleLineContent cd = None /\ evalCond (callAttributes (fst (fst st))) cd = false) ->
    region parseLine (p_secs ctx) ls -> closes_region parseLine (p_secs ctx) e ->
    preprocess' fuel cwd ctx s1 = preprocess' fuel cwd ctx s2.
  Proof. apply disabled_region. Qed.

  (** ** C11: in every document under relative offsets o1..on the headings move by their sum (for the other lines, and for what is
      shown, see C08), and the offsets stay the same for the lines that follow the inclusion *)
  Theorem C11_relative_offsets :
    forall fuel cwd ctx source os out offs d, p_offs ctx = map (mkOff false) os ->
    preprocess' fuel cwd ctx source = RDone (out, offs) d ->
    offs = p_offs ctx /\ exists evs texts,
      line_events_moved parseLine (p_secs ctx) (zsum os) (p_attrs ctx, p_within ctx, []) (fst (scan source)) evs /\
      visible [] evs texts /\ out = join LF texts.
  Proof. apply moved_relative. Qed.
  (** nested inclusions accumulate their relative offsets; an absolute one replaces them *)
  Theorem C11_offsets_accumulate :
    forall cwd ctx path attrs txt adoc ctx' d k,
    contentOf' cwd ctx path attrs = RDone (txt, adoc, ctx') d ->
    getAsString attrs "leveloffset" = Some k ->
    exists z, atoi k = Some z /\
      p_offs ctx' = if has_prefix k "+" || has_prefix k "-" then p_offs ctx ++ [mkOff false z]
                    else [mkOff true z].
  Proof. apply contentOf_offset. Qed.
  (** an absolute offset [n]: all headings of the document move by the same amount, which puts its first heading at level n (unless
      a file included before has a heading: then it is that one) *)
  Theorem C11_absolute_offset :
    forall fuel cwd ctx source n out offs cwd', p_offs ctx = [mkOff true n] ->
    preprocess' fuel cwd ctx source = RDone (out, offs) cwd' ->
    exists d,
      (forall a l r lvl, fst (scan source) = a ++ l :: r -> Forall (no_heading parseLine (p_secs ctx)) a ->
         parseLine (p_secs ctx) (snd (fst (lines_state parseLine (p_secs ctx) (p_attrs ctx, p_within ctx, []) a))) l = Some (RSection lvl) ->
         d = (n - lvl)%Z) /\
      exists evs texts,
      line_events_moved parseLine (p_secs ctx) d (p_attrs ctx, p_within ctx, []) (fst (scan source)) evs /\
      visible [] evs texts /\ out = join LF texts.
  Proof. apply moved_absolute. Qed.
  (** a conversion under relative offsets goes through exactly when the level never drops below -1 *)
  Theorem C11_no_failure :
    forall os l title, (-1 <= l)%Z ->
    ((exists r, offsApply (map (mkOff false) os) (l, heading l title) = Ok r) <-> partial_ok l os) /\
    (~ partial_ok l os -> exists m, offsApply (map (mkOff false) os) (l, heading l title) = Panic m).
  Proof.
    intros os. induction os as [|o os IH]; intros l title HL; cbn [map offsApply partial_ok].
    - split; [split; [exact (fun _ => I)|intros _; eauto]|tauto].
    - unfold offApply. cbn [off_abs off_val].
      destruct (Z.ltb_spec (l + o) (-1)) as [L|L].
      + assert (E : offsetLevel (l, heading l title) o = Panic "strings: negative Repeat count").
        { unfold offsetLevel, repeat_eq. destruct (Z.ltb_spec (l + 1) 0); [lia|]. destruct (Z.ltb_spec (l + 1 + o) 0); [reflexivity|lia]. }
        rewrite E. cbn [bind]. split; [split|eauto]; [intros (r & [=])|lia].
      + rewrite offsetLevel_heading by lia. cbn [bind]. destruct (IH (l + o)%Z title L) as [A B].
        destruct (offsApply (map (mkOff false) os) ((l + o)%Z, heading (l + o) title)) as [[r raw]|m|m]; cbn [bind].
        * split; [split|]; [intros _; split; [exact L|apply A; eauto]|eauto|]. intros N. destruct N. split; [exact L|apply A; eauto].
        * split; [split|]; [intros (? & [=])|intros [_ H]; apply A in H; destruct H as (? & [=])|].
          intros N. destruct B as (m' & [=]). tauto.
        * split; [split|]; [intros (? & [=])|intros [_ H]; apply A in H; destruct H as (? & [=])|eauto].
  Qed.

  (** ** C12: with lines=..., exactly the lines of the ranges, in file order; for every way to sort the
      ranges by start *)
  Theorem C12_line_ranges :
    forall rs rs' lines, Permutation rs rs' -> StronglySorted by_start rs' ->
    Forall (fun l => fileLine l <> None) lines ->
    exists out, readWithinLines fileLine rs' lines 0%Z = Ok out /\
      kept (fun n l => in_some_range n rs /\ exists items, fileLine l = Some items /\ ~ has_directive items)
           1%Z lines out.
  Proof. intros rs rs' lines HP HS HF. exact (readWithinLines_kept fileLine rs rs' HP HS lines 0%Z HF). Qed.
  Theorem C12_ranges_are_sorted :
    forall rs, Permutation rs (newLineRanges rs) /\ StronglySorted by_start (newLineRanges rs).
  Proof. intros rs. split; [apply newLineRanges_perm|apply newLineRanges_sorted]. Qed.

  (** ** C13: the last applicable rule decides, for every list of rules ([verdict]: a double wildcard includes even when it is negated) *)
  Theorem C13_tag_rules :
    forall rules lines out, readWithinTags fileLine rules lines = Ok out -> tags_kept fileLine rules [] lines out.
  Proof. apply readWithinTags_spec. Qed.
  (** without a negated double wildcard the verdict is the one written *)
  Theorem C13_verdict :
    forall rules, Forall (fun r => tr_name r = "**" -> tr_incl r = true) rules ->
    forall evs, selected verdict rules evs <-> selected tr_incl rules evs.
  Proof.
    intros rules HR evs. assert (V : forall r, In r rules -> verdict r = tr_incl r).
    { intros r Hr. unfold verdict. destruct (String.eqb_spec (tr_name r) "**") as [E|]; [|reflexivity].
      rewrite Forall_forall in HR. symmetry. now apply HR. }
    unfold selected. split; intros (r & (a & b & E & D) & HV); exists r; (split; [exists a, b; auto|]);
      [rewrite <- V|rewrite V]; auto; rewrite E; apply in_or_app; right; now left.
  Qed.
  Theorem C13_iteration_order_irrelevant :
    forall rules cur cur', NoDup (mkeys cur) -> Permutation cur cur' ->
    tr_match rules cur = tr_match rules cur'.
  Proof. apply tr_match_perm. Qed.

  (** ** C14: reading crashes exactly when an end tag has no start tag before it; lines are returned exactly when there is none,
      every line can be read, and every tag named in the list occurs in the file; otherwise there is an error *)
  Theorem C14_outcome :
    forall rules lines,
    ((exists m, readWithinTags fileLine rules lines = Panic m) <-> stray_end fileLine lines) /\
    ((exists out, readWithinTags fileLine rules lines = Ok out) <->
     ~ stray_end fileLine lines /\ Forall (fun l => fileLine l <> None) lines /\
     forall r, In r rules -> tr_name r <> "*" -> tr_name r <> "**" -> mentioned fileLine lines (tr_name r)).
  Proof. apply tags_outcome. Qed.

  (** ** C47: without directives the lines are unchanged, whatever their terminators; the last one needs none *)
  Definition no_directive (ctx : pctx) (l : string) : Prop :=
    forall w, match parseLine (p_secs ctx) w l with
       | None | Some (RDecl _ _) | Some (RReset _) | Some (RDelim _ _) => True
       | Some (RSection _) => p_offs ctx = []
       | _ => False end.
  Theorem C47_plain_document :
    forall fuel cwd ctx ls, Forall good_line ls -> Forall (fun l => no_directive ctx (fst l)) ls ->
    preprocess' (S fuel) cwd ctx (written_as ls) = RDone (join LF (map fst ls), p_offs ctx) cwd /\
    (forall x, good_line x -> no_directive ctx (fst x) -> line_bytes x <> "" ->
     preprocess' (S fuel) cwd ctx (written_as ls ++ line_bytes x)%string = RDone (join LF (map fst ls ++ [fst x]), p_offs ctx) cwd).
  Proof.
    intros fuel cwd ctx ls HG HD. split.
    - rewrite preprocess_plain; rewrite scan_written by exact HG; [reflexivity|].
      intros l w Hl. apply in_map_iff in Hl. destruct Hl as (x & <- & Hx). rewrite Forall_forall in HD. apply (HD x Hx).
    - intros x Gx Dx Nx. rewrite preprocess_plain; rewrite scan_written_last by assumption; [reflexivity|].
      intros l w Hl. apply in_app_iff in Hl. destruct Hl as [Hl|[<-|[]]]; [|apply Dx].
      apply in_map_iff in Hl. destruct Hl as (y & <- & Hy). rewrite Forall_forall in HD. apply (HD y Hy).
  Qed.
  (** a line of 64 KB or more ends the document: it and all that follows is lost, without an error *)
  Theorem C47_long_line :
    forall fuel cwd ctx ls x rest, Forall good_line ls -> Forall (fun l => no_directive ctx (fst l)) ls ->
    ~ In (chr 10) (list_ascii_of_string x) -> (65536 <= N.of_nat (String.length x))%N ->
    (rest = "" \/ exists r, rest = (LF ++ r)%string) ->
    preprocess' (S fuel) cwd ctx (written_as ls ++ x ++ rest)%string = RDone (join LF (map fst ls), p_offs ctx) cwd.
  Proof.
    intros fuel cwd ctx ls x rest HG HD HX HL HR.
    rewrite preprocess_plain; rewrite scan_long by assumption; [reflexivity|].
    intros l w Hl. apply in_map_iff in Hl. destruct Hl as (y & <- & Hy). rewrite Forall_forall in HD. apply (HD y Hy).
  Qed.

  (** ** C48 *)
  Theorem C48_working_directory :
    forall fuel cwd ctx source, dirOK cwd = true ->
    match preprocess' fuel cwd ctx source with
    | RDone _ d | RErr _ d | RPanic _ d => d = cwd
    | RTimeout => True
    end.
  Proof. intros. apply (preprocess_cwd parseLine fileLine parseLineRanges parseTagRanges target joinPath dirOf absPath isAsciidoc dirOK readFile fuel cwd ctx source H). Qed.
  (** finitely many files, none of which includes itself directly or not: one level of inclusion per
      file is enough *)
  Theorem C48_inclusion_terminates :
    forall cwd files, dirOK cwd = true -> (forall f, readFile f <> None -> In f files) ->
    acyclic parseLine target joinPath dirOf absPath readFile cwd ->
    forall ctx source, preprocess' (S (List.length files)) cwd ctx source <> RTimeout.
  Proof.
    intros cwd files D FIN AC ctx source.
    apply (preprocess_terminates parseLine fileLine parseLineRanges parseTagRanges target joinPath dirOf absPath isAsciidoc dirOK readFile cwd files D FIN AC []); [constructor|intros ? []|cbn; lia|exact I].
  Qed.
End General.
Print Assumptions C08_conditionals_select.
Print Assumptions C09_disabled_like_enabled.
Print Assumptions C09_disabled_region.
Print Assumptions C11_relative_offsets.
Print Assumptions C11_offsets_accumulate.
Print Assumptions C11_absolute_offset.
Print Assumptions C11_no_failure.
Print Assumptions C12_line_ranges.
Print Assumptions C13_tag_rules.
Print Assumptions C13_verdict.
Print Assumptions C13_iteration_order_irrelevant.
Print Assumptions C14_outcome.
Print Assumptions C47_plain_document.
Print Assumptions C47_long_line.
Print Assumptions C48_working_directory.
Print Assumptions C48_inclusion_terminates.

(** ** the grammar and a small file system for the refutations and examples *)
Definition ascii_alnum (r : N) : bool :=
  ((48 <=? r) && (r <=? 57) || (65 <=? r) && (r <=? 90) || (97 <=? r) && (r <=? 122))%N.
(** "path[key=value]" *)
Definition demo_incl (s : string) : option (val * attributes) :=
  let (p, r) := take_bytes (not_in [91]%N) s in
  peg r1 <- lit "[" r;
  let (a, r2) := take_bytes (not_in [93]%N) r1 in
  peg r3 <- lit "]" r2;
  Some (VStr p, match split_char "=" a with [k; v] => [(k, VStr v)] | _ => [] end).
Definition grammar : bool -> bool -> string -> option rawelt :=
  documentRawLine ascii_alnum (fun s => Some (VStr s)) demo_incl.
Definition demo_target (_ : ctxattrs) (v : val) : result string :=
  match v with VStr s => Ok s | _ => Err "location" end.
Definition run_demo (files : gomap string) (fuel : nat) (source : string) : run (string * list offset) :=
  preprocess grammar (includedFileLine ascii_alnum) lineRanges (tagRanges ascii_alnum) demo_target
    (fun _ p => p) (fun _ => "/d") (fun _ p => p) (fun _ => true) (fun _ => true) (mget files) fuel "/d"
    (mkP "root.adoc" (newContextAttributes []) [] false false) source.
Definition doc (ls : list string) : string := join LF ls.
Definition res (ls : list string) : run (string * list offset) := RDone (join LF ls, []) "/d".

(** ** C08 *)
Theorem C08_example :
  run_demo [] 1 (doc [":a: 1"; "ifdef::a[]"; "one"; "ifndef::a[]"; "two"; "endif::[]"; "three"; "endif::[]";
                      "endif::[]"; "four"; "ifdef::a[five]"; "ifdef::b[six]"; "ifeval::[{a} == 2]"; "seven"])
  = res [":a: 1"; "one"; "three"; "four"; "five"].
Proof. vm_compute. reflexivity. Qed.

(** ** C09 is false in general *)
(** an attribute declared in a disabled region is seen by later conditions *)
Theorem C09_declaration_in_disabled_region_refuted :
  run_demo [] 1 (doc ["ifdef::nope[]"; ":x: 1"; "endif::[]"; "ifdef::x[shown]"]) = res ["shown"] /\
  run_demo [] 1 (doc ["ifdef::x[shown]"]) = res [].
Proof. split; vm_compute; reflexivity. Qed.
(** a file included in a disabled region is opened: a missing one makes the conversion fail *)
Theorem C09_inclusion_in_disabled_region_refuted :
  (exists m, run_demo [] 2 (doc ["ifdef::nope[]"; "include::missing.adoc[]"; "endif::[]"; "text"]) = RErr m "/d") /\
  run_demo [] 2 (doc ["text"]) = res ["text"].
Proof. split; [eexists|]; vm_compute; reflexivity. Qed.
(** the hypotheses of the partial theorem are met *)
Theorem C09_example_hyp :
  region grammar false ["text"; "ifdef::a[]"; "more"; "endif::a[]"] /\ closes_region grammar false "endif::[]" /\
  (exists cd, grammar false false "ifdef::nope[]" = Some (RCond cd) /\ singleLineContent cd = None /\
              evalCond (callAttributes (newContextAttributes [])) cd = false).
Proof.
  split; [|split].
  - apply reg_plain; [intros []; vm_compute; exact I|].
    apply (reg_nested _ _ "ifdef::a[]" ["more"] "endif::a[]" []).
    + intros []; eexists; split; vm_compute; reflexivity.
    + apply reg_plain; [intros []; vm_compute; exact I|constructor].
    + intros []; vm_compute; reflexivity.
    + constructor.
  - intros []; vm_compute; reflexivity.
  - eexists; split; [|split]; vm_compute; reflexivity.
Qed.

(** ** C10 *)
Definition ifeval (l r : val) (op : operand) : bool := evalCond [] (Ifeval l r op).
Definition same_type (l r : val) : Prop :=
  (exists a b, l = VStr a /\ r = VStr b) \/ (exists a b, l = VInt a /\ r = VInt b).
(** exactly one of <, ==, > ; the other operators are derived from them *)
Theorem C10_total_order :
  forall l r, same_type l r ->
  (ifeval l r OpEq = true <-> l = r) /\
  ((ifeval l r OpLt = true /\ ifeval l r OpEq = false /\ ifeval l r OpGt = false) \/
   (ifeval l r OpLt = false /\ ifeval l r OpEq = true /\ ifeval l r OpGt = false) \/
   (ifeval l r OpLt = false /\ ifeval l r OpEq = false /\ ifeval l r OpGt = true)) /\
  ifeval l r OpLe = ifeval l r OpLt || ifeval l r OpEq /\
  ifeval l r OpGe = ifeval l r OpGt || ifeval l r OpEq /\
  ifeval l r OpNe = negb (ifeval l r OpEq) /\
  ifeval l r OpLt = ifeval r l OpGt.
Proof.
  intros l r [(a & b & -> & ->)|(a & b & -> & ->)]; unfold ifeval; cbn.
  - assert (EQ : String.compare a b = Eq <-> a = b).
    { split; [apply String.compare_eq_iff|]. intros ->. clear. induction b as [|c b IH]; cbn; [reflexivity|].
      unfold Ascii.compare. now rewrite N.compare_refl. }
    pose proof (String.compare_antisym a b) as AS.
    destruct (String.compare b a) eqn:E; cbn in AS; rewrite AS in *; cbn;
      repeat split; auto; try discriminate;
      try (intros _; f_equal; now apply EQ);
      (intros X; assert (Y : a = b) by congruence; apply EQ in Y; discriminate).
  - rewrite (Z.compare_antisym a b).
    destruct (Z.compare_spec a b) as [->|L|L]; cbn; repeat split; auto; try discriminate;
      intros [= ->]; lia.
Qed.
Print Assumptions C10_total_order.
(** integers are ordered as numbers *)
Theorem C10_integers : forall a b, ifeval (VInt a) (VInt b) OpLt = true <-> (a < b)%Z.
Proof. intros a b. unfold ifeval. cbn. unfold Z.lt. destruct (a ?= b)%Z; cbn; split; congruence. Qed.
(** strings are ordered bytewise, as in a dictionary: at the first difference the smaller byte decides, and a
    proper beginning of a text is before the text *)
Theorem C10_strings : forall a b, ifeval (VStr a) (VStr b) OpLt = true <->
  exists p, (exists c r, a = p /\ b = (p ++ String c r)%string) \/
            (exists c r d t, a = (p ++ String c r)%string /\ b = (p ++ String d t)%string /\ (N_of_ascii c < N_of_ascii d)%N).
Proof.
  unfold ifeval. cbn.
  assert (C : forall c d : ascii, Ascii.compare c d = Eq <-> c = d).
  { intros c d. unfold Ascii.compare. split; [apply Ascii.compare_eq_iff|intros ->; apply N.compare_refl]. }
  induction a as [|c a IH]; intros [|d b].
  - cbn. split; [discriminate|]. intros (p & [(c & r & <- & E)|(c & r & d & t & E & _)]); [discriminate|]. destruct p; discriminate.
  - cbn. split; [|reflexivity]. intros _. exists "". left. exists d, b. now split.
  - cbn. split; [discriminate|]. intros (p & [(e & r & <- & E)|(e & r & f & t & E & F & _)]); [discriminate|]. destruct p; discriminate.
  - cbn [String.compare]. destruct (Ascii.compare c d) eqn:E.
    + apply C in E. subst d. rewrite IH. split; intros (p & H).
      * exists (String c p). destruct H as [(e & r & -> & ->)|(e & r & f & t & -> & -> & L)].
        -- left. exists e, r. now split.
        -- right. exists e, r, f, t. now split.
      * destruct H as [(e & r & <- & H)|(e & r & f & t & H & H' & L)].
        -- cbn in H. injection H as ->. exists a. left. now exists e, r.
        -- destruct p as [|x p]; cbn in H, H'.
           ++ injection H as <- <-. injection H' as <- <-. lia.
           ++ injection H as <- ->. injection H' as ->. exists p. right. now exists e, r, f, t.
    + split; [|reflexivity]. intros _. exists "". right. exists c, a, d, b. split; [reflexivity|]. split; [reflexivity|].
      exact E.
    + split; [discriminate|]. intros (p & [(e & r & <- & H)|(e & r & f & t & H & H' & L)]).
      * cbn in H. injection H as <- ->. unfold Ascii.compare in E. rewrite N.compare_refl in E. discriminate.
      * destruct p as [|x p]; cbn in H, H'.
        -- injection H as <- <-. injection H' as <- <-. unfold Ascii.compare in E. apply N.compare_gt_iff in E. lia.
        -- injection H as <- ->. injection H' as <- ->. unfold Ascii.compare in E. rewrite N.compare_refl in E. discriminate.
Qed.
Print Assumptions C10_strings.
(** the order is transitive *)
Theorem C10_transitive : forall l m r,
  ifeval l m OpLt = true -> ifeval m r OpLt = true -> ifeval l r OpLt = true.
Proof.
  unfold ifeval. intros l m r. destruct l; cbn; try discriminate; destruct m; cbn; try discriminate; destruct r; cbn; try discriminate.
  - destruct (String.compare s s0) eqn:E1; cbn; try discriminate. destruct (String.compare s0 s1) eqn:E2; cbn; try discriminate. intros _ _.
    revert s0 s1 E1 E2. induction s as [|c a IH]; intros [|d b] [|e f]; cbn; try discriminate; auto.
    unfold Ascii.compare. destruct (N.compare_spec (N_of_ascii c) (N_of_ascii d)) as [H|H|H]; try discriminate;
      destruct (N.compare_spec (N_of_ascii d) (N_of_ascii e)) as [H'|H'|H']; try discriminate; intros E1 E2.
    + replace (N_of_ascii c ?= N_of_ascii e)%N with Eq by (symmetry; apply N.compare_eq_iff; lia). eauto.
    + now replace (N_of_ascii c ?= N_of_ascii e)%N with Lt by (symmetry; apply N.compare_lt_iff; lia).
    + now replace (N_of_ascii c ?= N_of_ascii e)%N with Lt by (symmetry; apply N.compare_lt_iff; lia).
    + now replace (N_of_ascii c ?= N_of_ascii e)%N with Lt by (symmetry; apply N.compare_lt_iff; lia).
  - repeat match goal with |- context [(?a ?= ?b)%Z] => destruct (Z.compare_spec a b); try discriminate; try reflexivity end; lia.
Qed.
Print Assumptions C10_transitive.
(** operands of different types, or neither text nor number (such as a reference to an attribute that is not set):
    every comparison is false, also != *)
Theorem C10_mixed_types_refuted :
  (forall l r op, ~ same_type l r -> ifeval l r op = false) /\
  ~ same_type (VStr "1") (VInt 1) /\ (forall n, ~ same_type (AttributeReference n) (AttributeReference n)).
Proof.
  split; [|split].
  - intros l r op H. unfold ifeval. destruct l; try reflexivity; destruct r; try reflexivity; exfalso; apply H; unfold same_type; eauto 8.
  - intros [(a & b & E & F)|(a & b & E & F)]; discriminate.
  - intros n [(a & b & E & F)|(a & b & E & F)]; discriminate.
Qed.
Print Assumptions C10_mixed_types_refuted.
(** a directive of the grammar: its operands are texts, numbers or references, and it holds exactly when the comparison of their
    values under the current attributes does *)
Theorem C10_directive : forall is_alnum s l r op, ifevalRule is_alnum s = Some (Ifeval l r op) ->
  (forall v, In v [l; r] -> (exists t, v = VStr t) \/ (exists z, v = VInt z) \/ (exists t, v = StringElement t) \/ (exists n, v = AttributeReference n)) /\
  (forall attrs, evalCond attrs (Ifeval l r op) = true <-> ifeval (member_value attrs l) (member_value attrs r) op = true).
Proof.
  intros al s l r op H. split.
  2:{ assert (E : forall v, member_value [] v = v) by now destruct v. intros attrs. unfold ifeval. cbn [evalCond]. now rewrite !E. }
  unfold ifevalRule in H. destruct (lit "ifeval::[" s) as [s0|]; [|discriminate].
  destruct (ifevalMember al s0) as [[l' s2]|] eqn:L; [|discriminate].
  destruct (ifevalOperand (skip_spaces s2)) as [[op' s3]|]; [|discriminate].
  destruct (ifevalMember al (skip_spaces s3)) as [[r' s4]|] eqn:R; [|discriminate].
  destruct (lit "]" s4); [|discriminate]. destruct (skip_spaces s1); [|discriminate].
  injection H as -> -> _.
  assert (A : forall s v t, attributeReferenceValue al s = Some (v, t) -> (exists t, v = StringElement t) \/ (exists n, v = AttributeReference n)).
  { clear. intros s v t. unfold attributeReferenceValue. destruct (lit "\{" s) as [s1|].
    - destruct (attributeName al s1) as [[n s2]|].
      + destruct (lit "}" s2); [intros [= <- _]; eauto|]. destruct (lit "{" s); [|discriminate].
        destruct (attributeName al s0) as [[n' s3]|]; [|discriminate]. destruct (lit "}" s3); [|discriminate]. intros [= <- _]; eauto.
      + destruct (lit "{" s); [|discriminate].
        destruct (attributeName al s0) as [[n' s3]|]; [|discriminate]. destruct (lit "}" s3); [|discriminate]. intros [= <- _]; eauto.
    - destruct (lit "{" s); [|discriminate].
      destruct (attributeName al s0) as [[n' s3]|]; [|discriminate]. destruct (lit "}" s3); [|discriminate]. intros [= <- _]; eauto. }
  assert (W : forall s v t, word al s = Some (v, t) -> exists t, v = VStr t).
  { clear. intros s v t. unfold word. destruct (many1 (word_rune al) s) as [[w s1]|]; [|discriminate]. intros [= <- _]; eauto. }
  assert (I : forall s v t, integer s = Some (v, t) -> exists z, v = VInt z).
  { clear. intros s v t. unfold integer. destruct (match lit "-" s with Some r => ("-", r) | None => ("", s) end) as [sg s1].
    destruct (many1 _ s1) as [[d s2]|]; [|discriminate]. destruct (atoi (sg ++ d)); [|discriminate]. intros [= <- _]; eauto. }
  assert (Q : forall q p s v t, quoted q p s = Some (v, t) -> exists s' t', p s' = Some (v, t')).
  { clear. intros q p s v t. unfold quoted. destruct (lit q s) as [s1|]; [|discriminate]. destruct (p s1) as [[v' s2]|] eqn:E; [|discriminate].
    destruct (lit q s2); [|discriminate]. intros [= <- _]. eauto. }
  assert (M : forall s v t, ifevalMember al s = Some (v, t) ->
    (exists t, v = VStr t) \/ (exists z, v = VInt z) \/ (exists t, v = StringElement t) \/ (exists n, v = AttributeReference n)).
  { intros x v t. unfold ifevalMember. cbn [choice].
    destruct (quoted """" (attributeReferenceValue al) x) as [[v1 t1]|] eqn:E1.
    { intros [= -> ->]. apply Q in E1. destruct E1 as (? & ? & E1). apply A in E1. tauto. }
    destruct (quoted "'" (attributeReferenceValue al) x) as [[v2 t2]|] eqn:E2.
    { intros [= -> ->]. apply Q in E2. destruct E2 as (? & ? & E2). apply A in E2. tauto. }
    destruct (attributeReferenceValue al x) as [[v3 t3]|] eqn:E3.
    { intros [= -> ->]. apply A in E3. tauto. }
    destruct (quoted """" (word al) x) as [[v4 t4]|] eqn:E4.
    { intros [= -> ->]. apply Q in E4. destruct E4 as (? & ? & E4). apply W in E4. tauto. }
    destruct (quoted "'" (word al) x) as [[v5 t5]|] eqn:E5.
    { intros [= -> ->]. apply Q in E5. destruct E5 as (? & ? & E5). apply W in E5. tauto. }
    destruct (integer x) as [[v6 t6]|] eqn:E6; [|discriminate].
    intros [= -> ->]. apply I in E6. tauto. }
  intros v [<-|[<-|[]]]; eauto.
Qed.
Print Assumptions C10_directive.
(** <= and >= cannot be written: the rule tries < first, and does not come back *)
Lemma ifevalOperand_ops s op r : ifevalOperand s = Some (op, r) -> op <> OpLe /\ op <> OpGe.
Proof.
  unfold ifevalOperand. cbn [choice].
  destruct (lit "==" s); [intros [= <- _]; split; discriminate|].
  destruct (lit "!=" s); [intros [= <- _]; split; discriminate|].
  assert (X : lit "<=" s <> None -> lit "<" s <> None).
  { unfold lit. destruct s as [|c s]; cbn; [congruence|]. destruct (Ascii.eqb c "<"); congruence. }
  assert (Y : lit ">=" s <> None -> lit ">" s <> None).
  { unfold lit. destruct s as [|c s]; cbn; [congruence|]. destruct (Ascii.eqb c ">"); congruence. }
  destruct (lit "<" s); [intros [= <- _]; split; discriminate|].
  destruct (lit "<=" s); [exfalso; apply X; congruence|].
  destruct (lit ">" s); [intros [= <- _]; split; discriminate|].
  destruct (lit ">=" s); [exfalso; apply Y; congruence|]. discriminate.
Qed.
Theorem C10_le_ge_never_parsed_refuted :
  (forall is_alnum s l r op, ifevalRule is_alnum s = Some (Ifeval l r op) -> op <> OpLe /\ op <> OpGe) /\
  ifevalRule ascii_alnum "ifeval::[1 <= 2]" = None /\
  ifevalRule ascii_alnum "ifeval::[1 < 2]" = Some (Ifeval (VInt 1) (VInt 2) OpLt).
Proof.
  split; [|split; vm_compute; reflexivity].
  intros al s l r op. unfold ifevalRule. destruct (lit "ifeval::[" s); [|discriminate].
  destruct (ifevalMember al s0) as [[l' s2]|]; [|discriminate].
  destruct (ifevalOperand (skip_spaces s2)) as [[op' s3]|] eqn:E; [|discriminate].
  apply ifevalOperand_ops in E.
  destruct (ifevalMember al (skip_spaces s3)) as [[r' s4]|]; [|discriminate].
  destruct (lit "]" s4); [|discriminate]. destruct (skip_spaces s1); [|discriminate].
  intros [= <- <- <-]. exact E.
Qed.
Print Assumptions C10_le_ge_never_parsed_refuted.
(** so the whole region of such a directive is always shown, and its endif closes another one *)
Theorem C10_le_consequence :
  run_demo [] 1 (doc ["ifeval::[2 <= 1]"; "text"; "endif::[]"]) = res ["ifeval::[2 <= 1]"; "text"].
Proof. vm_compute. reflexivity. Qed.

(** ** C11 *)
Theorem C11_example :
  run_demo [("a.adoc", doc ["= A"; "include::b.adoc[leveloffset=+2]"; "== After"]); ("b.adoc", doc ["= B"; "text"; "== C"])] 3
    (doc ["= Root"; "include::a.adoc[leveloffset=+1]"])
  = res ["= Root"; "== A"; "==== B"; "text"; "===== C"; "=== After"].
Proof. vm_compute. reflexivity. Qed.
Theorem C11_example_hyp :
  Forall2 (shifted grammar true false [1; 2]%Z) ["= A"; "text"; "== B"] ["==== A"; "text"; "===== B"].
Proof.
  apply Forall2_cons; [|apply Forall2_cons; [|apply Forall2_cons; [|constructor]]].
  - left. exists 0%Z, "A". repeat split; try (vm_compute; reflexivity); vm_compute; congruence.
  - right. split; vm_compute; [exact I|reflexivity].
  - left. exists 1%Z, "B". repeat split; try (vm_compute; reflexivity); vm_compute; congruence.
Qed.
(** a heading with a tab after the equal signs is not moved *)
Theorem C11_tab_refuted :
  let a := ("==" ++ String (chr 9) "A")%string in
  run_demo [("a.adoc", a)] 2 (doc ["include::a.adoc[leveloffset=+1]"]) = res [a] /\
  grammar true false a = Some (RSection 1).
Proof. split; vm_compute; reflexivity. Qed.
(** an offset below the level of the heading crashes the conversion *)
Theorem C11_negative_level_refuted :
  exists m, run_demo [("a.adoc", "= A")] 2 (doc ["include::a.adoc[leveloffset=-2]"]) = RPanic m "/d".
Proof. eexists. vm_compute. reflexivity. Qed.

(** ** C12 *)
Theorem C12_example :
  lineRanges "5..-1;2..3,3" = Some [mkLR 5 (-1); mkLR 2 3; mkLR 3 3] /\
  run_demo [("a.adoc", doc ["1"; "2"; "3"; "4"; "5"; "6"])] 2 (doc ["include::a.adoc[lines=5..-1;2..3,3]"; "end"])
  = res ["2"; "3"; "5"; "6"; "end"].
Proof. split; vm_compute; reflexivity. Qed.

(** ** C13 *)
Definition tagged : string :=
  doc ["x"; "// tag::a[]"; "in a"; "// tag::b[]"; "in a and b"; "// end::b[]"; "in a again"; "// end::a[]"; "y"].
Definition with_tags (t : string) := run_demo [("t.adoc", tagged)] 2 (doc [("include::t.adoc[tags=" ++ t ++ "]")%string]).
Theorem C13_example :
  with_tags "a;!b" = res ["in a"; "in a again"] /\ with_tags "*" = res ["in a"; "in a and b"; "in a again"] /\
  with_tags "b" = res ["in a and b"] /\ with_tags "**" = res ["x"; "in a"; "in a and b"; "in a again"; "y"].
Proof. repeat split; vm_compute; reflexivity. Qed.
(** the negated double wildcard includes everything *)
Theorem C13_negated_double_wildcard_refuted :
  tagRanges ascii_alnum "!**" = Some [mkTR "**" false] /\
  with_tags "!**" = res ["x"; "in a"; "in a and b"; "in a again"; "y"].
Proof. split; vm_compute; reflexivity. Qed.

(** ** C14: an end tag without a start tag crashes the conversion *)
Theorem C14_end_without_start_refuted :
  exists m, run_demo [("t.adoc", doc ["text"; "// end::a[]"])] 2 (doc ["include::t.adoc[tags=a]"]) = RPanic m "/d".
Proof. eexists. vm_compute. reflexivity. Qed.
Theorem C14_example_hyp :
  stray_end (includedFileLine ascii_alnum) ["text"; "// end::a[]"] /\
  (exists out, readWithinTags (includedFileLine ascii_alnum) [mkTR "a" true; mkTR "b" false] (fst (scan tagged)) = Ok out) /\
  (exists m, readWithinTags (includedFileLine ascii_alnum) [mkTR "c" true] (fst (scan tagged)) = Err m).
Proof.
  split; [|split; eexists; vm_compute; reflexivity].
  exists ["text"], "// end::a[]", []. do 2 eexists. exists [], []. eexists.
  split; [reflexivity|]. split; [constructor; [vm_compute; reflexivity|constructor]|]. split; [vm_compute; reflexivity|].
  split; [vm_compute; reflexivity|]. vm_compute. tauto.
Qed.

(** ** C42: delimiters, as the tracker sees them (kind, length) *)
(** [st] are the delimiters opened and not closed (specification: [unclosed]); there always is exactly
    one such list, and "within a block" means that it is not empty *)
Theorem C42_delimiters_nest :
  forall ds : list delim,
  (exists st, unclosed None ds st) /\
  (forall st, unclosed None ds st ->
     withinDelimitedBlock (fold_left (fun t d => track t (fst d) (snd d)) ds []) = true <-> st <> []) /\
  (forall st st', unclosed None ds st -> unclosed None ds st' -> st = st').
Proof.
  intros ds. split; [apply unclosed_total|]. split.
  - intros st H. change (fold_left _ ds []) with (fold_left tstep ds []).
    rewrite (unclosed_track None ds st H [] eq_refl). cbn [app]. unfold withinDelimitedBlock.
    destruct st; cbn; split; congruence.
  - intros st st' H H'. pose proof (unclosed_track None ds st H [] eq_refl).
    pose proof (unclosed_track None ds st' H' [] eq_refl). cbn in *. congruence.
Qed.
Print Assumptions C42_delimiters_nest.
(** an opening delimiter, blocks closed in between, and the same delimiter again: back to the state
    before *)
Theorem C42_closing_restores :
  forall t d inner, top_of t <> Some d -> closed_blocks (Some d) inner ->
  fold_left (fun t d => track t (fst d) (snd d)) (d :: inner ++ [d]) t = t.
Proof.
  intros t d inner HN HC. change (fold_left tstep (d :: inner ++ [d]) t = t).
  apply (closed_track (top_of t)); [|reflexivity].
  apply (cb_block (top_of t) d inner []); auto. constructor.
Qed.
Print Assumptions C42_closing_restores.
Theorem C42_example :
  unclosed None [("example", 4%Z); ("listing", 4%Z); ("listing", 4%Z); ("quote", 4%Z)] [("example", 4%Z); ("quote", 4%Z)] /\
  closed_blocks (Some ("example", 4%Z)) [("listing", 4%Z); ("listing", 4%Z)].
Proof.
  assert (C : closed_blocks (Some ("example", 4%Z)) [("listing", 4%Z); ("listing", 4%Z)]).
  { apply (cb_block _ ("listing", 4%Z) [] []); [discriminate|constructor|constructor]. }
  split; [|exact C].
  apply (un_cons None [] ("example", 4%Z)); [constructor|discriminate|].
  apply (un_cons _ [("listing", 4%Z); ("listing", 4%Z)] ("quote", 4%Z) [] []); [exact C|discriminate|].
  constructor. constructor.
Qed.
(** but the grammar gives literal delimiters the kind of listing ones: a listing block that contains a
    line of four dots is taken for closed, and a line "== x" in it for a section *)
Theorem C42_literal_inside_listing_refuted :
  grammar true false "----" = Some (RDelim "listing" 4) /\ grammar true false "...." = Some (RDelim "listing" 4) /\
  run_demo [("a.adoc", doc ["----"; "...."; "== not a section"; "----"])] 2 (doc ["include::a.adoc[leveloffset=+1]"])
  = res ["----"; "...."; "=== not a section"; "----"] /\
  run_demo [("a.adoc", doc ["----"; "== not a section"; "----"])] 2 (doc ["include::a.adoc[leveloffset=+1]"])
  = res ["----"; "== not a section"; "----"].
Proof. repeat split; vm_compute; reflexivity. Qed.
Print Assumptions C42_literal_inside_listing_refuted.

(** ** C47 *)
Theorem C47_example :
  run_demo [] 1 (doc [":a: b"; ""; "text"; "===="; "x"; ""]) = res [":a: b"; ""; "text"; "===="; "x"] /\
  run_demo [] 1 ("a" ++ String (chr 13) LF ++ "b")%string = res ["a"; "b"].
Proof. split; vm_compute; reflexivity. Qed.
Theorem C47_example_hyp :
  let ls := [("text", true); ("", false); ("====", false)] in let ctx := mkP "root.adoc" (newContextAttributes []) [] false false in
  Forall good_line ls /\ Forall (fun l => no_directive grammar ctx (fst l)) ls /\
  written_as ls = ("text" ++ CR ++ LF ++ LF ++ "====" ++ LF)%string.
Proof.
  cbn zeta. split; [|split; [|reflexivity]].
  - repeat constructor; cbn; try (intuition congruence); try lia; intros t E; apply (f_equal (fun s => has_suffix s CR)) in E;
      vm_compute (has_suffix _ _) in E at 1; symmetry in E; apply not_true_iff_false in E; apply E; apply has_suffix_iff; eauto.
  - repeat constructor; intros []; vm_compute; exact I.
Qed.
(** the conversion of a document with a long line loses its end *)
Theorem C47_long_line_refuted :
  exists rest : string, rest <> "" /\ forall n, (65536 <= N.of_nat n)%N ->
  run_demo [] 1 ("first" ++ LF ++ srepeat "x" n ++ LF ++ rest)%string = res ["first"].
Proof.
  exists "rest". split; [discriminate|]. intros n H.
  assert (NL : ~ In (chr 10) (list_ascii_of_string (srepeat "x" n))).
  { induction n as [|k IH]; cbn; [tauto|]. intros [X|X]; [discriminate|]. revert X. clear. induction k as [|k IH]; cbn; [tauto|]. intros [X|X]; [discriminate|auto]. }
  assert (LN : (65536 <= N.of_nat (String.length (srepeat "x" n)))%N).
  { replace (String.length (srepeat "x" n)) with n; [exact H|]. clear. induction n as [|n IH]; cbn; [reflexivity|]. now rewrite <- IH. }
  unfold run_demo, res. etransitivity; [|exact (C47_long_line grammar (includedFileLine ascii_alnum) lineRanges (tagRanges ascii_alnum) demo_target
    (fun _ p => p) (fun _ => "/d") (fun _ p => p) (fun _ => true) (fun _ => true) (mget []) 0 "/d"
    (mkP "root.adoc" (newContextAttributes []) [] false false) [("first", false)] (srepeat "x" n) (LF ++ "rest")%string
    ltac:(repeat constructor; cbn; try (intuition congruence); try lia; intros t E; apply (f_equal (fun s => has_suffix s CR)) in E;
      vm_compute (has_suffix _ _) in E at 1; symmetry in E; apply not_true_iff_false in E; apply E; apply has_suffix_iff; eauto)
    ltac:(repeat constructor; intros []; vm_compute; exact I) NL LN ltac:(right; now exists "rest"))].
  reflexivity.
Qed.
Print Assumptions C47_long_line_refuted.

(** ** C48: a file that includes itself: no amount of nesting is enough *)
Theorem C48_self_inclusion_refuted :
  forall fuel, run_demo [("a.adoc", "include::a.adoc[]")] fuel "include::a.adoc[]" = RTimeout.
Proof.
  unfold run_demo.
  assert (G : forall fuel f secs w,
    preprocess grammar (includedFileLine ascii_alnum) lineRanges (tagRanges ascii_alnum) demo_target
      (fun _ p => p) (fun _ => "/d") (fun _ p => p) (fun _ => true) (fun _ => true)
      (mget [("a.adoc", "include::a.adoc[]")]) fuel "/d"
      (mkP f (newContextAttributes []) [] secs w) ("include::a.adoc[]" ++ LF) = RTimeout /\
    preprocess grammar (includedFileLine ascii_alnum) lineRanges (tagRanges ascii_alnum) demo_target
      (fun _ p => p) (fun _ => "/d") (fun _ p => p) (fun _ => true) (fun _ => true)
      (mget [("a.adoc", "include::a.adoc[]")]) fuel "/d"
      (mkP f (newContextAttributes []) [] secs w) "include::a.adoc[]" = RTimeout).
  { induction fuel as [|n IH]; intros f secs w; [split; reflexivity|].
    assert (PL : grammar secs w "include::a.adoc[]" = Some (RInclude (VStr "a.adoc") [])).
    { destruct secs, w; vm_compute; reflexivity. }
    assert (S1 : fst (scan ("include::a.adoc[]" ++ LF)) = ["include::a.adoc[]"]) by (vm_compute; reflexivity).
    assert (S2 : fst (scan "include::a.adoc[]") = ["include::a.adoc[]"]) by (vm_compute; reflexivity).
    assert (C : contentOf (includedFileLine ascii_alnum) lineRanges (tagRanges ascii_alnum)
      (fun _ p => p) (fun _ => "/d") (fun _ p => p) (fun _ => true) (fun _ => true)
      (mget [("a.adoc", "include::a.adoc[]")]) "/d" (mkP f (newContextAttributes []) [] secs w) "a.adoc" []
      = RDone (("include::a.adoc[]" ++ LF)%string, true, mkP "a.adoc" (newContextAttributes []) [] secs w) "/d").
    { vm_compute. reflexivity. }
    cbn [preprocess]. rewrite S1, S2. cbn [loop p_secs p_within]. rewrite PL. unfold includeFile.
    change (pclone (mkP f (newContextAttributes []) [] secs w)) with (mkP f (newContextAttributes []) [] secs w).
    cbn [demo_target]. rewrite C. cbn [negb p_file p_attrs p_offs p_within].
    destruct (IH "a.adoc" true w) as [E _]. rewrite E. split; reflexivity. }
  intros fuel. apply G.
Qed.
Print Assumptions C48_self_inclusion_refuted.
(** the hypotheses of the termination theorem are met by the files of C11_example *)
Theorem C48_example_hyp :
  let files := [("a.adoc", doc ["= A"; "include::b.adoc[leveloffset=+2]"]); ("b.adoc", doc ["= B"; "text"])] in
  (forall f, mget files f <> None -> In f ["a.adoc"; "b.adoc"]) /\
  acyclic grammar demo_target (fun _ p => p) (fun _ => "/d") (fun _ p => p) (mget files) "/d".
Proof.
  intros files. split.
  - intros f H. unfold files in H. cbn [mget] in H.
    destruct (String.eqb_spec f "a.adoc") as [E|]; [left; congruence|].
    destruct (String.eqb_spec f "b.adoc") as [E|]; [right; left; congruence|congruence].
  - assert (I : forall f g, includes grammar demo_target (fun _ p => p) (fun _ => "/d") (fun _ p => p) (mget files) "/d" f g ->
        f = "a.adoc" /\ g = "b.adoc").
    { intros f g (content & l0 & l & secs & w & path & attrs & a & p & RF & HL & HE & PL & TG & ->).
      unfold files in RF. cbn [mget] in RF.
      destruct (String.eqb_spec f "a.adoc") as [EF|].
      - injection RF as <-. vm_compute in HL.
        destruct HL as [<-|[<-|[]]]; vm_compute in HE; destruct HE as [->| ->];
          destruct secs, w; vm_compute in PL; try discriminate; injection PL as <- <-; cbn in TG; injection TG as <-; auto.
      - destruct (String.eqb_spec f "b.adoc") as [EF|]; [|discriminate].
        injection RF as <-. vm_compute in HL.
        destruct HL as [<-|[<-|[]]]; vm_compute in HE; destruct HE as [->| ->];
          destruct secs, w; vm_compute in PL; discriminate. }
    intros f g H R. apply I in H. destruct H as [EF EG].
    apply Operators_Properties.clos_rt_rt1n in R. destruct R as [|z t H _]; [congruence|].
    apply I in H. destruct H. congruence.
Qed.
