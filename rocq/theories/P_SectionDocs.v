(** C71: what a document with sections becomes. *)
From Coq Require Import List String NArith ZArith Bool Lia.
From Verif Require Import GoBase GoLemmas Utf8 Utf8Lemmas Types Attrs Context Elements Merge Subs Refs Footnotes Filter Lists Aggregate Toc Config
  Validator RenderAttrs Templates SectNum TocRender TocLemmas SecSpec Render ApplySubs Convert.
From Verif Require Import Ids IdsSpec P_Ids P_TocLinks Peg PegGrammar PegDoc PegHost PegSym PegBlockSpec PegInlineSpec ConvertSpec P_ListHtml SectionDocSpec P_PegRun P_PegBlocks P_PegPara P_PegDocs P_PegNested P_PegInline P_PegNormal P_PegSections
  SectionText P_Convert CtxLemmas.
From Verif Require Tmpl Escape P_PegParse.
Import ListNotations.
Local Open Scope string_scope.
Local Open Scope list_scope.

(** * The tree of the sections *)
Inductive node := NText (w : val) | NHead (level : nat) (id : string) (t : list rune).
Definition section_val (l : nat) (id : string) (t : list rune) (els : list val) : val :=
  Section (Z.of_nat l) [(AttrID, Types.VStr id)] (Some [StringElement (encode_runes t)]) els.
Definition open_section (l : nat) (id : string) (t : list rune) (els : list val) : osec :=
  mkOsec (Z.of_nat l) [(AttrID, Types.VStr id)] (Some [StringElement (encode_runes t)]) els.
Inductive tree : nat -> list node -> list val -> Prop :=
| tree_nil : forall k, tree k [] []
| tree_text : forall k w ns vs, tree k ns vs -> tree k (NText w :: ns) (w :: vs)
| tree_sec : forall k l id t ns1 ns2 vs1 vs2, k < l -> tree l ns1 vs1 -> tree k ns2 vs2 ->
    match ns2 with [] => True | NHead l' _ _ :: _ => l' <= l | _ => False end ->
    tree k (NHead l id t :: ns1 ++ ns2) (section_val l id t vs1 :: vs2).
Definition step (a : aggregator) (n : node) : aggregator :=
  match n with NText w => ag_add a [w] | NHead l id t => appendSection a (open_section l id t []) end.
Definition below (k : nat) (a : aggregator) : Prop := Forall (fun o => (os_level o <= Z.of_nat k)%Z) (ag_open a).
Lemma index_none : forall os l i, Forall (fun o => (os_level o < l)%Z) os -> indexOfParent os l i = None.
Proof. intros os l i F. revert i. induction F as [|o os L F IH]; intros i; [reflexivity|]. cbn [indexOfParent]. destruct (Z.leb_spec l (os_level o)); [lia|]. apply IH. Qed.
Lemma index_some : forall os o os' l i, Forall (fun o => (os_level o < l)%Z) os -> (l <= os_level o)%Z -> indexOfParent (os ++ o :: os') l i = Some (i + List.length os)%nat.
Proof.
  intros os o os' l i F Lo. revert i. induction F as [|x os L F IH]; intros i; cbn [app indexOfParent List.length].
  - destruct (Z.leb_spec l (os_level o)); [|lia]. f_equal. lia.
  - destruct (Z.leb_spec l (os_level x)); [lia|]. rewrite IH. f_equal. lia.
Qed.
Lemma add_last_snoc : forall os o els, add_last (os ++ [o]) els = os ++ [os_add o els].
Proof. induction os as [|x os IH]; intros o els; [reflexivity|]. cbn [app add_last]. rewrite IH. destruct (os ++ [o]) eqn:Q; [destruct os; discriminate Q|]. reflexivity. Qed.
Lemma ag_add_snoc : forall r os o els, ag_add (mkAgg r (os ++ [o])) els = mkAgg r (os ++ [os_add o els]).
Proof. intros r os o els. unfold ag_add. cbn [ag_open ag_root]. rewrite <- (add_last_snoc os o els). destruct (os ++ [o]) eqn:Q; [destruct os; discriminate Q|]. reflexivity. Qed.
Lemma ag_cases : forall a : aggregator, (exists r, a = mkAgg r []) \/ exists r os o, a = mkAgg r (os ++ [o]).
Proof. intros [r os]. destruct os as [|o os _] using rev_ind; [left; now exists r|right; now exists r, os, o]. Qed.
Lemma ag_add_nil : forall a, ag_add a [] = a.
Proof.
  intros a. destruct (ag_cases a) as [(r & ->)|(r & os & o & ->)]; [unfold ag_add; cbn [ag_open ag_root]; now rewrite app_nil_r|].
  rewrite ag_add_snoc. unfold os_add. rewrite app_nil_r. now destruct o.
Qed.
Lemma ag_add_app : forall a x y, ag_add (ag_add a x) y = ag_add a (x ++ y).
Proof.
  intros a x y. destruct (ag_cases a) as [(r & ->)|(r & os & o & ->)]; [unfold ag_add; cbn [ag_open ag_root]; now rewrite app_assoc|].
  rewrite !ag_add_snoc. unfold os_add. cbn. now rewrite app_assoc.
Qed.
Lemma ag_add_levels : forall a x, map os_level (ag_open (ag_add a x)) = map os_level (ag_open a).
Proof.
  intros a x. destruct (ag_cases a) as [(r & ->)|(r & os & o & ->)]; [reflexivity|]. rewrite ag_add_snoc. cbn [ag_open]. now rewrite !map_app.
Qed.
Lemma below_add : forall k a x, below k a -> below k (ag_add a x).
Proof.
  intros k a x B. unfold below in *. assert (forall os, Forall (fun o => (os_level o <= Z.of_nat k)%Z) os <-> Forall (fun z => (z <= Z.of_nat k)%Z) (map os_level os)) as A by (intros os; rewrite Forall_map; reflexivity).
  rewrite A in *. now rewrite ag_add_levels.
Qed.
Definition opened (a : aggregator) (os : list osec) : aggregator := mkAgg (ag_root a) (ag_open a ++ os).
Lemma append_fresh : forall k a l id t, below k a -> k < l -> appendSection a (open_section l id t []) = opened a [open_section l id t []].
Proof.
  intros k a l id t B L. unfold appendSection. cbn [os_level open_section]. rewrite index_none; [reflexivity|]. eapply Forall_impl; [|exact B]. cbn. intros o Lo. lia.
Qed.
Lemma append_closes : forall k a o os l id t, below k a -> k < l -> (Z.of_nat l <= os_level o)%Z ->
  appendSection (opened a (o :: os)) (open_section l id t []) = appendSection (ag_add a (nest (o :: os))) (open_section l id t []).
Proof.
  intros k a o os l id t B L Lo. rewrite (append_fresh k (ag_add a (nest (o :: os)))); [|now apply below_add|exact L]. unfold appendSection at 1. cbn [os_level open_section opened ag_open ag_root].
  rewrite index_some; [|eapply Forall_impl; [|exact B]; cbn; intros x Lx; lia|exact Lo].
  rewrite Nat.add_0_l, firstn_app, skipn_app, firstn_all, skipn_all, Nat.sub_diag. cbn [firstn skipn app]. rewrite app_nil_r. unfold opened. now destruct a.
Qed.
Lemma tree_built : forall k ns vs, tree k ns vs -> forall a, below k a ->
  exists vs1 os, fold_left step ns a = opened (ag_add a vs1) os /\ vs = vs1 ++ nest os.
Proof.
  induction 1 as [k|k w ns vs T IH|k l id t ns1 ns2 vs1 vs2 L T1 IH1 T2 IH2 St]; intros a B.
  - exists [], []. split; [|reflexivity]. cbn [fold_left]. rewrite ag_add_nil. unfold opened. rewrite app_nil_r. now destruct a.
  - cbn [fold_left step]. destruct (IH (ag_add a [w]) (below_add _ _ _ B)) as (vs1 & os & -> & ->). exists (w :: vs1), os. rewrite ag_add_app. split; reflexivity.
  - cbn [fold_left step]. rewrite (append_fresh k) by assumption. rewrite fold_left_app.
    destruct (IH1 (opened a [open_section l id t []])) as (vs11 & os & -> & ->).
    { unfold below, opened. cbn [ag_open]. apply Forall_app. split; [eapply Forall_impl; [|exact B]; cbn; intros x Lx; lia|]. constructor; [cbn; lia|constructor]. }
    assert (opened (ag_add (opened a [open_section l id t []]) vs11) os = opened a (open_section l id t vs11 :: os)) as ->.
    { unfold opened, ag_add. cbn [ag_open ag_root]. destruct (ag_open a ++ [open_section l id t []]) eqn:Q; [destruct (ag_open a); discriminate Q|]. rewrite <- Q, add_last_snoc. cbn [ag_root ag_open]. rewrite <- app_assoc. reflexivity. }
    destruct ns2 as [|[|l' id' t'] ns2]; [|destruct St|].
    + inversion T2; subst. cbn [fold_left]. exists [], (open_section l id t vs11 :: os). rewrite ag_add_nil. split; [|reflexivity]. unfold opened. reflexivity.
    + assert (k < l') as L' by (inversion T2; assumption).
      destruct (IH2 (ag_add a (nest (open_section l id t vs11 :: os))) (below_add _ _ _ B)) as (vs12 & os2 & Q & ->).
      cbn [fold_left step] in Q |- *. rewrite (append_closes k) by (assumption || cbn; lia). rewrite Q. exists (section_val l id t (vs11 ++ nest os) :: vs12), os2. rewrite ag_add_app. split; reflexivity.
Qed.
Lemma tree_document : forall ns vs, tree 0 ns vs -> agDoc (fold_left step ns (mkAgg [] [])) = vs.
Proof.
  intros ns vs T. destruct (tree_built 0 ns vs T (mkAgg [] [])) as (vs1 & os & -> & ->); [constructor|]. reflexivity.
Qed.

(** * Nothing else in the tree *)
Definition good (w : val) : Prop := exists v, settled v w /\ visible v = true.
Definition good_node (n : node) : Prop := match n with NText w => good w | _ => True end.
Section Quiet.
Variables (isl isn : N -> bool) (fmtv : val -> string).
Lemma resolve_tree d : (forall b h, lblock item_para b h -> resolveCrossReferences isl isn fmtv d b = b) /\
  (forall m items h, litems item_para m items h -> proper m -> map (resolveCrossReferences isl isn fmtv d) items = items) /\
  (forall l h, linside item_para l h -> map (resolveCrossReferences isl isn fmtv d) l = l).
Proof.
  assert (forall l, Forall simple l -> map (resolveCrossReferences isl isn fmtv d) l = l) as A.
  { intros l F. induction F as [|v l Sv F IH]; [reflexivity|]. cbn [map]. rewrite IH. f_equal. simply Sv; reflexivity. }
  apply ltree_ind; try reflexivity.
  - intros m items h Pm _ _ IH. cbn [resolveCrossReferences]. now rewrite IH.
  - intros m l p rest r items h Pa _ In_ _ It Pm. cbn [map]. rewrite (It Pm). f_equal. pose proof (A l (item_para_simple l p Pa)) as Al.
    destruct m; destruct Pm; cbn [item_of resolveCrossReferences map]; now rewrite Al, In_.
  - intros b h l r _ Bv _ Lv. cbn [map]. now rewrite Bv, Lv.
Qed.
Lemma resolve_both : (forall v w, settled v w -> forall d, resolveCrossReferences isl isn fmtv d w = w) /\ (forall l l', settled_all l l' -> forall d, map (resolveCrossReferences isl isn fmtv d) l' = l').
Proof.
  assert (forall d l, Forall simple l -> map (resolveCrossReferences isl isn fmtv d) l = l) as A.
  { intros d l F. induction F as [|v l Sv F IH]; [reflexivity|]. cbn [map]. rewrite IH. f_equal. simply Sv; reflexivity. }
  apply settled_both; try reflexivity.
  - intros k a l _ F d. cbn [resolveCrossReferences]. now rewrite A.
  - intros a l _ F d. cbn [resolveCrossReferences]. now rewrite A.
  - intros k l l' _ IH d. cbn [resolveCrossReferences]. now rewrite IH.
  - intros items b h _ _ B d. exact (proj1 (resolve_tree d) b h B).
  - intros v w l l' _ Iv _ _ IH d. cbn [map]. now rewrite Iv, IH.
  - intros v w l l' _ _ _ _ IH d. apply IH.
Qed.
Lemma tree_resolved : forall k ns vs, tree k ns vs -> Forall good_node ns -> forall d, map (resolveCrossReferences isl isn fmtv d) vs = vs.
Proof.
  induction 1 as [k|k w ns vs T IH|k l id t ns1 ns2 vs1 vs2 L T1 IH1 T2 IH2 St]; intros F d; [reflexivity| |].
  - inversion F as [|? ? Gw F']; subst. destruct Gw as (v & Sv & _). cbn [map]. rewrite (proj1 resolve_both v w Sv). f_equal. now apply IH.
  - inversion F as [|? ? _ F']; subst. apply Forall_app in F'. destruct F' as [F1 F2]. cbn [map section_val resolveCrossReferences]. unfold section_val. cbn [resolveCrossReferences]. rewrite IH1, IH2 by assumption. reflexivity.
Qed.
End Quiet.
Lemma traverse_tree : forall k ns vs, tree k ns vs -> Forall good_node ns -> Forall (fun x => forall p c, traverse x false p c = ([], false, c)) vs.
Proof.
  induction 1 as [k|k w ns vs T IH|k l id t ns1 ns2 vs1 vs2 L T1 IH1 T2 IH2 St]; intros F; [constructor| |].
  - inversion F as [|? ? Gw F']; subst. destruct Gw as (v & Sv & _). constructor; [|now apply IH]. intros p c. destruct Sv as [| | | |items b h _ _ B| |]; [| | | |destruct B| |]; reflexivity.
  - inversion F as [|? ? _ F']; subst. apply Forall_app in F'. destruct F' as [F1 F2]. constructor; [|now apply IH2]. intros p c. unfold section_val. cbn [traverse].
    specialize (IH1 F1). match goal with |- (let '(m, en') := ?f vs1 false 0%N in _) = _ => assert (forall c, f vs1 false c = ([], false)) as B end.
    { clear - IH1. induction IH1 as [|x vs X _ IH]; intros c; [reflexivity|]. rewrite X. rewrite IH. reflexivity. }
    rewrite B. reflexivity.
Qed.
Lemma tree_numbers : forall ns vs, tree 0 ns vs -> Forall good_node ns -> docHeader vs = None -> sectionNumbers vs = [].
Proof.
  intros ns vs T F D. unfold sectionNumbers. rewrite D. unfold traverseElements. pose proof (traverse_tree _ _ _ T F) as A.
  assert (forall c, traverse_list vs false "" c = ([], false)) as B.
  { clear - A. induction A as [|x vs X _ IH]; intros c; [reflexivity|]. cbn [traverse_list]. rewrite X, IH. reflexivity. }
  now rewrite B.
Qed.
Lemma tree_elements : forall k ns vs, tree k ns vs -> Forall good_node ns -> Forall (fun x => good x \/ exists l id t els, x = section_val l id t els) vs.
Proof.
  induction 1 as [k|k w ns vs T IH|k l id t ns1 ns2 vs1 vs2 L T1 IH1 T2 IH2 St]; intros F; [constructor| |].
  - inversion F as [|? ? Gw F']; subst. constructor; [now left|now apply IH].
  - inversion F as [|? ? _ F']; subst. apply Forall_app in F'. destruct F' as [F1 F2]. constructor; [|now apply IH2]. right. eauto.
Qed.
Lemma tree_header : forall ns vs, tree 0 ns vs -> Forall good_node ns -> docHeader vs = None /\ bodyElements vs = vs /\ forall a, leadingDecls vs a = a.
Proof.
  intros ns vs T F. pose proof (tree_elements _ _ _ T F) as A. clear T F. split; [|split].
  - unfold docHeader. inversion A as [|x l [(v & Sv & Vi)|(lv & id & t & els & ->)] A']; subst; [reflexivity| |reflexivity]. destruct Sv as [| | | |items b h _ _ B| |]; [discriminate Vi| | | |destruct B|discriminate Vi|]; reflexivity.
  - induction A as [|x l Ax A IH]; [reflexivity|]. destruct Ax as [(v & Sv & Vi)|(lv & id & t & els & ->)]; [|cbn; now rewrite IH]. destruct Sv as [| | | |items b h _ _ B| |]; [| | | |destruct B| |]; cbn [bodyElements]; now rewrite IH.
  - intros a. inversion A as [|x l [(v & Sv & Vi)|(lv & id & t & els & ->)] A']; subst; [reflexivity| |reflexivity]. destruct Sv as [| | | |items b h _ _ B| |]; [discriminate Vi| | | |destruct B|discriminate Vi|]; reflexivity.
Qed.

(** * Entries and nodes *)
Inductive noded (E0 : renv) : list entry -> list node -> Prop :=
| nd_nil : noded E0 [] []
| nd_keep : forall h w es ns, good w -> rendered E0 w h -> h <> ""%string -> noded E0 es ns -> noded E0 (Text h :: es) (NText w :: ns)
| nd_drop : forall es ns, noded E0 es ns -> noded E0 (Text "" :: es) ns
| nd_head : forall l id t es ns, html_plain id = true -> title t -> noded E0 es ns -> noded E0 (Head l id t :: es) (NHead l id t :: ns).
Lemma noded_app : forall E0 es1 es2 ns, noded E0 (es1 ++ es2) ns -> exists ns1 ns2, ns = ns1 ++ ns2 /\ noded E0 es1 ns1 /\ noded E0 es2 ns2.
Proof.
  intros E0. induction es1 as [|e es1 IH]; intros es2 ns N; [exists [], ns; repeat split; [constructor|exact N]|].
  cbn [app] in N. inversion N as [|h w es ns' G R Nh N'|es ns' N'|l id t es ns' P Ti N']; subst; destruct (IH _ _ N') as (ns1 & ns2 & -> & A & B).
  - exists (NText w :: ns1), ns2. repeat split; [now constructor|exact B].
  - exists ns1, ns2. repeat split; [now constructor|exact B].
  - exists (NHead l id t :: ns1), ns2. repeat split; [now constructor|exact B].
Qed.
Lemma noded_good : forall E0 es ns, noded E0 es ns -> Forall good_node ns.
Proof. induction 1; auto; constructor; auto; exact Logic.I. Qed.

(** * The HTML of a section *)
Definition srendered (E0 : renv) (vs : list val) (h : string) : Prop :=
  exists d0, forall k, d0 <= k -> forall E st, alike E0 E -> e_numbers E = [] -> quiet st ->
  exists st', renderElements (renderElement E k) vs st = Ok (h, st') /\ same st st'.
Lemma section_rendered : forall E0 l id t vs h, html_plain id = true -> title t -> srendered E0 vs h -> srendered E0 [section_val l id t vs] (section_html (e_toLower E0) l id t h).
Proof.
  intros E0 l id t vs h Pi Ti (d0 & R). exists (S (S d0)). intros k L E st Lo Nu Q. destruct k as [|[|k]]; [lia|lia|].
  pose proof (quiet_unicode st Q) as U. destruct (R (S k) ltac:(lia) E st Lo Nu Q) as (st1 & R1 & S1). exists st1. split; [|exact S1].
  cbn [renderElements]. unfold bindM at 1. set (d := S k) in *. cbn [renderElement section_val]. unfold section_val. cbn [renderElementWith]. unfold renderSection, renderSectionTitle.
  cbn [renderInlineElements]. unfold bindM, ret. subst d. rewrite string_ok by exact U.
  destruct (title_trim t 0 Ti) as [Tr _]. rewrite app_nil_r in Tr. rewrite Tr, GoLemmas.sapp_nil_r. rewrite title_trimSpace by exact Ti.
  unfold renderElementID, AttrID. cbn [mget String.eqb Ascii.eqb Bool.eqb]. rewrite html_plain_escape by exact Pi. rewrite Nu. cbn [mget optS].
  erewrite exec_ok; [|unfold template; destruct (e_xhtml E); vm_compute; reflexivity|cbn; reflexivity].
  rewrite R1. cbn [renderElementRoles mget String.eqb Ascii.eqb Bool.eqb]. unfold ret.
  assert (Z.eqb (Z.of_nat l) 1 = Nat.eqb l 1) as Q1 by (destruct (Z.eqb_spec (Z.of_nat l) 1), (Nat.eqb_spec l 1); (reflexivity || lia)).
  erewrite exec_ok; [|unfold template; destruct (e_xhtml E); vm_compute; reflexivity|cbn; rewrite Q1; instantiate (1 := section_html (e_toLower E0) l id t h)]; [now rewrite GoLemmas.sapp_nil_r|].
  unfold section_html, heading_html. rewrite (proj2 Lo). replace (Z.of_nat l + 1)%Z with (Z.of_nat (S l)) by lia.
  destruct (Nat.eqb l 1); cbn [bind append]; f_equal; repeat (rewrite ?GoLemmas.sapp_assoc; cbn [append]; try reflexivity; f_equal).
Qed.
Lemma srendered_nil : forall E0, srendered E0 [] "".
Proof. intros E0. exists 0. intros k _ E st _ _ _. exists st. split; [reflexivity|apply same_refl]. Qed.
Lemma srendered_app : forall E0 vs1 vs2 h1 h2, srendered E0 vs1 h1 -> srendered E0 vs2 h2 -> srendered E0 (vs1 ++ vs2) (h1 ++ h2).
Proof.
  intros E0 vs1 vs2 h1 h2 (d1 & R1) (d2 & R2). exists (d1 + d2). intros k L E st Lo Nu Q.
  destruct (R1 k ltac:(lia) E st Lo Nu Q) as (st1 & Q1 & S1). destruct (R2 k ltac:(lia) E st1 Lo Nu (same_quiet _ _ S1 Q)) as (st2 & Q2 & S2).
  exists st2. split; [|eapply same_trans; eauto]. clear - Q1 Q2. revert st h1 Q1. induction vs1 as [|v vs1 IH]; intros st h1 Q1.
  - cbn in Q1. injection Q1 as <- <-. exact Q2.
  - cbn [renderElements app] in *. unfold bindM in *. destruct (renderElement E k v st) as [[x sx]| |]; [|discriminate Q1..].
    destruct (renderElements (renderElement E k) vs1 sx) as [[y sy]| |] eqn:Ey; [|discriminate Q1..]. unfold ret in *. injection Q1 as <- <-.
    rewrite (IH _ _ Ey). now rewrite GoLemmas.sapp_assoc.
Qed.
Lemma nested_tree : forall E0 k es h, nested (e_toLower E0) k es h -> forall ns, noded E0 es ns -> exists vs, tree k ns vs /\ srendered E0 vs h.
Proof.
  induction 1 as [k|k x es s Ne IH|k l id t es1 es2 s1 s2 L N1 IH1 N2 IH2 St]; intros ns N.
  - inversion N; subst. exists []. split; [constructor|apply srendered_nil].
  - inversion N as [|h w es' ns' G R Nh N'|es' ns' N'|]; subst.
    + destruct (IH _ N') as (vs & T & Rn). exists (w :: vs). split; [now constructor|]. change (w :: vs) with ([w] ++ vs). apply srendered_app; [|exact Rn].
      destruct R as (d0 & R). exists d0. intros d Ld E st Al _ Q. destruct (R d Ld E st Al Q) as (st' & Q1 & S1). exists st'. split; [|exact S1].
      cbn [renderElements]. unfold bindM. rewrite Q1. unfold ret. now rewrite GoLemmas.sapp_nil_r.
    + apply IH, N'.
  - inversion N as [| | |l' id' t' es' ns' P Ti N']; subst. apply noded_app in N'. destruct N' as (ns1 & ns2 & -> & A & B).
    destruct (IH1 _ A) as (vs1 & T1 & R1). destruct (IH2 _ B) as (vs2 & T2 & R2). exists (section_val l id t vs1 :: vs2). split.
    + constructor; auto. destruct es2 as [|[|l' id' t'] es2]; [|destruct St|]; inversion B; subst; [exact Logic.I|exact St].
    + change (section_val l id t vs1 :: vs2) with ([section_val l id t vs1] ++ vs2). apply srendered_app; [now apply section_rendered|exact R2].
Qed.

(** * The identifiers *)
Section Aggregation.
Variables (isl isn : N -> bool) (fmtv : val -> string) (c : ctxattrs).
Hypothesis ascii_word : forall r, (r < 128)%N -> isl r || isn r = true -> (48 <= r <= 57)%N \/ (65 <= r <= 90)%N \/ (97 <= r <= 122)%N.
Hypothesis no_prefix : mget (callAttributes c) AttrIDPrefix = None.
Hypothesis no_separator : mget (callAttributes c) AttrIDSeparator = None.
Definition known (refs : gomap val) (t : toc) (used : list string) : Prop :=
  (forall x, mhas refs x = true <-> In x used) /\ (forall x v, mget refs x = Some v -> exists s, v = VSlice [StringElement s]) /\
  (forall x, In x (map fst (forest_entries (toc_sections t))) -> In x used).
Inductive agg_flow : list string -> list (list val) -> list node -> Prop :=
| af_nil : forall used, agg_flow used [] []
| af_keep : forall used v w fs ns, settled v w -> visible v = true -> agg_flow used fs ns -> agg_flow used ([w] :: fs) (NText w :: ns)
| af_drop : forall used fs ns, agg_flow used fs ns -> agg_flow used ([] :: fs) ns
| af_head : forall used l id t fs ns, fresh used (base_id isl isn t) id -> title t -> agg_flow (id :: used) fs ns ->
    agg_flow used ([Section (Z.of_nat l) [] (Some [StringElement (encode_runes t)]) []] :: fs) (NHead l id t :: ns).
Lemma title_base : forall t, title t -> baseID isl isn fmtv (callAttributes c) [] (Some [StringElement (encode_runes t)]) = base_id isl isn t.
Proof.
  intros t (Ch & Ne & Fs & _). unfold baseID, getAsStringD. cbn [mget String.eqb negb]. rewrite no_prefix, no_separator. unfold DefaultIDPrefix, DefaultIDSeparator.
  rewrite C30_plain_title.
  - unfold base_id. assert (trim_left_char " " (encode_runes t) = encode_runes t) as ->; [|now rewrite runes_encode_all].
    destruct t as [|r t]; [congruence|]. cbn [next_is] in Fs. unfold encode_runes. cbn [map sconcat fold_right].
    destruct (N.ltb_spec r 128) as [L|L].
    + rewrite (IdsAlpha.encode_ascii r L). cbn [append trim_left_char]. destruct (Ascii.eqb_spec (chr r) " ") as [Q|_]; [|reflexivity].
      exfalso. assert (r = 32%N) by (rewrite <- (N_chr r) by lia; rewrite Q; reflexivity). subst r. discriminate Fs.
    + pose proof (proj1 (IdsAlpha.encode_high r L)) as Hi. destruct (encode_shape r) as (d & s & Q & _). rewrite Q in *. cbn [append trim_left_char].
      destruct (Ascii.eqb_spec d " ") as [->|_]; [|reflexivity]. destruct Hi as [Hi _]. vm_compute in Hi. exfalso. apply Hi. reflexivity.
  - right. exists "_"%char. split; reflexivity.
  - intros r I. assert (r = 95%N) as -> by (vm_compute in I; destruct I as [<-|[]]; reflexivity).
    apply orb_false_iff. destruct (isl 95 || isn 95)%N eqn:Q; [|reflexivity]. apply ascii_word in Q; lia.
Qed.
Lemma agg_flow_ok : forall used fs ns, agg_flow used fs ns -> forall refs t a, known refs t used ->
  exists refs' t' used', aggFragments isl isn fmtv (mkAS c refs t a) (map (fun l => toFrag (inl l)) fs) = Some (mkAS c refs' t' (fold_left step ns a)) /\ known refs' t' used'.
Proof.
  induction 1 as [used|used v w fs ns Sv Vi F IH|used fs ns F IH|used l id tt fs ns Fr Ti F IH]; intros refs t a K.
  - exists refs, t, used. split; [reflexivity|exact K].
  - cbn [map toFrag aggFragments aggElements fold_left step].
    assert (aggElement isl isn fmtv (mkAS c refs t a) w = Some (mkAS c refs t (ag_add a [w]))) as ->.
    { pose proof (proj1 (reference_both fmtv) v w Sv refs) as Er. destruct Sv as [| | | |items b h _ _ B| |]; [| | | |destruct B| |]; unfold aggElement; cbn [as_refs as_tree as_ctx as_toc]; rewrite Er; reflexivity. }
    now apply IH.
  - cbn [map toFrag aggFragments aggElements]. now apply IH.
  - cbn [map toFrag aggFragments aggElements fold_left step]. unfold aggElement at 1. cbn [as_refs as_tree as_ctx as_toc sectionResolveID].
    rewrite title_base by exact Ti. destruct K as (K1 & K2 & K3). rewrite (fresh_resolve refs used _ id K1 Fr).
    destruct (fresh_plain isl isn ascii_word used tt id Fr) as [_ Ni].
    assert (reference fmtv (Section (Z.of_nat l) (mset [] AttrID (Types.VStr id)) (Some [StringElement (encode_runes tt)]) []) refs = mset refs id (VSlice [StringElement (encode_runes tt)])) as ->.
    { cbn [reference sectionReference mset]. unfold getAsStringD. cbn [mget]. rewrite String.eqb_refl. destruct (String.eqb_spec id ""); [congruence|reflexivity]. }
    change (agAppend a (Section (Z.of_nat l) (mset [] AttrID (Types.VStr id)) (Some [StringElement (encode_runes tt)]) [])) with (appendSection a (open_section l id tt [])).
    apply IH. split; [|split].
    + intros x. unfold mhas. destruct (String.eqb_spec x id) as [->|Nx]; [rewrite mget_mset_eq; split; [now left|reflexivity]|].
      rewrite mget_mset_neq by auto. unfold mhas in K1. rewrite K1. split; [now right|intros [<-|I]; [congruence|exact I]].
    + intros x v G. destruct (String.eqb_spec x id) as [->|Nx]; [rewrite mget_mset_eq in G; injection G as <-; eauto|rewrite mget_mset_neq in G by auto; eauto].
    + intros x I. rewrite tocAdd_entries, map_app, in_app_iff in I. destruct I as [I|I]; [right; now apply K3|].
      cbn [sectionTocID mset] in I. unfold getAsStringD in I. cbn [mget] in I. rewrite String.eqb_refl in I. destruct (_ <=? _)%Z; [|destruct I]. destruct I as [<-|[]]. now left.
Qed.
Lemma bind_ok : forall A B (m : M A) (f : A -> M B) st x st', m st = Ok (x, st') -> bindM m f st = f x st'.
Proof. intros A B m f st x st' Q. unfold bindM. now rewrite Q. Qed.
(** the table of contents is prepared, even if it is not shown *)
Lemma prerender_ok : forall refs t used E k st, known refs t used -> e_refs E = refs -> unicode_on st -> exists ts, prerenderEntries E (renderElement E (S k)) (toc_sections t) st = Ok (ts, st).
Proof.
  intros refs t used E k st (K1 & K2 & K3) Er Un. set (rec := renderElement E (S k)).
  assert (forall x, (forall y, In y (map fst (toc_entries x)) -> In y used) -> exists r, prerenderEntry E rec x st = Ok (r, st)) as A.
  { intros x. induction x as [id lvl sub IH] using tocsec_ind'. intros I. cbn [prerenderEntry toc_entries map] in *.
    match goal with |- exists r, bindM (?f sub) _ st = _ => assert (exists rs, f sub st = Ok (rs, st)) as (rs & Q) end.
    { assert (forall y, In y (map fst (flat_map toc_entries sub)) -> In y used) as I' by (intros y J; apply I; right; exact J).
      clear I. induction IH as [|x sub Hx F IHs]; [exists []; reflexivity|].
      cbn [flat_map] in I'. destruct (Hx ltac:(intros y J; apply I'; rewrite map_app; apply in_or_app; now left)) as (r & Q1).
      destruct (IHs ltac:(intros y J; apply I'; rewrite map_app; apply in_or_app; now right)) as (rs & Q2).
      exists (r :: rs). refine (eq_trans (bind_ok _ _ _ _ _ _ _ Q1) _). refine (eq_trans (bind_ok _ _ _ _ _ _ _ Q2) _). reflexivity. }
    rewrite (bind_ok _ _ _ _ _ _ _ Q). rewrite Er. specialize (I id (or_introl eq_refl)). apply K1 in I. unfold mhas in I. destruct (mget refs id) as [v|] eqn:G; [|discriminate I].
    destruct (K2 _ _ G) as (s & ->). unfold rec. erewrite bind_ok by (apply string_elements_ok; exact Un). eexists. reflexivity. }
  assert (forall l, (forall y, In y (map fst (forest_entries l)) -> In y used) -> exists rs, prerenderEntries E rec l st = Ok (rs, st)) as B; [|now apply B].
  induction l as [|x l IH]; intros I; [exists []; reflexivity|]. unfold forest_entries in I. cbn [flat_map] in I. rewrite map_app in I.
  destruct (A x ltac:(intros y J; apply I; apply in_or_app; now left)) as (r & Q1). destruct IH as (rs & Q2); [intros y J; apply I; apply in_or_app; now right|].
  exists (r :: rs). cbn [prerenderEntries]. unfold bindM, ret. rewrite Q1, Q2. reflexivity.
Qed.
End Aggregation.

(** * The stages *)
Section SectionStages.
Variable X : Type.
Variable cls : string -> Peg.rune -> bool.
Variable low : Peg.rune -> Peg.rune.
Variable white : Peg.rune -> bool.
Variable other : string -> Peg.labels (PegHost.hv X) -> Peg.soft PegHost.gstore (option (list string)) -> option (Peg.value (PegHost.hv X) * bool).
Notation H := (PegHost.go_host X cls low white other).
Hypothesis U : unicode_ok H.
Variable E : renv.
Variable setColumns : val -> list val -> result val.
Variable user : list string.
Notation refined := (refined X cls low white other user).
Notation substituted := (substituted X cls low white other E setColumns user).
Lemma ascii_words : forall r, (r < 128)%N -> cls "L" r || cls "N" r = true -> (48 <= r <= 57)%N \/ (65 <= r <= 90)%N \/ (97 <= r <= 122)%N.
Proof.
  intros r L Q. change (alnum cls r = true) in Q. rewrite (ascii_alnum X cls low white other U r L) in Q. unfold ascii_letter, ascii_digit in Q.
  repeat (apply orb_true_iff in Q; destruct Q as [Q|Q]); apply andb_true_iff in Q; destruct Q as [Q1 Q2]; apply N.leb_le in Q1, Q2; lia.
Qed.
Definition head_val (l : nat) (t : list rune) : val := Section (Z.of_nat l) [] (Some [StringElement (encode_runes t)]) [].
Lemma head_refined : forall l t, refined (head_val l t) (head_val l t).
Proof. intros l t. now apply refined_same. Qed.
Lemma head_substituted : forall l t, title t -> substituted (head_val l t) (head_val l t).
Proof.
  intros l t Ti a. exists 0. intros n _ f nested _. cbn [applyElement head_val]. unfold head_val. cbn [applyElement].
  unfold applyElementWith. rewrite attributes_ok by constructor. cbn [bind]. unfold titleRefs.
  destruct (sub_split headerSubstitutions) as [p1 p2]. destruct (title_trim t 0 Ti) as [Tr Nn]. rewrite app_nil_r in Tr.
  apply String.eqb_neq in Nn.
  destruct (sub_contains p1 AttributeRefs); [rewrite replaceRefs_simple by repeat constructor|]; cbn [bind fst snd sectionTitle rev app]; unfold TrimTrailingSpaces; cbn [rev app]; rewrite Tr, Nn; reflexivity.
Qed.
Inductive flow : list string -> list part -> list entry -> list val -> list val -> list (list val) -> list node -> Prop :=
| fl_nil : forall used, flow used [] [] [] [] [] []
| fl_keep : forall used v h v1 v' w ps es vs1 vs' fs ns, refined v v1 -> substituted v1 v' -> settled v' w -> visible v' = true -> rendered E w h -> h <> ""%string ->
    flow used ps es vs1 vs' fs ns -> flow used (Block v :: ps) (Text h :: es) (v1 :: vs1) (v' :: vs') ([w] :: fs) (NText w :: ns)
| fl_drop : forall used v v1 v' w ps es vs1 vs' fs ns, refined v v1 -> substituted v1 v' -> settled v' w -> visible v' = false ->
    flow used ps es vs1 vs' fs ns -> flow used (Block v :: ps) (Text "" :: es) (v1 :: vs1) (v' :: vs') ([] :: fs) ns
| fl_head : forall used l t id ps es vs1 vs' fs ns, title t -> fresh used (base_id (cls "L") (cls "N") t) id ->
    flow (id :: used) ps es vs1 vs' fs ns ->
    flow used (Heading l t :: ps) (Head l id t :: es) (head_val l t :: vs1) (head_val l t :: vs') ([head_val l t] :: fs) (NHead l id t :: ns).
Definition titled (p : part) : Prop := match p with Heading _ t => title t | _ => True end.
(** only blank lines and comments give nothing *)
Lemma refined_once : forall v a b, refined v a -> refined v b -> a = b.
Proof. intros v a b (n1 & d1 & R1) (n2 & d2 & R2). specialize (R1 (n1 + n2) (d1 + d2) ltac:(lia) ltac:(lia)). rewrite R2 in R1 by lia. now injection R1. Qed.
Lemma substituted_once : forall v a b, substituted v a -> substituted v b -> a = b.
Proof. intros v a b S1 S2. destruct (S1 []) as (n1 & R1). destruct (S2 []) as (n2 & R2). specialize (R1 (n1 + n2) ltac:(lia) (vsize v) false (le_n _)). rewrite R2 in R1 by lia. now injection R1. Qed.
Lemma visible_html : forall v h v1 v', ConvertSpec.shown (cls "L") (cls "N") white user (e_xhtml E) (e_toLower E) v h -> refined v v1 -> substituted v1 v' -> visible v' = true -> h <> ""%string.
Proof.
  intros v h v1 v' Sh R Sb Vi Eh.
  destruct Sh as [|ls V| | | | |items hs Ne F|s| |k class caption ls its hs I Lw Ch O W Ne|kind before after ls vs hs I Ch Nf D Al].
  - assert (v1 = BlankLine) as -> by (eapply refined_once; [exact R|now apply refined_same]).
    assert (v' = BlankLine) as -> by (eapply substituted_once; [exact Sb|intros a; exists 0; intros n _ f nested _; reflexivity]). discriminate Vi.
  - set (b := DelimitedBlock "comment" [] (raw (encode_runes (joined ls)))). pose proof (reads_none X cls low white other U user _ V) as Rn.
    assert (v1 = DelimitedBlock "comment" [] (raw_lines ls)) as -> by (eapply refined_once; [exact R|now apply refined_same]).
    assert (v' = b) as ->; [|discriminate Vi]. eapply substituted_once; [exact Sb|].
    apply substituted_at. intros a. apply (block_applied X cls low white other E setColumns user "comment" [] noneSubstitutions); [cbn; tauto|constructor|reflexivity|apply V|exact Rn].
  - discriminate Eh.
  - discriminate Eh.
  - unfold LF in Eh. destruct h; discriminate Eh.
  - discriminate Eh.
  - destruct F as [|[k ls] h items hs _ F]; [congruence|]. cbn [map combine list_html ListSpec.back_to fst] in Eh. destruct k; discriminate Eh.
  - assert (v1 = SinglelineComment s) as -> by (eapply refined_once; [exact R|now apply refined_same]).
    assert (v' = SinglelineComment s) as -> by (eapply substituted_once; [exact Sb|intros a; exists 0; intros n _ f nested _; reflexivity]). discriminate Vi.
  - destruct (e_xhtml E); discriminate Eh.
  - discriminate Eh.
  - cbv [compound_blocks In] in I. repeat (destruct I as [I|I]; [injection I as <- <- <-; discriminate Eh|]). destruct I.
Qed.
Lemma entries_flow : forall used ps es, entries (cls "L") (cls "N") white user (e_xhtml E) (e_toLower E) used ps es -> Forall titled ps -> exists vs1 vs' fs ns, flow used ps es vs1 vs' fs ns.
Proof.
  induction 1 as [used|used v h ps es Sh En IH|used l t id ps es Fr En IH]; intros F.
  - exists [], [], [], []. constructor.
  - inversion F as [|? ? _ F']; subst. destruct (IH F') as (vs1 & vs' & fs & ns & Fl).
    destruct (proj1 (shown_applied X cls low white other U E setColumns user) v h Sh) as (v1 & v' & w & R & Sb & St & Rn).
    destruct (visible v') eqn:Vi.
    + exists (v1 :: vs1), (v' :: vs'), ([w] :: fs), (NText w :: ns). eapply fl_keep; eauto. exact (visible_html _ _ _ _ Sh R Sb Vi).
    + subst h. exists (v1 :: vs1), (v' :: vs'), ([] :: fs), ns. eapply fl_drop; eauto.
  - inversion F as [|? ? Ti F']; subst. destruct (IH F') as (vs1 & vs' & fs & ns & Fl). do 4 eexists. eapply fl_head; eauto.
Qed.
Lemma flow_noded : forall used ps es vs1 vs' fs ns, flow used ps es vs1 vs' fs ns -> noded E es ns.
Proof.
  induction 1 as [| | |used l t id ps es vs1 vs' fs ns Ti Fr F IH]; try now constructor.
  - constructor; auto. exists v'. auto.
  - constructor; auto. apply (fresh_plain (cls "L") (cls "N") ascii_words used t id Fr).
Qed.
Lemma flow_agg : forall used ps es vs1 vs' fs ns, flow used ps es vs1 vs' fs ns -> agg_flow (cls "L") (cls "N") used fs ns.
Proof. induction 1; econstructor; eauto. Qed.
Lemma flow_refine : forall used ps es vs1 vs' fs ns, flow used ps es vs1 vs' fs ns -> exists n0 d0, forall n d, n0 <= n -> d0 <= d ->
  mapM (refineElement (reparseElements X cls low white other n user) d) (map part_val ps) = Ok vs1.
Proof.
  assert (forall v v1 vs vs1, refined v v1 -> (exists n0 d0, forall n d, n0 <= n -> d0 <= d -> mapM (refineElement (reparseElements X cls low white other n user) d) vs = Ok vs1) ->
    exists n0 d0, forall n d, n0 <= n -> d0 <= d -> mapM (refineElement (reparseElements X cls low white other n user) d) (v :: vs) = Ok (v1 :: vs1)) as A.
  { intros v v1 vs vs1 (n1 & d1 & R) (n2 & d2 & R2). exists (n1 + n2), (d1 + d2). intros n d Ln Ld. cbn [mapM]. rewrite R by lia. cbn [bind]. rewrite R2 by lia. reflexivity. }
  induction 1; [exists 0, 0; reflexivity|..]; cbn [map part_val]; apply A; auto. apply head_refined.
Qed.
Lemma flow_apply : forall used ps es vs1 vs' fs ns, flow used ps es vs1 vs' fs ns -> Forall2 substituted vs1 vs'.
Proof. induction 1; constructor; auto. now apply head_substituted. Qed.
Lemma flow_collect : forall used ps es vs1 vs' fs ns, flow used ps es vs1 vs' fs ns -> forall f, collectStage f (map (fun v => inl [v]) vs') = (f, map (fun v => inl [v]) vs').
Proof.
  induction 1 as [|used v h v1 v' w ps es vs1 vs' fs ns R Sb St Vi Rn Nh F IH|used v v1 v' w ps es vs1 vs' fs ns R Sb St Vi F IH|used l t id ps es vs1 vs' fs ns Ti Fr F IH]; intros f; [reflexivity|..];
    cbn [map collectStage collectFootnotes sub_all].
  1, 2: rewrite (collect_settled f v' w) by assumption; now rewrite IH.
  assert (substituteFootnotes f (head_val l t) = (f, head_val l t)) as -> by reflexivity. now rewrite IH.
Qed.
Lemma flow_arrange : forall used ps es vs1 vs' fs ns, flow used ps es vs1 vs' fs ns -> filterStage (map arrangeLists (map (fun v => inl [v]) vs')) = map (fun l => inl l) fs.
Proof.
  unfold filterStage.
  induction 1 as [|used v h v1 v' w ps es vs1 vs' fs ns R Sb St Vi Rn Nh F IH|used v v1 v' w ps es vs1 vs' fs ns R Sb St Vi F IH|used l t id ps es vs1 vs' fs ns Ti Fr F IH]; [reflexivity|..];
    cbn [map]; rewrite IH; f_equal; unfold arrangeLists, arrangeListElements; cbn [mapM].
  1, 2: destruct (settled_becomes v' w St) as (u & Au & Mu & Fu); rewrite Au; cbn [bind]; unfold filterOut; cbn [filterElems]; rewrite Mu.
  - destruct (Fu Vi) as [Q Em]. unfold visible in Vi. apply negb_true_iff in Vi. rewrite Vi, Q. cbn [bind]. now rewrite Em.
  - unfold visible in Vi. apply negb_false_iff in Vi. now rewrite Vi.
Qed.
Lemma manuscript_stage : forall text ps, manuscript (cls "L") (cls "N") white (macro_name user) true text ps ->
  exists n0, forall n, n0 <= n -> parseStage X cls low white other n user text = Some (map (fun v => inl [v]) (map part_val ps)).
Proof.
  intros text ps D. set (g := ctx_store user None normalSubstitutions).
  destruct (manuscript_run X cls low white other U user true text ps D [] (Soft [] [] false g (state0 H)) eq_refl eq_refl eq_refl eq_refl eq_refl) as (n0 & fs & q & F & M).
  exists n0. intros n L. assert (parse_fragments H n text g = Some (fs, Finished, q)) as Pf by (unfold parse_fragments; eapply P_PegParse.fragments_mono; [exact L|exact F]).
  unfold parseStage. fold g. rewrite Pf. rewrite app_nil_r. f_equal.
  change (map (fun f : PegDoc.fragment H => Convert.elements_of X (f_element f)) fs = map (fun v => inl [v]) (map part_val ps)).
  etransitivity; [symmetry; apply (map_map (@f_element H) (Convert.elements_of X))|].
  etransitivity; [exact (f_equal (map (Convert.elements_of X)) M)|]. rewrite !map_map. reflexivity.
Qed.
Lemma manuscript_titled : forall header text ps, manuscript (cls "L") (cls "N") white (macro_name user) header text ps -> Forall titled ps.
Proof. induction 1; constructor; auto; exact Logic.I. Qed.
End SectionStages.

(** C71 *)
Theorem C71_converted : forall X cls low white other, unicode_ok (go_host X cls low white other) ->
  forall E setColumns (c : config) a text ps es h,
  c_attrs c = Some a -> (forall k, In k section_names -> mget a k = None) -> c_wrap c = false ->
  manuscript (cls "L") (cls "N") white (macro_name (map fst (c_macros c))) true text ps ->
  entries (cls "L") (cls "N") white (map fst (c_macros c)) (e_xhtml E) (e_toLower E) [] ps es -> nested (e_toLower E) 0 es h ->
  exists n0 a', forall n, n0 <= n -> convert X cls low white other E setColumns n c text = Ok (h, "", a').
Proof.
  intros X cls low white other U E setColumns c a text ps es h Ea Na Wr D En Ne. set (user := map fst (c_macros c)) in *.
  assert (forall k, In k neutral_names -> mget a k = None) as Nn by (intros k I; apply Na; unfold section_names; apply in_or_app; now left).
  destruct (entries_flow X cls low white other U E setColumns user [] ps es En (manuscript_titled _ _ _ _ _ _ D)) as (vs1 & vs' & fs & ns & Fl).
  destruct (manuscript_stage X cls low white other U user text ps D) as (n1 & P).
  destruct (flow_refine X cls low white other E setColumns user _ _ _ _ _ _ _ Fl) as (n2 & d2 & Rf).
  destruct (apply_all X cls low white other E setColumns user _ _ a (flow_apply X cls low white other E setColumns user _ _ _ _ _ _ _ Fl)) as (n3 & Sb).
  pose proof (flow_noded X cls low white other U E setColumns user _ _ _ _ _ _ _ Fl) as Nd. pose proof (noded_good _ _ _ Nd) as Gd.
  destruct (nested_tree _ _ _ _ Ne ns Nd) as (vs & T & (d3 & Rn)).
  assert (forall k, mget a k = None -> mget (callAttributes (newContextAttributes a)) k = None) as Nc.
  { intros k Q. rewrite mget_callAttributes. cbn [immutableAttrs docAttrs newContextAttributes last_assoc]. rewrite CtxLemmas.last_assoc_None; [reflexivity|now apply mget_None]. }
  destruct (agg_flow_ok (cls "L") (cls "N") (e_fmtv E) (newContextAttributes a) (ascii_words X cls low white other U) (Nc _ (Na "idprefix" ltac:(cbn; tauto))) (Nc _ (Na "idseparator" ltac:(cbn; tauto)))
    [] fs ns (flow_agg X cls low white other E setColumns user _ _ _ _ _ _ _ Fl) [] (newToc (cgetAsInt (newContextAttributes a) AttrTableOfContentsLevels 2)) (mkAgg [] [])) as (refs & tc & used & Ag & K).
  { split; [|split]; [intros x; split; [discriminate|intros []]|discriminate|intros x []]. }
  destruct (tree_header _ _ T Gd) as (Nh & Nb & Nl).
  exists (S (S (n1 + n2 + d2 + n3 + d3))), (RenderAttrs.labels a). intros n L. unfold convert, attrs_of. rewrite Ea. fold user.
  assert (parseDocument X cls low white other E setColumns n user a text = Ok (mkDoc vs refs (match toc_sections tc with [] => None | _ => Some tc end), [])) as ->.
  { unfold parseDocument. rewrite P by lia. erewrite refine_all by (apply Rf; lia). cbn [bind]. unfold ctx0 in Sb. rewrite Sb by lia. cbn [bind].
    rewrite (flow_collect X cls low white other E setColumns user _ _ _ _ _ _ _ Fl), (flow_arrange X cls low white other E setColumns user _ _ _ _ _ _ _ Fl).
    rewrite map_map. unfold aggregate, aggInit. rewrite Ag. cbn [as_tree as_refs as_toc as_ctx]. rewrite (tree_document _ _ T).
    replace (match refs with [] => vs | _ => map (resolveCrossReferences (cls "L") (cls "N") (e_fmtv E) (callAttributes (newContextAttributes a))) vs end) with vs
      by (destruct refs; [reflexivity|symmetry; now apply (tree_resolved _ _ _ 0 ns)]).
    cbn [d_elements d_refs d_toc]. unfold insertPreamble, newPreamble. rewrite Nh. reflexivity. }
  cbn [bind d_elements d_refs d_toc].
  unfold validateInto, attrs_of, validate, AttrDocType. rewrite Ea. unfold getAsStringD at 1. rewrite (Nn "doctype") by now left. cbn [String.eqb Ascii.eqb Bool.eqb bind].
  unfold render. cbn [rd_elements]. rewrite Ea. unfold renderAttrs, newContextAttrs, expandHeader, headerDecls. rewrite Nh. cbn [bind]. rewrite Nl. rewrite (tree_numbers _ _ T Gd Nh).
  set (E' := mkRenv _ _ _ _ _ _ _ _ _ _ _ _ _). unfold renderDocument, headerTitle, hasHeader. cbn [rd_elements rd_toc rd_notes option_map]. rewrite Nh.
  set (st := mkRst _ _ _ _ _).
  assert (forall k, In k section_names -> mget (r_attrs st) k = None) as Qa.
  { intros k I. cbn [r_attrs st]. rewrite labels_get; [now apply Na|]. cbv [section_names neutral_names In app] in I.
    repeat destruct I as [<-|I]; try reflexivity; destruct I. }
  assert (quiet st) as Q.
  { split; [|split; reflexivity]. intros k I. apply Qa. unfold section_names. apply in_or_app. now left. }
  unfold bindM at 1. cbn [ret].
  assert (exists toc, (match option_map toc_sections (match toc_sections tc with [] => None | _ => Some tc end) with
              | None => ret None
              | Some l => let* t := prerenderEntries E' (renderElement E' n) l in ret (Some t)
              end) st = Ok (toc, st)) as (toc & Qt).
  { destruct n as [|n]; [lia|]. destruct (prerender_ok refs tc used E' n st K eq_refl (quiet_unicode st Q)) as (ts & Qp).
    destruct (toc_sections tc) as [|x l] eqn:Et; [exists None; reflexivity|]. cbn [option_map]. rewrite Et. exists (Some ts). erewrite bind_ok by exact Qp. reflexivity. }
  rewrite (bind_ok _ _ _ _ _ _ _ Qt).
  unfold splitAndRender, bindM, getAttrs, ret. cbn [r_attrs st rc_wrap rd_elements rd_notes].
  rewrite Wr. unfold getD, getAsStringD. rewrite labels_get by reflexivity. rewrite (Nn "doctype") by now left. cbn [String.eqb Ascii.eqb Bool.eqb].
  unfold hasHeader. rewrite Nh, Nb. unfold renderDocumentBody, bindM, getAttrs, ret. cbn [rd_toc rd_notes].
  destruct (Rn n ltac:(lia) E' st (conj eq_refl eq_refl) eq_refl Q) as (st1 & B & Sm).
  rewrite (Qa "toc") by (cbn; tauto). rewrite B. cbn [renderFootnotes ret snd]; unfold ret; rewrite GoLemmas.sapp_nil_r; rewrite (proj1 Sm). reflexivity.
Qed.
Print Assumptions C71_converted.

(** * A document *)
Definition a_paper : string :=
"Intro

== On a-b
=== More: (x) 
Text

== On a-b

=== More
".
Definition its_html : string :=
"<div class=""paragraph"">
<p>Intro</p>
</div>
<div class=""sect1"">
<h2 id=""_on_a_b"">On a-b</h2>
<div class=""sectionbody"">
<div class=""sect2"">
<h3 id=""_more_x"">More: (x)</h3>
<div class=""paragraph"">
<p>Text</p>
</div>
</div>
</div>
</div>
<div class=""sect1"">
<h2 id=""_on_a_b_2"">On a-b</h2>
<div class=""sectionbody"">
<div class=""sect2"">
<h3 id=""_more"">More</h3>
</div>
</div>
</div>
".
Theorem C71_run : html_written a_paper = Ok its_html.
Proof. vm_compute. reflexivity. Qed.
Ltac is_title := split; [repeat constructor|split; [discriminate|split; reflexivity]].
Ltac tw s := match goal with |- title_text _ _ _ ?t => let r := eval vm_compute in (skipn (List.length (R s)) t) in
  change t with (R s ++ r); apply title_word; [discriminate|repeat constructor|reflexivity|first [discriminate|reflexivity]|intros u Q; discriminate Q|] end.
Ltac tb := match goal with |- title_text _ _ _ (?x :: ?t) => apply (title_blanks _ _ _ [x] t);
  [discriminate|constructor; [now left|constructor]|intros r Q Z; cbn [next_is] in Q; first [discriminate Q|apply N.eqb_eq in Q; subst r; destruct Z; discriminate]|] end.
Ltac tc := apply title_one; [reflexivity|].
Theorem C71_hypotheses : exists a ps es, c_attrs demo_config = Some a /\ (forall k, In k section_names -> mget a k = None) /\ c_wrap demo_config = false /\
  unicode_ok demo_go /\ manuscript (demo_cls "L") (demo_cls "N") demo_white (macro_name (map fst (c_macros demo_config))) true (R a_paper) ps /\
  entries (demo_cls "L") (demo_cls "N") demo_white (map fst (c_macros demo_config)) (e_xhtml demo_env) (e_toLower demo_env) [] ps es /\ nested (e_toLower demo_env) 0 es its_html.
Proof.
  eexists _, [Block (Paragraph [] (raw_lines [R "Intro"])); Block BlankLine; Heading 1 (R "On a-b"); Heading 2 (R "More: (x)");
    Block (Paragraph [] (raw_lines [R "Text"])); Block BlankLine; Heading 1 (R "On a-b"); Block BlankLine; Heading 2 (R "More")], _.
  split; [reflexivity|]. split; [intros k I; cbn in I; repeat destruct I as [<-|I]; try reflexivity; destruct I|]. split; [reflexivity|]. split; [exact demo_go_unicode|].
  split; [|split].
  - refine (man_block _ _ _ _ true (R "Intro" ++ [10%N] ++ _) _ _ _ _ (piece_para _ _ _ _ _ _ [] _ _ _ _) _).
    + discriminate.
    + split; [is_line|]. split; [apply no_colons_dec; reflexivity|]. split; [no_start|].
      eexists _, _. split; [reflexivity|]. split; [reflexivity|]. split; [reflexivity|].
      intros (y & z & u & E & [->| ->] & _); discriminate E.
    + lf.
    + refine (cont_blank _ [] [10%N] _ _ _ _); [constructor|discriminate|lf].
    + refine (man_block _ _ _ _ false ([] ++ [10%N] ++ _) _ _ _ _ (piece_blank _ _ _ _ _ _ _ _ _) _); [discriminate|constructor|discriminate|lf|].
      refine (man_heading _ _ _ _ false 1 [32%N] (R "On a-b") 0 [10%N] _ _ _ _ _ _ _ _ _); [lia|discriminate|constructor; [now left|constructor]|is_title| |lf|].
      { tw "On"%string. tb. tw "a"%string. tc. tw "b"%string. apply title_nil. }
      refine (man_heading _ _ _ _ false 2 [32%N] (R "More: (x)") 1 [10%N] _ _ _ _ _ _ _ _ _); [lia|discriminate|constructor; [now left|constructor]|is_title| |lf|].
      { tw "More"%string. tc. tb. tc. tw "x"%string. tc. tb. apply title_nil. }
      refine (man_block _ _ _ _ false (R "Text" ++ [10%N] ++ _) _ _ _ _ (piece_para _ _ _ _ _ _ [] _ _ _ _) _); [discriminate| |lf| |].
      { split; [is_line|]. split; [apply no_colons_dec; reflexivity|]. split; [no_start|].
        eexists _, _. split; [reflexivity|]. split; [reflexivity|]. split; [reflexivity|].
        intros (y & z & u & E & [->| ->] & _); discriminate E. }
      { refine (cont_blank _ [] [10%N] _ _ _ _); [constructor|discriminate|lf]. }
      refine (man_block _ _ _ _ false ([] ++ [10%N] ++ _) _ _ _ _ (piece_blank _ _ _ _ _ _ _ _ _) _); [discriminate|constructor|discriminate|lf|].
      refine (man_heading _ _ _ _ false 1 [32%N] (R "On a-b") 0 [10%N] _ _ _ _ _ _ _ _ _); [lia|discriminate|constructor; [now left|constructor]|is_title| |lf|].
      { tw "On"%string. tb. tw "a"%string. tc. tw "b"%string. apply title_nil. }
      refine (man_block _ _ _ _ false ([] ++ [10%N] ++ _) _ _ _ _ (piece_blank _ _ _ _ _ _ _ _ _) _); [discriminate|constructor|discriminate|lf|].
      refine (man_heading _ _ _ _ false 2 [32%N] (R "More") 0 [10%N] [] _ _ _ _ _ _ _ _); [lia|discriminate|constructor; [now left|constructor]|is_title| |lf|constructor].
      tw "More"%string. apply title_nil.
  - assert (ConvertSpec.shown (demo_cls "L") (demo_cls "N") demo_white (map fst (c_macros demo_config)) (e_xhtml demo_env) (e_toLower demo_env) (Paragraph [] (raw_lines [R "Intro"])) (paragraph_html "Intro")) as Sp1.
    { eapply (s_para _ _ _ _ _ _ _ _ "Intro"%string); [repeat constructor| |].
      - unfold joined. change (rstrip (R "Intro")) with (R "Intro"). wd "Intro"%string. apply ord_nil.
      - eexists. split; [repeat (apply Forall2_cons || apply Forall2_nil); apply w_char|].
        apply (trimmed_self 0 0); [vm_compute; reflexivity|intros u; discriminate|vm_compute; discriminate]. }
    assert (ConvertSpec.shown (demo_cls "L") (demo_cls "N") demo_white (map fst (c_macros demo_config)) (e_xhtml demo_env) (e_toLower demo_env) (Paragraph [] (raw_lines [R "Text"])) (paragraph_html "Text")) as Sp2.
    { eapply (s_para _ _ _ _ _ _ _ _ "Text"%string); [repeat constructor| |].
      - unfold joined. change (rstrip (R "Text")) with (R "Text"). wd "Text"%string. apply ord_nil.
      - eexists. split; [repeat (apply Forall2_cons || apply Forall2_nil); apply w_char|].
        apply (trimmed_self 0 0); [vm_compute; reflexivity|intros u; discriminate|vm_compute; discriminate]. }
    apply ent_block with (h := paragraph_html "Intro"); [exact Sp1|].
    apply ent_block with (h := ""%string); [apply s_blank|].
    apply ent_heading with (id := "_On_a_b"%string); [exists 1%N; split; [lia|split; [reflexivity|split; [intros []|lia]]]|].
    apply ent_heading with (id := "_More_x"%string); [exists 1%N; split; [lia|split; [reflexivity|split; [intros [Q|[]]; discriminate Q|lia]]]|].
    apply ent_block with (h := paragraph_html "Text"); [exact Sp2|].
    apply ent_block with (h := ""%string); [apply s_blank|].
    apply ent_heading with (id := "_On_a_b_2"%string).
    { exists 2%N. split; [lia|split; [reflexivity|split; [intros [Q|[Q|[]]]; discriminate Q|]]]. intros j Lj. assert (j = 1%N) as -> by lia. vm_compute. tauto. }
    apply ent_block with (h := ""%string); [apply s_blank|].
    apply ent_heading with (id := "_More"%string); [exists 1%N; split; [lia|split; [reflexivity|split; [intros [Q|[Q|[Q|[]]]]; discriminate Q|lia]]]|].
    apply ent_nil.
  - match goal with |- nested ?lo ?k ?es _ => enough (exists h, nested lo k es h /\ h = its_html) as (h & N & <-) by exact N end.
    eexists. split; [apply nest_text, nest_text|].
    + match goal with |- nested _ _ (?x :: ?a :: ?b :: ?c :: ?r) _ => apply (nest_section _ 0 1 _ _ [a; b; c] r); [lia| | |cbn; lia] end.
      { match goal with |- nested _ _ (?x :: ?r) _ => change (x :: r) with (x :: r ++ []); apply (nest_section _ 1 2 _ _ r []); [lia|apply nest_text, nest_text, nest_nil|apply nest_nil|exact Logic.I] end. }
      match goal with |- nested _ _ (?x :: ?r) _ => change (x :: r) with (x :: r ++ []); apply (nest_section _ 0 1 _ _ r []); [lia|apply nest_text|apply nest_nil|exact Logic.I] end.
      match goal with |- nested _ _ (?x :: ?r) _ => change (x :: r) with (x :: r ++ []); apply (nest_section _ 1 2 _ _ r []); [lia|apply nest_nil|apply nest_nil|exact Logic.I] end.
    + vm_compute. reflexivity.
Qed.
Print Assumptions C71_hypotheses.

(** * Every document of blocks and titles is covered *)
Lemma fresh_total : forall used base, exists id, fresh used base id.
Proof.
  intros used base. set (refs := map (fun x => (x, Types.VNil)) used : gomap val).
  assert (mkeys refs = used) as K by (unfold mkeys, refs; rewrite map_map; apply map_id).
  destruct (IdsLemmas.resolveUnique_first_free base refs) as (id & _ & F). rewrite K in F. exists id. exact F.
Qed.
Definition leveled (e : entry) : Prop := match e with Head l _ _ => 1 <= l | _ => True end.
Lemma nested_prefix : forall lower n es k, List.length es <= n -> exists es1 es2 h, es = es1 ++ es2 /\ nested lower k es1 h /\
  match es2 with [] => True | Head l _ _ :: _ => l <= k | _ => False end.
Proof.
  induction n as [|n IH]; intros es k L.
  - destruct es; [|cbn in L; lia]. exists [], [], "". repeat split. constructor.
  - destruct es as [|[x|l id t] es]; cbn [List.length] in L.
    + exists [], [], "". repeat split. constructor.
    + destruct (IH es k ltac:(lia)) as (es1 & es2 & h & -> & N & M). exists (Text x :: es1), es2, (x ++ h)%string. repeat split; [now constructor|exact M].
    + destruct (Nat.leb_spec l k) as [Q|Q].
      * exists [], (Head l id t :: es), "". repeat split; [constructor|exact Q].
      * destruct (IH es l ltac:(lia)) as (es1 & es2 & h & -> & N & M). rewrite app_length in L.
        destruct (IH es2 k ltac:(lia)) as (es3 & es4 & h' & -> & N' & M').
        exists (Head l id t :: es1 ++ es3), es4, (section_html lower l id t h ++ h')%string. cbn [app]. rewrite <- app_assoc. repeat split; [|exact M'].
        constructor; auto. destruct es3 as [|[|] es3]; auto.
Qed.
Lemma nested_total : forall lower es, Forall leveled es -> exists h, nested lower 0 es h.
Proof.
  intros lower es F. destruct (nested_prefix lower _ es 0 (le_n _)) as (es1 & es2 & h & -> & N & M). apply Forall_app in F. destruct F as [_ F].
  destruct es2 as [|[|l id t] es2]; [rewrite app_nil_r; eauto|destruct M|]. inversion F as [|? ? Q _]; subst. cbn in Q. lia.
Qed.
(** the text of the blocks decides: titles are always given an id, and there is always one way to nest the sections *)
Theorem C71_total : forall letter number white user xhtml lower macro header text ps, manuscript letter number white macro header text ps ->
  (forall v, In (Block v) ps -> exists h, ConvertSpec.shown letter number white user xhtml lower v h) ->
  exists es h, entries letter number white user xhtml lower [] ps es /\ nested lower 0 es h.
Proof.
  intros letter number white user xhtml lower macro header text ps D Sh.
  assert (Forall (fun p => match p with Heading l _ => 1 <= l | _ => True end) ps) as Lv.
  { clear Sh. induction D; constructor; auto; lia. }
  clear D. assert (forall used, exists es, entries letter number white user xhtml lower used ps es /\ Forall leveled es) as A.
  { induction Lv as [|p ps Lp Lv IH]; intros used; [exists []; split; constructor|].
    destruct p as [v|l t].
    - destruct (Sh v ltac:(now left)) as (h & Hh). destruct (IH ltac:(intros w I; apply Sh; now right) used) as (es & En & F).
      exists (Text h :: es). split; [now constructor|]. constructor; [exact Logic.I|exact F].
    - destruct (fresh_total used (base_id letter number t)) as (id & Fr). destruct (IH ltac:(intros w I; apply Sh; now right) (id :: used)) as (es & En & F).
      exists (Head l id t :: es). split; [now constructor|]. constructor; [exact Lp|exact F]. }
  destruct (A []) as (es & En & F). destruct (nested_total lower es F) as (h & N). eauto.
Qed.
Print Assumptions C71_total.
