(** Proofs for C60. *)
From Verif Require Import GoBase GoLemmas Types Attrs AttrLemmas Aggregate Toc TocRender Escape Ids Templates Tmpl HtmlTmpl RenderAttrs Render RenderKit
  RenderStateSpec RenderState TextSpec TextTmpl TextWords TextDocSpec TextRender MarkSpec MarkOps MarkRender P_Html P_Text TocShownSpec.

Section Entries.
Variable E : renv.
Notation low := (e_toLower E).
Variable rec : val -> M string.
Hypothesis IH : forall n emb v, tr emb (rec v) (appear (text n emb v)).
Variable n : nat.
Notation ew := (entry_words (e_refs E) (e_numbers E) n).
Ltac sh := vm_compute; reflexivity.

(** an entry that was rendered in advance, with its title *)
Inductive shown : tocsec -> tocr -> Prop :=
| shown_intro id level sub title sub' : appear (entry_title (e_refs E) n id) title -> Forall2 shown sub sub' ->
    shown (TocSec id level sub) (TocR id level (optS (mget (e_numbers E) id)) title sub').

Lemma tr_shown x : tr false (prerenderEntry E rec x) (shown x).
Proof.
  revert x. fix F 1. intros [id level sub]. cbn [prerenderEntry]. eapply (tr_bind _ _ _ _ _ (Forall2 shown sub)).
  - induction sub as [|x r IHr]; [apply tr_ret; constructor|]. eapply tr_bind; [apply F|]. intros a A. eapply tr_bind; [apply IHr|]. intros b B. apply tr_ret. now constructor.
  - intros a A. destruct (mget (e_refs E) id) as [v|] eqn:R; [|apply tr_fail]. eapply (tr_bind _ _ _ _ _ (appear (entry_title (e_refs E) n id))).
    + unfold entry_title. rewrite R. destruct v; try apply (IH n). apply (tr_elements _ n (IH n)).
    + intros t T. apply tr_ret. now constructor.
Qed.
Lemma tr_showns l : tr false (prerenderEntries E rec l) (Forall2 shown l).
Proof.
  induction l as [|x l IHl]; [apply tr_ret; constructor|]. cbn [prerenderEntries]. eapply tr_bind; [apply tr_shown|]. intros a A. eapply tr_bind; [exact IHl|]. intros b B.
  apply tr_ret. now constructor.
Qed.

Definition good (l : list tocsec) (s : string) : Prop := appear (flat_map ew l) s /\ has (flat_map (entry_links low) l) s.
Lemma good_cons x l a b : good [x] a -> good l b -> good (x :: l) (a ++ b)%string.
Proof.
  intros [A1 A2] [B1 B2]. cbn [flat_map] in A1, A2. rewrite app_nil_r in A1, A2. split; cbn [flat_map]; [now apply appear_app|now apply has_cat].
Qed.
Lemma tr_sections level l s : good l s -> tr false (exec E TTocSection [(".Level", FI level); (".Content", FS s)]) (fun out => good l out).
Proof.
  intros [A B]. apply tr_and; [eapply (tr_exec1 _ _ _ _ ".Content"); [sh|exact A]|eapply (tr_field _ _ _ _ ".Content"); [sh|exact B]].
Qed.
Lemma tr_goodEntry x : forall r, shown x r -> tr false (renderTocEntry E r) (good [x]).
Proof.
  revert x. fix F 1. intros [id level sub] r H. inversion H as [? ? ? title sub' T S0]; subst. cbn [renderTocEntry].
  set (go := fix go (l : list tocr) : M string := match l with [] => ret "" | x :: r => let* a := renderTocEntry E x in let* b := go r in ret (a ++ b)%string end).
  eapply (tr_bind _ _ _ _ _ (good sub)).
  - assert (G : tr false (go sub') (good sub)).
    { clear - S0 F. revert sub' S0. induction sub as [|x l IHl]; intros sub' S0; inversion S0 as [|? y ? l' X L]; subst; [apply tr_ret; split; [exact Logic.I|apply has_nil]|].
      cbn [go]. fold go. eapply tr_bind; [apply (F x), X|]. intros a A. eapply tr_bind; [apply IHl, L|]. intros b B. apply tr_ret. now apply good_cons. }
    inversion S0 as [|? [i lv nu ti su] ? l' X L]; subst; [apply tr_ret; split; [exact Logic.I|apply has_nil]|]. eapply tr_bind; [exact G|]. intros s S1. now apply tr_sections.
  - intros c [C1 C2]. apply tr_and.
    + cbn [flat_map entry_words]. rewrite app_nil_r.
      replace (_ ++ _ ++ _) with (List.concat [match mget (e_numbers E) id with Some number => words number | None => [] end; entry_title (e_refs E) n id; flat_map ew sub])
        by (cbn [List.concat]; now rewrite app_nil_r).
      apply (tr_exec _ _ _ _ [".Number"; ".Title"; ".Content"]); [sh|]. repeat constructor; [|exact T|exact C1].
      cbn. destruct (mget (e_numbers E) id); [apply words_appear|exact Logic.I].
    + cbn [flat_map entry_links]. rewrite app_nil_r. apply tr_has; [|eapply (tr_field _ _ _ _ ".Content"); [sh|exact C2]].
      unfold prefixed. destruct (plain_value _); [|apply tr_none, tr_exec0].
      apply (tr_prints E false _ _ [] "href" "#" "toLower" ".ID"); [sh|intros g []|]. eexists. split; reflexivity.
Qed.
Lemma tr_goodEntries l l' : Forall2 shown l l' -> tr false (renderTocEntries E l') (good l).
Proof.
  induction 1 as [|x y l l' X L IHl]; [apply tr_ret; split; [exact Logic.I|apply has_nil]|]. cbn [renderTocEntries].
  eapply tr_bind; [apply (tr_goodEntry x y X)|]. intros a A. eapply tr_bind; [exact IHl|]. intros b B. apply tr_ret. now apply good_cons.
Qed.
Lemma section_nonempty fs out : execute low (template E TTocSection) fs = Ok out -> out <> "".
Proof.
  intros X. assert (K : exists r, out = ("<ul class=""sectlevel" ++ r)%string).
  { unfold template in X. destruct (e_xhtml E); cbv [execute] in X; cbn in X; destruct (field fs ".Level"); try discriminate; cbn in X; destruct (show _); try discriminate; cbn in X;
      destruct (field fs ".Content"); try discriminate; cbn in X; destruct (show _); try discriminate; injection X as <-; eexists; reflexivity. }
  destruct K as [r ->]. discriminate.
Qed.
Lemma tr_goodSections l l' : Forall2 shown l l' -> tr false (renderTocSections E l') (fun s => good l s /\ (l <> [] -> s <> "")).
Proof.
  intros H. unfold renderTocSections. destruct H as [|x [id lv nu ti su] l l' X L]; [apply tr_ret; split; [split; [exact Logic.I|apply has_nil]|congruence]|].
  eapply tr_bind; [apply tr_goodEntries; constructor; eauto|]. intros s G. apply tr_and; [now apply tr_sections|].
  apply tr_lift. intros out O _. unfold template in O. eapply section_nonempty; exact O.
Qed.
(** the table of contents, rendered where the attribute "toc-title" has the value [title] *)
Lemma tr_goodToc l l' st out st' : Forall2 shown l l' -> (0 <= r_list st)%Z -> emb_of st = false ->
  renderToc E rec (Some l') st = Ok (out, st') ->
  (appear (toc_words (e_refs E) (e_numbers E) n (mget (r_attrs st) "toc-title") l) out /\ has (flat_map (entry_links low) l) out)
  /\ r_within st' = r_within st /\ r_list st' = r_list st.
Proof.
  intros S0 L EM X. unfold renderToc in X. apply bindM_ok in X as (ti & st1 & H1 & X).
  unfold renderTocTitle in H1. apply bindM_ok in H1 as (ctx & st2 & [= <- <-] & H1).
  assert (T : appear (toc_heading n (mget (r_attrs st) "toc-title")) ti /\ r_within st1 = r_within st /\ r_list st1 = r_list st).
  { destruct (mget (r_attrs st) "toc-title") as [v|]; [|injection H1 as <- <-; split; [exists "", " of Contents"; split; [reflexivity|]; exists " ", " Contents"; split; [reflexivity|]; exists " ", ""; split; [reflexivity|exact Logic.I]|auto]].
    unfold toc_heading. destruct v; try exact (IH n false _ _ _ _ L EM H1); [injection H1 as <- <-; split; [apply words_appear|auto]|exact (tr_elements _ n (IH n) false _ _ _ _ L EM H1)]. }
  destruct T as (T & W1 & L1).
  assert (EM1 : emb_of st1 = false) by (unfold emb_of in *; now rewrite W1, L1). assert (L1' : (0 <= r_list st1)%Z) by (rewrite L1; exact L).
  apply bindM_ok in X as (s & st3 & H3 & X).
  destruct (tr_goodSections l l' S0 _ _ _ L1' EM1 H3) as ([G NE] & W3 & L3).
  assert (EM3 : emb_of st3 = false) by (unfold emb_of in *; now rewrite W3, L3). assert (L3' : (0 <= r_list st3)%Z) by (rewrite L3; exact L1').
  destruct l as [|x l].
  - inversion S0; subst. injection H3 as <- <-. injection X as <- <-. split; [split; [exact Logic.I|apply has_nil]|]. split; congruence.
  - destruct (String.eqb_spec s ""); [destruct NE; congruence|]. destruct G as [G1 G2].
    assert (Q : tr false (exec E TTocRoot [(".Title", FS ti); (".Sections", FS s)]) (fun out => appear (toc_words (e_refs E) (e_numbers E) n (mget (r_attrs st) "toc-title") (x :: l)) out /\ has (flat_map (entry_links low) (x :: l)) out)).
    { apply tr_and; [eapply (tr_exec2 _ _ _ _ ".Title" ".Sections"); [sh|exact T|exact G1]|eapply (tr_field _ _ _ _ ".Sections"); [sh|exact G2]]. }
    destruct (Q _ _ _ L3' EM3 X) as (R & W4 & L4). split; [exact R|]. split; congruence.
Qed.
End Entries.
