(** C60: the table of contents is shown. *)
From Verif Require Import GoBase GoLemmas Types Attrs AttrLemmas Aggregate Toc TocRender Escape Ids SectNum Templates Tmpl HtmlTmpl RenderAttrs Render RenderKit
  RenderStateSpec RenderState TextSpec TextTmpl TextWords TextDocSpec TextRender MarkSpec MarkOps MarkRender P_Html P_Text P_Marks TocShownSpec TocShown.

(** nothing inside declares the attributes that place the table of contents, or the type of the document *)
Definition quiet (v : val) : Prop := forall key, In key ["doctype"; "toc"; "toc-title"] -> silent_about key v.
Definition no_preamble (l : list val) : Prop := forall es, ~ In (Preamble es) l.

Section Body.
Variable E : renv.
Variable depth n : nat.
Notation rec := (renderElement E depth).
Notation low := (e_toLower E).
Hypothesis refs_quiet : forall id v, mget (e_refs E) id = Some v -> quiet v.
Let IH : forall n emb v, tr emb (rec v) (appear (text n emb v)).
Proof. intros. apply tr_element. Qed.
Ltac sh := vm_compute; reflexivity.
Notation tw st l := (toc_words (e_refs E) (e_numbers E) n (mget (r_attrs st) "toc-title") l).

Definition same_keys (a b : rst) : Prop := forall key, In key ["doctype"; "toc"; "toc-title"] -> mget (r_attrs a) key = mget (r_attrs b) key.
Lemma same_keys_trans a b c : same_keys a b -> same_keys b c -> same_keys a c.
Proof. intros H G k K. now rewrite (H k K), (G k K). Qed.
Lemma keys_element v st out st' : quiet v -> rec v st = Ok (out, st') -> same_keys st' st.
Proof. intros Q X key K. exact (KD_element key E (fun id w R => refs_quiet id w R key K) depth v (Q key K) _ _ _ X). Qed.
Lemma keys_elements l : Forall quiet l -> forall st out st', renderElements rec l st = Ok (out, st') -> same_keys st' st.
Proof.
  induction 1 as [|v l Q F IHl]; intros st out st' X; [injection X as <- <-; intros k _; reflexivity|]. cbn [renderElements] in X.
  apply bindM_ok in X as (a & st1 & H1 & X). apply bindM_ok in X as (b & st2 & H2 & X). injection X as <- <-.
  eapply same_keys_trans; [eapply IHl; eauto|eapply keys_element; eauto].
Qed.
Lemma keys_entries l st r st' : prerenderEntries E rec l st = Ok (r, st') -> same_keys st' st.
Proof. intros X key K. exact (KD_entries key E (fun id w R => refs_quiet id w R key K) depth l _ _ _ X). Qed.
Lemma keys_header title st out st' : (forall l, title = Some l -> Forall quiet l) -> renderDocumentHeader E rec title st = Ok (out, st') -> same_keys st' st.
Proof.
  intros Q X. unfold renderDocumentHeader in X. apply bindM_ok in X as (h & st1 & H1 & X). apply bindM_ok in X as (d & st2 & H2 & X).
  assert (S1 : same_keys st1 st). { destruct title as [l|]; [eapply keys_elements; [apply Q; reflexivity|exact H1]|injection H1 as <- <-; intros k _; reflexivity]. }
  assert (S2 : same_keys st2 st1). { intros key K. exact (k_details E (@KD key) (fun _ => True) _ (KD_closed key) _ _ _ H2). }
  assert (st' = st2) by (unfold exec, lift in X; destruct (execute _ _ _); inversion X; auto). subst st'. eapply same_keys_trans; eauto.
Qed.
Lemma keys_manpage title name st out st' : (forall l, title = Some l -> Forall quiet l) -> quiet name -> renderManpageHeader E rec title name st = Ok (out, st') -> same_keys st' st.
Proof.
  intros Q QN X key K. refine (k_manHeader E (@KD key) (fun _ => True) _ (KD_closed key) rec rec (silent_about key) _ _ title name _ (QN key K) _ _ _ X).
  - intros v V. exact (KD_element key E (fun id w R => refs_quiet id w R key K) depth v V).
  - apply silent_child.
  - intros l T v V. apply (KD_element key E (fun id w R => refs_quiet id w R key K) depth v). specialize (Q l T). rewrite Forall_forall in Q. exact (Q v V key K).
Qed.

Lemma top_body l l' source notes p st b st' : Forall2 (shown E n) l l' -> (0 <= r_list st)%Z -> emb_of st = false ->
  mget (r_attrs st) "toc" = Some p -> p = VStr "" \/ p = VNil ->
  renderDocumentBody E rec source (Some l') notes st = Ok (b, st') ->
  appear (tw st l ++ texts (text n) false source ++ texts (text n) false notes) b /\ has (flat_map (entry_links low) l) b.
Proof.
  intros S0 L EM TP PP X. unfold renderDocumentBody in X. apply bindM_ok in X as (ctx & st1 & [= <- <-] & X). rewrite TP in X.
  apply bindM_ok in X as (s & st1 & H1 & X). apply bindM_ok in X as (f & st2 & H2 & X). injection X as <- <-.
  assert (H1' : (let* t := renderToc E rec (Some l') in let* q := renderElements rec source in ret (t ++ q)%string) st = Ok (s, st1)) by (destruct PP as [-> | ->]; exact H1).
  clear H1. apply bindM_ok in H1' as (t & st3 & H3 & Y). apply bindM_ok in Y as (q & st4 & H4 & Y). injection Y as <- <-.
  destruct (tr_goodToc E rec IH n l l' st t st3 S0 L EM H3) as ((A & B) & W3 & L3).
  assert (EM3 : emb_of st3 = false) by (unfold emb_of in *; now rewrite W3, L3). assert (L3' : (0 <= r_list st3)%Z) by (rewrite L3; exact L).
  destruct (tr_elements rec n (IH n) false source _ _ _ L3' EM3 H4) as (A4 & W4 & L4).
  assert (EM4 : emb_of st4 = false) by (unfold emb_of in *; now rewrite W4, L4). assert (L4' : (0 <= r_list st4)%Z) by (rewrite L4; exact L3').
  destruct (tr_footnotes E rec IH n notes _ _ _ L4' EM4 H2) as (A5 & _).
  split.
  - rewrite sapp_assoc. apply appear_app; [exact A|]. now apply appear_app.
  - rewrite sapp_assoc. now apply has_l.
Qed.

Lemma preamble_elements l l' es post : Forall2 (shown E n) l l' -> e_hasHeader E = true -> Forall quiet es ->
  forall pre, Forall quiet pre -> no_preamble pre -> forall st s st', (0 <= r_list st)%Z -> emb_of st = false ->
  renderElementsToc E rec (Some l') (pre ++ Preamble es :: post) st = Ok (s, st') ->
  (appear (texts (text n) false pre ++ texts (text n) false es ++ tw st l ++ texts (text n) false post) s /\ has (flat_map (entry_links low) l) s)
  /\ r_within st' = r_within st /\ r_list st' = r_list st.
Proof.
  intros S0 HH QE pre QP. induction QP as [|v pre QV QP IHp]; intros NP st s st' L EM X.
  - cbn [app renderElementsToc] in X. apply bindM_ok in X as (p & st1 & H1 & X). apply bindM_ok in X as (q & st2 & H2 & X). injection X as <- <-.
    unfold renderPreamble in H1. rewrite HH in H1. apply bindM_ok in H1 as (c & st3 & H3 & Y). apply bindM_ok in Y as (t & st4 & H4 & Y).
    destruct (tr_elements rec n (IH n) false es _ _ _ L EM H3) as (A3 & W3 & L3). pose proof (keys_elements es QE _ _ _ H3) as K3.
    assert (EM3 : emb_of st3 = false) by (unfold emb_of in *; now rewrite W3, L3). assert (L3' : (0 <= r_list st3)%Z) by (rewrite L3; exact L).
    destruct (tr_goodToc E rec IH n l l' _ _ _ S0 L3' EM3 H4) as ((A4 & B4) & W4 & L4). rewrite (K3 "toc-title") in A4 by (cbn; auto).
    assert (EM4 : emb_of st4 = false) by (unfold emb_of in *; now rewrite W4, L4). assert (L4' : (0 <= r_list st4)%Z) by (rewrite L4; exact L3').
    assert (Q : tr false (exec E TPreamble [(".Wrapper", FB true); (".Content", FS c); (".ToC", FS t)])
                  (fun out => appear (texts (text n) false es ++ tw st l) out /\ has (flat_map (entry_links low) l) out)).
    { apply tr_and.
      - rewrite <- (app_nil_r (tw st l)). apply (tr_exec_if E false _ _ [".Wrapper"] [".Content"; ".ToC"] [_; _]); [sh| |repeat constructor; [exact A3|exact A4]].
        intros f [<-|[]]. exists (FB true). auto.
      - apply (tr_field_if E false _ _ [".Wrapper"] ".ToC"); [sh| |exact B4]. intros f [<-|[]]. exists (FB true). auto. }
    destruct (Q _ _ _ L4' EM4 Y) as ((A5 & B5) & W5 & L5).
    assert (EM5 : emb_of st1 = false) by (unfold emb_of in *; now rewrite W5, L5). assert (L5' : (0 <= r_list st1)%Z) by (rewrite L5; exact L4').
    destruct (tr_elements rec n (IH n) false post _ _ _ L5' EM5 H2) as (A6 & W6 & L6).
    split; [split|split; congruence].
    + cbn [texts flat_map app]. rewrite app_assoc. now apply appear_app.
    + now apply has_l.
  - assert (X' : (let* s := rec v in let* q := renderElementsToc E rec (Some l') (pre ++ Preamble es :: post) in ret (s ++ q)%string) st = Ok (s, st')).
    { cbn [app renderElementsToc] in X. destruct v; try exact X. destruct (NP elements). now left. }
    clear X. apply bindM_ok in X' as (a & st1 & H1 & X). apply bindM_ok in X as (b & st2 & H2 & X). injection X as <- <-.
    destruct (IH n false v _ _ _ L EM H1) as (A1 & W1 & L1). pose proof (keys_element v _ _ _ QV H1) as K1.
    assert (EM1 : emb_of st1 = false) by (unfold emb_of in *; now rewrite W1, L1). assert (L1' : (0 <= r_list st1)%Z) by (rewrite L1; exact L).
    destruct (IHp (fun es' I => NP es' (or_intror I)) _ _ _ L1' EM1 H2) as ((A2 & B2) & W2 & L2). rewrite (K1 "toc-title") in A2 by (cbn; auto).
    split; [split|split; congruence].
    + cbn [texts flat_map app]. rewrite <- app_assoc. apply appear_app; [exact A1|exact A2].
    + now apply has_r.
Qed.
Lemma preamble_body l l' pre es post notes st b st' : Forall2 (shown E n) l l' -> e_hasHeader E = true -> Forall quiet es -> Forall quiet pre -> no_preamble pre ->
  (0 <= r_list st)%Z -> emb_of st = false -> mget (r_attrs st) "toc" = Some (VStr "preamble") ->
  renderDocumentBody E rec (pre ++ Preamble es :: post) (Some l') notes st = Ok (b, st') ->
  appear (texts (text n) false pre ++ texts (text n) false es ++ tw st l ++ texts (text n) false post ++ texts (text n) false notes) b /\ has (flat_map (entry_links low) l) b.
Proof.
  intros S0 HH QE QP NP L EM TP X. unfold renderDocumentBody in X. apply bindM_ok in X as (ctx & st1 & [= <- <-] & X). rewrite TP in X.
  apply bindM_ok in X as (s & st1 & H1 & X). apply bindM_ok in X as (f & st2 & H2 & X). injection X as <- <-.
  change (renderElementsToc E rec (Some l') (pre ++ Preamble es :: post) st = Ok (s, st1)) in H1.
  destruct (preamble_elements l l' es post S0 HH QE pre QP NP _ _ _ L EM H1) as ((A & B) & W & L1).
  assert (EM1 : emb_of st1 = false) by (unfold emb_of in *; now rewrite W, L1). assert (L1' : (0 <= r_list st1)%Z) by (rewrite L1; exact L).
  destruct (tr_footnotes E rec IH n notes _ _ _ L1' EM1 H2) as (A5 & _). split; [|now apply has_l].
  replace (_ ++ _ ++ _ ++ _ ++ _) with ((texts (text n) false pre ++ texts (text n) false es ++ tw st l ++ texts (text n) false post) ++ texts (text n) false notes) by (now rewrite <- !app_assoc).
  now apply appear_app.
Qed.
End Body.

(** what is around the body *)
Lemma page_assembly E depth n c d attrs a out title attrs' l (inner marks : list string) :
  rd_toc d = Some l ->
  renderAttrs (rd_elements d) attrs = Ok a ->
  render E depth c d attrs = Ok (out, title, attrs') ->
  (forall id v, mget (e_refs E) id = Some v -> quiet v) ->
  (forall t, headerTitle (rd_elements d) = Some t -> Forall quiet t) ->
  let manpage := String.eqb (getAsStringD (e_fmtv E) a "doctype" "article") "manpage" in
  (manpage = true -> forall name, hd_error (bodyElements (rd_elements d)) = Some name -> quiet name) ->
  (forall E' l' st b st', e_refs E' = e_refs E -> e_toLower E' = e_toLower E -> e_numbers E' = sectionNumbers (rd_elements d) -> e_hasHeader E' = hasHeader (rd_elements d) ->
     Forall2 (shown E' n) l l' -> (0 <= r_list st)%Z -> emb_of st = false -> same_keys st (mkRst a [] false 0 []) ->
     renderDocumentBody E' (renderElement E' depth) (if manpage then tl (bodyElements (rd_elements d)) else bodyElements (rd_elements d)) (Some l') (rd_notes d) st = Ok (b, st') ->
     appear inner b /\ has marks b) ->
  appear (page_around n (rc_wrap c) manpage (ahas attrs' "noheader") (headerTitle (rd_elements d)) (bodyElements (rd_elements d)) inner) out /\ has marks out.
Proof.
  intros TL RA X SI QT manpage QN HB. unfold render in X. rewrite RA in X. cbn [bind] in X.
  set (E' := mkRenv _ _ _ _ _ _ _ _ _ _ _ _ _) in X.
  destruct (renderDocument E' _ c d _) as [[[o t] stf]| |] eqn:R; try discriminate. injection X as -> -> <-.
  unfold renderDocument in R. set (rec := renderElement E' depth) in *.
  assert (IH : forall n emb v, tr emb (rec v) (appear (text n emb v))) by (intros; apply tr_element).
  assert (SI' : forall id v, mget (e_refs E') id = Some v -> quiet v) by exact SI.
  set (st0 := mkRst a [] false 0 []) in *.
  assert (L0 : (0 <= r_list st0)%Z) by (cbn; lia). assert (EM0 : emb_of st0 = false) by reflexivity.
  apply bindM_ok in R as (ti & st1 & H1 & R).
  assert (Q1 : appear (title_words n (headerTitle (rd_elements d))) ti /\ st1 = st0).
  { destruct (headerTitle (rd_elements d)) as [tl0|].
    - unfold lift in H1. destruct (renderPlainText E' (VSlice tl0)) as [s| |] eqn:P; inversion H1; subst. split; [|reflexivity].
      cbn [title_words]. unfold renderPlainText in P. change (texts (text n) false tl0) with (text (S n) false (InlinePassthrough "" tl0)). apply (plain_text E' (S (vsize (VSlice tl0))) (S n) false (Some escapeString) (InlinePassthrough "" tl0)). exact P.
    - inversion H1; subst. split; [exact Logic.I|reflexivity]. }
  destruct Q1 as [T1 ->].
  apply bindM_ok in R as (toc & st2 & H2 & R). rewrite TL in H2. apply bindM_ok in H2 as (l' & st2' & H2 & Z). injection Z as <- <-.
  destruct (tr_showns E' rec IH n l _ _ _ L0 EM0 H2) as (S0 & W2 & L2). pose proof (keys_entries E' depth SI' l _ _ _ H2) as K2.
  assert (EM2 : emb_of st2' = false) by (unfold emb_of in *; now rewrite W2, L2). assert (L2' : (0 <= r_list st2')%Z) by (rewrite L2; exact L0).
  apply bindM_ok in R as ([h b] & st3 & H3 & R).
  assert (Q3 : (if rc_wrap c then appear (first_words n manpage (headerTitle (rd_elements d)) (bodyElements (rd_elements d))) h /\ appear inner b
                else appear ((if manpage then first_words n manpage (headerTitle (rd_elements d)) (bodyElements (rd_elements d)) else []) ++ inner) b) /\ has marks b).
  { unfold splitAndRender in H3. apply bindM_ok in H3 as (ctx & st4 & [= <- <-] & H3). unfold getD in H3.
    replace (getAsStringD (e_fmtv E') (r_attrs st2') "doctype" "article") with (getAsStringD (e_fmtv E) a "doctype" "article") in H3
      by (unfold getAsStringD; rewrite (K2 "doctype") by (cbn; auto); reflexivity).
    fold manpage in H3. destruct manpage eqn:MP.
    - destruct (bodyElements (rd_elements d)) as [|name rest] eqn:BE; [discriminate|]. specialize (QN eq_refl name eq_refl). cbn [tl first_words] in *. destruct (rc_wrap c).
      + apply bindM_ok in H3 as (h0 & st4 & H4 & H3). apply bindM_ok in H3 as (b0 & st5 & H5 & H3). inversion H3; subst.
        destruct (tr_manpageHeader E' rec IH n _ _ _ _ _ L2' EM2 H4) as (A1 & W1 & L1). pose proof (keys_manpage E' depth SI' _ _ _ _ _ QT QN H4) as K4.
        destruct (HB E' l' st4 b st3 eq_refl eq_refl eq_refl eq_refl S0 ltac:(rewrite L1; exact L2') ltac:(unfold emb_of in *; now rewrite W1, L1) ltac:(eapply same_keys_trans; eauto) H5). auto.
      + apply bindM_ok in H3 as (h0 & st4 & H4 & H3). apply bindM_ok in H3 as (b0 & st5 & H5 & H3). inversion H3; subst.
        destruct (tr_manpageHeader E' rec IH n _ _ _ _ _ L2' EM2 H4) as (A1 & W1 & L1).
        pose proof (keys_manpage E' depth SI' None _ _ _ _ ltac:(discriminate) QN H4) as K4.
        destruct (HB E' l' st4 b0 st3 eq_refl eq_refl eq_refl eq_refl S0 ltac:(rewrite L1; exact L2') ltac:(unfold emb_of in *; now rewrite W1, L1) ltac:(eapply same_keys_trans; eauto) H5) as [B1 B2].
        split; [now apply appear_app|now apply has_r].
    - apply bindM_ok in H3 as (h0 & st4 & H4 & H3). apply bindM_ok in H3 as (b0 & st5 & H5 & H3). inversion H3; subst.
      assert (Q : appear (title_words n (headerTitle (rd_elements d))) h /\ (r_within st4 = r_within st2' /\ r_list st4 = r_list st2') /\ same_keys st4 st2').
      { destruct (hasHeader (rd_elements d)) eqn:HH.
        - destruct (tr_header E' rec IH n _ _ _ _ L2' EM2 H4) as (A1 & W1). split; [exact A1|]. split; [exact W1|]. exact (keys_header E' depth SI' _ _ _ _ QT H4).
        - inversion H4; subst. unfold headerTitle. unfold hasHeader in HH. destruct (docHeader _); [discriminate|]. split; [exact Logic.I|]. split; [auto|]. intros k _. reflexivity. }
      destruct Q as (A1 & (W1 & L1) & K4).
      destruct (HB E' l' st4 b st3 eq_refl eq_refl eq_refl eq_refl S0 ltac:(rewrite L1; exact L2') ltac:(unfold emb_of in *; now rewrite W1, L1) ltac:(eapply same_keys_trans; eauto) H5).
      cbn [first_words app]. split; [destruct (rc_wrap c); auto|assumption]. }
  destruct Q3 as [Q3 M3].
  apply bindM_ok in R as (roles & st4 & H4 & R). apply bindM_ok in R as (ctx & st5 & [= <- <-] & R). unfold page_around.
  destruct (rc_wrap c).
  - apply bindM_ok in R as (authors & st5 & H5 & R).
    assert (st5 = st4). { destruct (hasHeader _); unfold lift, ret in H5; [match type of H5 with match ?x with _ => _ end = _ => destruct x end|]; inversion H5; subst; auto. } subst st5.
    match type of R with context [exec ?e ?t ?fs] => set (F := fs) in R end.
    apply bindM_ok in R as (o & st6 & H6 & R). inversion R; subst o ti st6.
    assert (st4 = stf) by (unfold exec, lift in H6; destruct (execute _ _ _); inversion H6; auto). subst st4.
    assert (H7 : exec E' TArticle F st0 = Ok (out, st0)) by (unfold exec, lift in *; destruct (execute _ _ F); inversion H6; auto).
    split; [|exact (proj1 (tr_field E' false TArticle F ".Content" marks ltac:(vm_compute; reflexivity) M3 _ _ _ L0 EM0 H7))].
    destruct Q3 as [A B].
    assert (T2 : appear (title_words n (headerTitle (rd_elements d))) (svalue F ".Title")).
    { change (svalue F ".Title") with (match headerTitle (rd_elements d) with Some _ => title | None => "Untitled" end).
      destruct (headerTitle (rd_elements d)); [exact T1|exact Logic.I]. }
    unfold exec, lift in H6. destruct (execute _ _ F) as [o| |] eqn:TE; inversion H6; subst o. unfold template in TE.
    destruct (ahas (r_attrs stf) "noheader") eqn:NH.
    + cbn [app]. rewrite <- (app_nil_r inner).
      eapply (appear_in [title_words n _; inner] (map (svalue F) [".Title"; ".Content"])); [repeat constructor; assumption|].
      eapply template_shows; [|exact TE]. vm_compute. reflexivity.
    + rewrite <- (app_nil_r inner).
      eapply (appear_in [title_words n _; first_words n manpage _ _; inner] (map (svalue F) [".Title"; ".Header"; ".Content"])); [repeat constructor; assumption|].
      eapply (template_shows_if _ _ _ [".IncludeHTMLBodyHeader"]); [| |exact TE]; [vm_compute; reflexivity|].
      intros f [<-|[]]. exists (FB true). split; [|reflexivity]. reflexivity.
  - inversion R; subst. split; [exact Q3|exact M3].
Qed.

(** When the attribute "toc" is set without a value, the table of contents is before the body: its heading, then for each entry, in order, the number and
    the title of its section, and the link to it. [a]: the attributes at the start of the rendering. *)
Theorem C60_toc_shown : forall E depth n c d attrs a out title attrs' l p,
  rd_toc d = Some l ->
  renderAttrs (rd_elements d) attrs = Ok a ->
  render E depth c d attrs = Ok (out, title, attrs') ->
  mget a "toc" = Some p -> p = VStr "" \/ p = VNil ->
  (forall id v, mget (e_refs E) id = Some v -> quiet v) ->
  (forall t, headerTitle (rd_elements d) = Some t -> Forall quiet t) ->
  let manpage := String.eqb (getAsStringD (e_fmtv E) a "doctype" "article") "manpage" in
  (manpage = true -> forall name, hd_error (bodyElements (rd_elements d)) = Some name -> quiet name) ->
  appear (page_around n (rc_wrap c) manpage (ahas attrs' "noheader") (headerTitle (rd_elements d)) (bodyElements (rd_elements d))
    (toc_words (e_refs E) (sectionNumbers (rd_elements d)) n (mget a "toc-title") l ++ body_words n manpage (bodyElements (rd_elements d)) (rd_notes d))) out
  /\ has (flat_map (entry_links (e_toLower E)) l) out.
Proof.
  intros E depth n c d attrs a out title attrs' l p TL RA X TP PP SI QT manpage QN. eapply page_assembly; eauto. fold manpage.
  intros E' l' st b st' ER EL EN EH S0 L EM K HB. unfold body_words. rewrite <- ER, <- EN, <- EL.
  replace (mget a "toc-title") with (mget (r_attrs st) "toc-title") by (rewrite (K "toc-title") by (cbn; auto); reflexivity).
  eapply top_body; eauto. rewrite (K "toc") by (cbn; auto). exact TP.
Qed.
Print Assumptions C60_toc_shown.

(** When it is set to "preamble", in a document with a header and a preamble, the table of contents is between the preamble and the rest. *)
Theorem C60_toc_in_preamble : forall E depth n c d attrs a out title attrs' l pre es post,
  rd_toc d = Some l ->
  renderAttrs (rd_elements d) attrs = Ok a ->
  render E depth c d attrs = Ok (out, title, attrs') ->
  mget a "toc" = Some (VStr "preamble") ->
  hasHeader (rd_elements d) = true ->
  (forall id v, mget (e_refs E) id = Some v -> quiet v) ->
  (forall t, headerTitle (rd_elements d) = Some t -> Forall quiet t) ->
  let manpage := String.eqb (getAsStringD (e_fmtv E) a "doctype" "article") "manpage" in
  (manpage = true -> forall name, hd_error (bodyElements (rd_elements d)) = Some name -> quiet name) ->
  (if manpage then tl (bodyElements (rd_elements d)) else bodyElements (rd_elements d)) = pre ++ Preamble es :: post ->
  no_preamble pre -> Forall quiet pre -> Forall quiet es ->
  appear (page_around n (rc_wrap c) manpage (ahas attrs' "noheader") (headerTitle (rd_elements d)) (bodyElements (rd_elements d))
    (texts (text n) false pre ++ texts (text n) false es ++
     toc_words (e_refs E) (sectionNumbers (rd_elements d)) n (mget a "toc-title") l ++ texts (text n) false post ++ texts (text n) false (rd_notes d))) out
  /\ has (flat_map (entry_links (e_toLower E)) l) out.
Proof.
  intros E depth n c d attrs a out title attrs' l pre es post TL RA X TP HH SI QT manpage QN SP NP QP QE. eapply page_assembly; eauto. fold manpage. rewrite SP.
  intros E' l' st b st' ER EL EN EH S0 L EM K HB. rewrite <- ER, <- EN, <- EL.
  replace (mget a "toc-title") with (mget (r_attrs st) "toc-title") by (rewrite (K "toc-title") by (cbn; auto); reflexivity).
  eapply preamble_body; eauto; first [rewrite ER; exact SI|congruence|rewrite (K "toc") by (cbn; auto); exact TP].
Qed.
Print Assumptions C60_toc_in_preamble.

(** ** an entry leads to its section *)
Inductive entry_of (l : list tocsec) : tocsec -> Prop :=
| eo_here t : In t l -> entry_of l t
| eo_in id level sub t : entry_of l (TocSec id level sub) -> In t sub -> entry_of l t.
Lemma entry_link low l t : entry_of l t -> forall m, In m (entry_links low t) -> In m (flat_map (entry_links low) l).
Proof.
  induction 1 as [t H|id level sub t EO IHe H]; intros m M; [apply in_flat_map; eauto|]. apply IHe. cbn [entry_links]. apply in_or_app. right. apply in_flat_map. eauto.
Qed.
Corollary C60_entry_reaches_section : forall E depth c d attrs a out title attrs' l p id level sub slevel sattrs stitle es,
  rd_toc d = Some l ->
  renderAttrs (rd_elements d) attrs = Ok a ->
  render E depth c d attrs = Ok (out, title, attrs') ->
  mget a "toc" = Some p -> p = VStr "" \/ p = VNil ->
  (forall id v, mget (e_refs E) id = Some v -> quiet v) ->
  (forall t, headerTitle (rd_elements d) = Some t -> Forall quiet t) ->
  getAsStringD (e_fmtv E) a "doctype" "article" <> "manpage" ->
  entry_of l (TocSec id level sub) ->
  section_of (bodyElements (rd_elements d)) (Section slevel sattrs stitle es) -> mget sattrs "id" = Some (VStr id) -> all_kept id = true ->
  plain_value (e_toLower E id) = true ->
  part (quoted "href" ("#" ++ e_toLower E id)) out /\ part (quoted "id" (e_toLower E id)) out.
Proof.
  intros E depth c d attrs a out title attrs' l p id level sub slevel sattrs stitle es TL RA X TP PP SI QT DT EO SO ID AK PV.
  assert (MP : String.eqb (getAsStringD (e_fmtv E) a "doctype" "article") "manpage" = false) by (destruct (String.eqb_spec (getAsStringD (e_fmtv E) a "doctype" "article") "manpage"); [contradiction|reflexivity]).
  split.
  - destruct (C60_toc_shown E depth 1 c d attrs a out title attrs' l p TL RA X TP PP SI QT ltac:(rewrite MP; discriminate)) as [_ H].
    eapply has_in; [exact H|]. eapply entry_link; [exact EO|]. cbn [entry_links]. apply in_or_app. left. unfold prefixed. rewrite PV. now left.
  - apply (C59_section_element E depth 1 c d attrs a out title attrs' (Section slevel sattrs stitle es)); try assumption.
    + intros i v R. apply (SI i v R). now left.
    + cbn [marks]. rewrite ID, AK. unfold mark. rewrite PV. now left.
Qed.
Print Assumptions C60_entry_reaches_section.

(** ** documents that meet the conditions *)
Lemma quiet_intro v : (forall key, In key ["doctype"; "toc"; "toc-title"] -> ~ declares v key) -> Forall quiet (children v) -> quiet v.
Proof. intros H F key K x X. inversion X as [|? c ? C]; subst; [now apply H|]. rewrite Forall_forall in F. now apply (F c C key K). Qed.
Ltac quiets := repeat match goal with |- Forall quiet _ => constructor | |- quiet _ => apply quiet_intro; [intros ? ? []|cbn [children app map snd]] end.
Lemma rich_quiet x id v : mget (e_refs (rich_env x)) id = Some v -> quiet v.
Proof.
  cbn [rich_env e_refs]. unfold rich_refs. intros H. apply mget_In in H. repeat (destruct H as [H|H]; [injection H as _ <-; quiets|]). destruct H.
Qed.
Theorem C60_example : forall x, exists out title attrs' a,
  renderAttrs (rd_elements rich_doc) (Some []) = Ok a /\
  render (rich_env x) 30 (mkRconf true "2026" ["style.css"]) rich_doc (Some []) = Ok (out, title, attrs') /\
  mget a "toc" = Some VNil /\
  (forall id v, mget (e_refs (rich_env x)) id = Some v -> quiet v) /\
  (forall t, headerTitle (rd_elements rich_doc) = Some t -> Forall quiet t) /\
  getAsStringD (e_fmtv (rich_env x)) a "doctype" "article" <> "manpage" /\
  toc_words (e_refs (rich_env x)) (sectionNumbers (rd_elements rich_doc)) 10 (mget a "toc-title") [TocSec "_one" 1 [TocSec "_two" 2 []]] =
    ["Table"; "of"; "Contents"; "1"; "One"; "bold"; "1.1"; "Two"] /\
  flat_map (entry_links (e_toLower (rich_env x))) [TocSec "_one" 1 [TocSec "_two" 2 []]] = ["href=""#_one"""; "href=""#_two"""].
Proof.
  intros x.
  assert (R : exists r, render (rich_env x) 30 (mkRconf true "2026" ["style.css"]) rich_doc (Some []) = Ok r) by (destruct x; eexists; vm_compute; reflexivity).
  destruct R as [[[o t] a'] R].
  assert (A : exists a0, renderAttrs (rd_elements rich_doc) (Some []) = Ok a0 /\ mget a0 "toc" = Some VNil /\ mget a0 "doctype" = None /\ mget a0 "toc-title" = None)
    by (eexists; vm_compute; repeat split; reflexivity).
  destruct A as (a & A & TP & DT & TT). exists o, t, a', a. split; [exact A|]. split; [exact R|]. split; [exact TP|]. split; [apply rich_quiet|].
  split; [intros l [= <-]; quiets|]. split; [unfold getAsStringD; rewrite DT; discriminate|]. rewrite TT. split; reflexivity.
Qed.
Definition preamble_doc (placement : val) (before : list val) : rdoc := mkRdoc
  ([DocumentHeader (Some [StringElement "Title"]) [] [AttributeDeclaration "toc" placement]] ++ before ++ [Section 1 [("id", VStr "_two")] (Some [StringElement "Two"]) []])
  (Some [TocSec "_two" 1 []]) [].
Theorem C60_preamble_example : forall x, exists out title attrs' a,
  let d := preamble_doc (VStr "preamble") [Preamble [para [StringElement "intro"]]] in
  renderAttrs (rd_elements d) (Some []) = Ok a /\
  render (rich_env x) 30 (mkRconf false "" []) d (Some []) = Ok (out, title, attrs') /\
  mget a "toc" = Some (VStr "preamble") /\ hasHeader (rd_elements d) = true /\
  (forall id v, mget (e_refs (rich_env x)) id = Some v -> quiet v) /\
  (forall t, headerTitle (rd_elements d) = Some t -> Forall quiet t) /\
  String.eqb (getAsStringD (e_fmtv (rich_env x)) a "doctype" "article") "manpage" = false /\
  bodyElements (rd_elements d) = [] ++ Preamble [para [StringElement "intro"]] :: [Section 1 [("id", VStr "_two")] (Some [StringElement "Two"]) []] /\
  Forall quiet [para [StringElement "intro"]].
Proof.
  intros x. cbv zeta.
  assert (A : exists a0, renderAttrs (rd_elements (preamble_doc (VStr "preamble") [Preamble [para [StringElement "intro"]]])) (Some []) = Ok a0 /\ mget a0 "toc" = Some (VStr "preamble") /\ mget a0 "doctype" = None)
    by (eexists; vm_compute; repeat split; reflexivity).
  destruct A as (a & A & TP & DT).
  assert (R : exists o t a', render (rich_env x) 30 (mkRconf false "" []) (preamble_doc (VStr "preamble") [Preamble [para [StringElement "intro"]]]) (Some []) = Ok (o, t, a')).
  { destruct x; do 3 eexists; vm_compute; reflexivity. }
  destruct R as (o & t & a' & R). exists o, t, a', a. split; [exact A|]. split; [exact R|]. split; [exact TP|]. split; [reflexivity|]. split; [apply rich_quiet|].
  split; [intros l [= <-]; quiets|]. split; [unfold getAsStringD; now rewrite DT|]. split; [reflexivity|quiets].
Qed.

(** ** where the table of contents is not shown *)
(** placed after the preamble of a document that has none, the table of contents is not in the output at all *)
Theorem C60_no_preamble_refuted : forall x, exists title attrs',
  render (rich_env x) 30 (mkRconf false "" []) (preamble_doc (VStr "preamble") []) (Some []) =
    Ok (("<div class=""sect1"">" ++ LF ++ "<h2 id=""_two"">Two</h2>" ++ LF ++ "<div class=""sectionbody"">" ++ LF ++ "</div>" ++ LF ++ "</div>" ++ LF)%string, title, attrs').
Proof. intros x. destruct x; do 2 eexists; vm_compute; reflexivity. Qed.
Lemma part_length m s : part m s -> (String.length m <= String.length s)%nat.
Proof. intros (a & b & ->). rewrite !slength_app. lia. Qed.
(** no document that has a table of contents is rendered with another placement than these three *)
Theorem C60_placements : forall E depth c d attrs a out title attrs' l p,
  rd_toc d = Some l ->
  renderAttrs (rd_elements d) attrs = Ok a ->
  render E depth c d attrs = Ok (out, title, attrs') ->
  mget a "toc" = Some p ->
  (forall id v, mget (e_refs E) id = Some v -> quiet v) ->
  (forall t, headerTitle (rd_elements d) = Some t -> Forall quiet t) ->
  let manpage := String.eqb (getAsStringD (e_fmtv E) a "doctype" "article") "manpage" in
  (manpage = true -> forall name, hd_error (bodyElements (rd_elements d)) = Some name -> quiet name) ->
  p = VStr "" \/ p = VNil \/ p = VStr "preamble".
Proof.
  intros E depth c d attrs a out title attrs' l p TL RA X TP SI QT manpage QN.
  assert (D : (p = VStr "" \/ p = VNil \/ p = VStr "preamble") \/ (eq_str p "preamble" = false /\ (eq_str p "" || match p with VNil => true | _ => false end) = false)).
  { destruct p; auto. unfold eq_str. destruct (String.eqb_spec s "preamble") as [->|]; [auto|]. destruct (String.eqb_spec s "") as [->|]; [auto|]. right. auto. }
  destruct D as [D|[D1 D2]]; [exact D|]. exfalso.
  destruct (page_assembly E depth 0 c d attrs a out title attrs' l [] [(out ++ "x")%string] TL RA X SI QT QN) as [_ H].
  - intros E' l' st b st' _ _ _ _ _ _ _ K HB. exfalso. unfold renderDocumentBody in HB. apply bindM_ok in HB as (ctx & st1 & [= <- <-] & HB).
    rewrite (K "toc") in HB by (cbn; auto). cbn [r_attrs] in HB. rewrite TP, D1, D2 in HB. discriminate.
  - inversion H as [|? ? P _]; subst. apply part_length in P. rewrite slength_app in P. cbn in P. lia.
Qed.
Print Assumptions C60_placements.
(** any other placement, such as "left", makes the rendering of the whole document fail *)
Theorem C60_placement_refuted : forall x, render (rich_env x) 30 (mkRconf false "" []) (preamble_doc (VStr "left") []) (Some []) = Err "unsupported table of contents placement".
Proof. intros x. destruct x; vm_compute; reflexivity. Qed.
Print Assumptions C60_placement_refuted.
