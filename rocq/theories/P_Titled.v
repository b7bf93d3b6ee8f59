(** C72: what a document with a title becomes, and the page around a document. *)
From Coq Require Import List String NArith ZArith Bool Lia.
From Verif Require Import GoBase GoLemmas Utf8 Utf8Lemmas Types Attrs Context Elements Merge Subs Refs Footnotes Filter Lists Aggregate Toc Config
  Validator Authors RenderAttrs Templates SectNum TocRender TocLemmas SecSpec Render ApplySubs Convert.
From Verif Require Import Ids IdsSpec P_Ids P_TocLinks Peg PegGrammar PegDoc PegHost PegSym PegBlockSpec PegInlineSpec ConvertSpec P_ListHtml SectionDocSpec TitledSpec P_PegRun P_PegBlocks P_PegPara P_PegDocs P_PegNested P_PegInline P_PegNormal P_PegSections
  P_PegHeader SectionText P_Convert P_SectionDocs P_Sections CtxLemmas.
From Verif Require Tmpl Escape P_PegParse.
Import ListNotations.
Local Open Scope string_scope.
Local Open Scope list_scope.

(** * The page *)
Ltac norm := repeat (rewrite ?GoLemmas.sapp_assoc; cbn [append]).
Lemma article_ok : forall E a css updated title header content st,
  exec E TArticle
      [(".Doctype", Tmpl.FS "article"); (".Generator", Tmpl.FS "libasciidoc"); (".Description", Tmpl.FS (setting a "description"));
       (".Title", Tmpl.FS title); (".Authors", Tmpl.FS "");
       (".Header", Tmpl.FS header); (".Roles", Tmpl.FS ""); (".ID", Tmpl.FS "");
       (".Content", Tmpl.FS content); (".RevNumber", Tmpl.FS (setting a "revnumber")); (".LastUpdated", Tmpl.FS updated);
       (".CSS", Tmpl.FL (map (fun s => [("", s)]) css));
       (".IncludeHTMLBodyHeader", Tmpl.FB (negb (is_set a "noheader"))); (".IncludeHTMLBodyFooter", Tmpl.FB (negb (is_set a "nofooter")))] st
  = Ok (page (e_xhtml E) a css updated title header content, st).
Proof.
  assert (forall sl l, sconcat (map (fun s => s ++ LF)%string (map (fun s => "<link type=""text/css"" rel=""stylesheet"" href=""" ++ s ++ """" ++ sl)%string l)) =
    sconcat (map (fun s => "<link type=""text/css"" rel=""stylesheet"" href=""" ++ s ++ """" ++ sl ++ LF)%string l)) as B.
  { intros sl l. rewrite map_map. f_equal. apply map_ext. intros x. now rewrite !GoLemmas.sapp_assoc. }
  intros E a css updated title header content st. unfold page. rewrite B.
  generalize (setting a "description") (setting a "revnumber") (is_set a "noheader") (is_set a "nofooter"). intros de re nh nf.
  destruct (e_xhtml E) eqn:Ex.
  all: eapply exec_ok; [unfold template; rewrite Ex; vm_compute; reflexivity|]; cbn [Tmpl.exec_nodes Tmpl.exec_node]; cbn.
  - match goal with |- context[?f (map (fun s => [("", s)]) css) 0] => assert (forall l k, f (map (fun s => [("", s)]) l) k = Ok (sconcat (map (fun s => "<link type=""text/css"" rel=""stylesheet"" href=""" ++ s ++ """" ++ "/>" ++ LF)%string l))) as A end.
    { induction l as [|x l IH]; intros k; [reflexivity|]. cbn [map]. cbn. rewrite IH. reflexivity. }
    rewrite A. clear A. set (L := sconcat _). destruct nh, nf, re as [|c0 re]; cbn; apply f_equal; norm; reflexivity.
  - match goal with |- context[?f (map (fun s => [("", s)]) css) 0] => assert (forall l k, f (map (fun s => [("", s)]) l) k = Ok (sconcat (map (fun s => "<link type=""text/css"" rel=""stylesheet"" href=""" ++ s ++ """" ++ ">" ++ LF)%string l))) as A end.
    { induction l as [|x l IH]; intros k; [reflexivity|]. cbn [map]. cbn. rewrite IH. reflexivity. }
    rewrite A. clear A. set (L := sconcat _). destruct nh, nf, de as [|c1 de], re as [|c0 re]; cbn; apply f_equal; norm; reflexivity.
Qed.

(** * The end of the conversion *)
Section Ending.
Variable E : renv.
(** what surrounds the content, and the title of the metadata *)
Definition output (a : attributes) (c : config) (ot : option (list rune)) (content : string) : string * string :=
  let title := match ot with Some t => encode_runes t | None => "" end in
  (if c_wrap c then page (e_xhtml E) a (c_css c) (c_updated c) (match ot with Some t => encode_runes t | None => "Untitled" end)
                      (match ot with Some t => title_html t | None => "" end) content
   else content, title).
Lemma header_rendered : forall E' n t st, title t -> unicode_on st -> mget (r_attrs st) "authors" = None ->
  renderDocumentHeader E' (renderElement E' (S n)) (Some [StringElement (encode_runes t)]) st = Ok (title_html t, st).
Proof.
  intros E' n t st Ti Un Na. unfold renderDocumentHeader. erewrite bind_ok by (apply string_elements_ok; exact Un).
  unfold renderDocumentDetails, bindM, getAttrs, ret. unfold ahas, mhas. rewrite Na.
  erewrite exec_ok; [|unfold template; destruct (e_xhtml E'); vm_compute; reflexivity|cbn; reflexivity].
  f_equal. unfold title_html. cbn [map vhtml sconcat fold_right]. norm. rewrite ?GoLemmas.sapp_nil_r. reflexivity.
Qed.
Lemma rendered_document : forall (c : config) a els refs tc used ot n body h,
  c_attrs c = Some a -> (forall k, In k page_names -> mget a k = None) -> page_texts a ->
  docHeader els = match ot with Some t => Some (header_val t, 0) | None => None end ->
  match ot with Some t => title t | None => True end ->
  bodyElements els = body -> (forall b, leadingDecls els b = b) -> sectionNumbers els = [] ->
  known refs tc used ->
  (forall E' st, alike E E' -> e_numbers E' = [] -> e_hasHeader E' = (match ot with Some _ => true | None => false end) -> quiet st ->
     exists st', renderElements (renderElement E' (S n)) body st = Ok (h, st') /\ same st st') ->
  (do c' <- validateInto (e_toLower E) (e_fmtv E) els c;
   let E' := mkRenv (e_xhtml E) (e_toLower E) (e_fmtv E) (e_columns E) (e_src E) (e_alt E) (e_iconpath E) (e_macro E) (e_raw E)
                   (e_highlight E) refs [] false in
   render E' (S n) (mkRconf (c_wrap c') (c_updated c') (c_css c'))
    (mkRdoc els (option_map toc_sections (match toc_sections tc with [] => None | _ => Some tc end)) []) (c_attrs c'))
  = Ok (output a c ot h, RenderAttrs.labels a).
Proof.
  intros c a els refs tc used ot n body h Ea Na Nt Hd Ti Nb Nl Ns K Rn.
  assert (forall k, In k section_names -> mget a k = None) as Nse by (intros k I; apply Na; unfold page_names; apply in_or_app; now left).
  assert (forall k, In k neutral_names -> mget a k = None) as Nn by (intros k I; apply Nse; unfold section_names; apply in_or_app; now left).
  unfold validateInto, attrs_of, validate, AttrDocType. rewrite Ea. unfold getAsStringD at 1. rewrite (Nn "doctype") by now left. cbn [String.eqb Ascii.eqb Bool.eqb bind].
  unfold render. cbn [rd_elements]. rewrite Ea. unfold renderAttrs, newContextAttrs, expandHeader, headerDecls. rewrite Hd.
  assert (match match ot with Some t => Some (header_val t, 0) | None => None end with
          | Some (DocumentHeader _ _ hes, _) =>
              do au <- headerAuthors hes;
              do a <- (match au with Some l => do x <- expandAuthors l; Ok (aaddall (RenderAttrs.labels a) x) | None => Ok (RenderAttrs.labels a) end);
              Ok (match headerRevision hes with Some r => aaddall a (expandRevision r) | None => a end)
          | _ => Ok (RenderAttrs.labels a) end = Ok (RenderAttrs.labels a)) as -> by (destruct ot; reflexivity).
  cbn [bind]. rewrite Nl.
  assert (match match ot with Some t => Some (header_val t, 0) | None => None end with
          | Some (DocumentHeader _ _ hes, _) => fold_left declare hes (RenderAttrs.labels a) | _ => RenderAttrs.labels a end = RenderAttrs.labels a) as -> by (destruct ot; reflexivity).
  rewrite Ns.
  set (E' := mkRenv _ _ _ _ _ _ _ _ _ _ _ _ _). unfold renderDocument, headerTitle. cbn [rd_elements rd_toc rd_notes].
  set (st := mkRst _ _ _ _ _).
  assert (forall k, In k page_names -> mget (r_attrs st) k = None) as Qa.
  { intros k I. cbn [r_attrs st]. rewrite labels_get; [now apply Na|]. cbv [page_names section_names neutral_names In app] in I.
    repeat destruct I as [<-|I]; try reflexivity; destruct I. }
  assert (quiet st) as Q.
  { split; [|split; reflexivity]. intros k I. apply Qa. unfold page_names, section_names. apply in_or_app. left. apply in_or_app. now left. }
  rewrite Hd.
  set (rec := renderElement E' (S n)).
  rewrite (bind_ok _ _ _ _ st (match ot with Some t => encode_runes t | None => "" end) st).
  2: { destruct ot as [t|]; [|reflexivity]. cbn [header_val]. unfold lift, renderPlainText. cbn -[trim_right_char encode_runes]. destruct (title_trim t 0 Ti) as [Tr _]. rewrite app_nil_r in Tr. rewrite Tr, GoLemmas.sapp_nil_r. reflexivity. }
  assert (exists toc, (match option_map toc_sections (match toc_sections tc with [] => None | _ => Some tc end) with
              | None => ret None
              | Some l => let* t := prerenderEntries E' rec l in ret (Some t)
              end) st = Ok (toc, st)) as (toc & Qt).
  { destruct (prerender_ok refs tc used E' n st K eq_refl (quiet_unicode st Q)) as (ts & Qp).
    destruct (toc_sections tc) as [|x l] eqn:Et; [exists None; reflexivity|]. cbn [option_map]. rewrite Et. exists (Some ts). erewrite bind_ok by exact Qp. reflexivity. }
  rewrite (bind_ok _ _ _ _ _ _ _ Qt).
  destruct (Rn E' st (conj eq_refl eq_refl) eq_refl) as (st1 & B & Sm).
  { cbn [e_hasHeader E']. unfold hasHeader. rewrite Hd. destruct ot; reflexivity. }
  { exact Q. }
  assert (splitAndRender E' rec (mkRconf (c_wrap c) (c_updated c) (c_css c)) (mkRdoc els (option_map toc_sections (match toc_sections tc with [] => None | _ => Some tc end)) []) toc st
    = Ok ((match ot with Some t => title_html t | None => "" end, h), st1)) as Sp.
  { unfold splitAndRender. unfold bindM at 1. unfold getAttrs. unfold getD, getAsStringD. rewrite (Qa "doctype") by (cbn; tauto). cbn [String.eqb Ascii.eqb Bool.eqb rd_elements rd_notes].
    erewrite bind_ok with (x := match ot with Some t => title_html t | None => "" end).
    2: { unfold hasHeader, headerTitle. rewrite Hd. destruct ot as [t|]; [|reflexivity]. cbn [header_val]. unfold header_val. apply header_rendered; [exact Ti|exact (quiet_unicode st Q)|apply Qa; cbn; tauto]. }
    erewrite bind_ok with (x := h); [reflexivity|].
    unfold renderDocumentBody. unfold bindM at 1. unfold getAttrs. rewrite (Qa "toc") by (cbn; tauto). rewrite Nb.
    erewrite bind_ok by exact B. erewrite bind_ok by reflexivity. unfold ret. now rewrite GoLemmas.sapp_nil_r. }
  rewrite (bind_ok _ _ _ _ _ _ _ Sp). cbn [snd fst].
  rewrite (bind_ok _ _ _ _ st1 "" st1).
  2: { unfold hasHeader, headerAttrs. rewrite Hd. destruct ot; reflexivity. }
  unfold bindM at 1. unfold getAttrs. rewrite (proj1 Sm). cbn [rc_wrap]. unfold output. destruct (c_wrap c) eqn:Ew; cbn [rc_updated rc_css].
  - rewrite (bind_ok _ _ _ _ st1 "" st1).
    2: { unfold hasHeader, headerElements. rewrite Hd. destruct ot; reflexivity. }
    unfold getD. unfold getAsStringD at 1. rewrite (Qa "doctype") by (cbn; tauto).
    assert (forall k, In k ["description"; "revnumber"] -> getAsStringD (e_fmtv E') (r_attrs st) k "" = setting a k) as Tx.
    { intros k I. specialize (Nt k I). unfold getAsStringD, setting. cbn [r_attrs st].
      rewrite labels_get by (repeat destruct I as [<-|I]; try reflexivity; destruct I). destruct (mget a k) as [[]|]; try reflexivity; destruct Nt. }
    rewrite (Tx "description"), (Tx "revnumber") by (cbn; tauto). unfold ahas.
    assert (forall k, In k ["noheader"; "nofooter"] -> mhas (r_attrs st) k = is_set a k) as Fx.
    { intros k I. unfold mhas, is_set. cbn [r_attrs st]. rewrite labels_get by (repeat destruct I as [<-|I]; try reflexivity; destruct I). reflexivity. }
    rewrite (Fx "noheader"), (Fx "nofooter") by (cbn; tauto).
    unfold hasHeader, headerAttrs. rewrite Hd.
    replace (if match match ot with Some t => Some (header_val t, 0) | None => None end with Some _ => true | None => false end
             then renderElementID match match ot with Some t => Some (header_val t, 0) | None => None end with Some (DocumentHeader _ a0 _, _) => a0 | _ => [] end
             else "") with "" by (destruct ot; reflexivity).
    rewrite (bind_ok _ _ _ _ _ _ _ (article_ok E' a _ _ _ _ _ _)). unfold ret. rewrite (proj1 Sm). cbn [e_xhtml E']. destruct ot; reflexivity.
  - unfold ret. rewrite (proj1 Sm). reflexivity.
Qed.
End Ending.

(** * The preamble *)
Lemma good_element : forall w, good w -> before_section w = true /\ substantial w = true.
Proof. intros w (v & Sv & Vi). destruct Sv as [| | | |items b h _ _ B| |]; [discriminate Vi| | | |destruct B|discriminate Vi|]; split; reflexivity. Qed.
Lemma text_tree : forall E0 es p, nested (e_toLower E0) 0 es p -> Forall is_text es -> forall ns, noded E0 es ns ->
  exists vs, ns = map NText vs /\ Forall good vs /\ srendered E0 vs p /\ (p = "" <-> vs = []).
Proof.
  intros E0 es p N. induction N as [k|k x es s N IH|]; intros F ns Nd.
  - inversion Nd; subst. exists []. repeat split; [constructor|apply srendered_nil].
  - inversion F as [|? ? _ F']; subst. inversion Nd as [|h w es' ns' G R Nh Nd'|es' ns' Nd'|]; subst.
    + destruct (IH F' _ Nd') as (vs & -> & Fg & Rn & _). exists (w :: vs). repeat split; [now constructor| | |].
      * change (w :: vs) with ([w] ++ vs). apply srendered_app; [|exact Rn]. destruct R as (d0 & R). exists d0. intros d Ld E st Al _ Q. destruct (R d Ld E st Al Q) as (st' & Q1 & S1). exists st'. split; [|exact S1].
        cbn [renderElements]. unfold bindM. rewrite Q1. unfold ret. now rewrite GoLemmas.sapp_nil_r.
      * intros Q. destruct x; [congruence|discriminate Q].
      * discriminate.
    + apply IH; auto.
  - inversion F as [|? ? Q _]; subst. destruct Q.
Qed.
Lemma tree_texts : forall k ws ns vs, tree k ns vs -> tree k (map NText ws ++ ns) (ws ++ vs).
Proof. intros k ws ns vs T. induction ws as [|w ws IH]; [exact T|]. cbn [map app]. now constructor. Qed.
Lemma noded_texts : forall ws, Forall good ws -> Forall good_node (map NText ws).
Proof. induction 1; constructor; auto. Qed.
(** the elements of the document, those of its body after the preamble is made, and their HTML *)
Lemma contents_tree : forall E0 es h, TitledSpec.contents (e_toLower E0) es h -> forall ns, noded E0 es ns -> forall t,
  exists vs body, tree 0 ns vs /\ insertPreamble (header_val t :: vs) = Ok (header_val t :: body) /\
    Forall (fun x => forall p c, traverse x false p c = ([], false, c)) body /\
    exists d0, forall k, d0 <= k -> forall E st, alike E0 E -> e_numbers E = [] -> e_hasHeader E = true -> quiet st ->
      exists st', renderElements (renderElement E k) body st = Ok (h, st') /\ same st st'.
Proof.
  intros E0 es h C ns Nd t. destruct C as [es h F N|es l id tt es' p h F N1 N2].
  - destruct (text_tree _ _ _ N F _ Nd) as (vs & -> & Fg & (d0 & Rn) & _). exists vs, vs. pose proof (tree_texts 0 vs [] [] (tree_nil 0)) as T. rewrite !app_nil_r in T.
    split; [exact T|]. split; [|split; [exact (traverse_tree _ _ _ T (noded_texts _ Fg))|]].
    + apply C36_no_preamble_without_section. constructor; [reflexivity|]. eapply Forall_impl; [|exact Fg]. intros w (v & Sv & _). destruct Sv as [| | | |items b h0 _ _ B| |]; [| | | |destruct B| |]; reflexivity.
    + exists d0. intros k L E st Lo Nu _ Q. now apply Rn.
  - apply noded_app in Nd. destruct Nd as (ns1 & ns2 & -> & Nd1 & Nd2). destruct (text_tree _ _ _ N1 F _ Nd1) as (vs1 & -> & Fg & (d1 & R1) & Ep).
    destruct (nested_tree _ _ _ _ N2 ns2 Nd2) as (vs2 & T2 & (d2 & R2)). pose proof (noded_good _ _ _ Nd2) as Gd2.
    assert (exists sl sa st se rest, vs2 = Section sl sa st se :: rest) as (sl & sa & sti & se & rest & E2).
    { inversion Nd2; subst. inversion T2; subst. unfold section_val. do 5 eexists. reflexivity. }
    pose proof (C36_preamble [] [StringElement (encode_runes t)] [] [] vs1 sl sa sti se rest (or_introl eq_refl)) as Pr. cbn [app] in Pr. rewrite <- E2 in Pr.
    assert (forallb before_section vs1 = true) as B by (apply forallb_forall; rewrite Forall_forall in Fg; intros w I; now apply good_element, Fg). specialize (Pr B).
    pose proof (tree_texts 0 vs1 ns2 vs2 T2) as T. pose proof (traverse_tree _ _ _ T) as Tv.
    assert (Forall good_node (map NText vs1 ++ ns2)) as Gd by (apply Forall_app; split; [now apply noded_texts|exact Gd2]). specialize (Tv Gd).
    exists (vs1 ++ vs2). destruct vs1 as [|w vs1].
    + rewrite (proj2 Ep eq_refl).
      exists vs2. split; [exact T|]. split; [exact Pr|]. split; [exact Tv|]. exists d2. intros k L E st Lo Nu _ Q. now apply R2.
    + exists (Preamble (w :: vs1) :: vs2). split; [exact T|]. split; [|split].
      * refine (eq_trans Pr _). cbn [existsb]. inversion Fg as [|? ? Gw _]; subst. rewrite (proj2 (good_element w Gw)). reflexivity.
      * constructor; [reflexivity|]. apply Forall_app in Tv. apply Tv.
      * exists (S (d1 + d2)). intros k L E st Lo Nu Hh Q. destruct k as [|k]; [lia|].
        destruct (R1 k ltac:(lia) E st Lo Nu Q) as (st1 & Q1 & S1). destruct (R2 (S k) ltac:(lia) E st1 Lo Nu (same_quiet _ _ S1 Q)) as (st2 & Q2 & S2).
        exists st2. split; [|eapply same_trans; eauto]. cbn [renderElements].
        assert (renderElement E (S k) (Preamble (w :: vs1)) st = Ok (preamble_html p, st1)) as Qp.
        { cbn [renderElement renderElementWith]. unfold renderPreamble. erewrite bind_ok by exact Q1. erewrite bind_ok by reflexivity. rewrite Hh.
          erewrite exec_ok; [|unfold template; destruct (e_xhtml E); vm_compute; reflexivity|cbn; reflexivity]. f_equal. f_equal. unfold preamble_html.
          destruct (String.eqb_spec p "") as [->|_]; [pose proof (proj1 Ep eq_refl) as Z; discriminate Z|]. norm. reflexivity. }
        erewrite bind_ok by exact Qp. erewrite bind_ok by exact Q2. reflexivity.
Qed.

(** * The stages *)
Section TitledStages.
Variable X : Type.
Variable cls : string -> Peg.rune -> bool.
Variable low : Peg.rune -> Peg.rune.
Variable white : Peg.rune -> bool.
Variable other : string -> Peg.labels (PegHost.hv X) -> Peg.soft PegHost.gstore (option (list string)) -> option (Peg.value (PegHost.hv X) * bool).
Notation H := (PegHost.go_host X cls low white other).
Hypothesis U : unicode_ok H.
Variable E : renv.
Variable setColumns : val -> list val -> result val.
Variable user : list string.
Notation refined := (refined X cls low white other user).
Notation substituted := (substituted X cls low white other E setColumns user).
Lemma header_refined : forall t, refined (header_val t) (header_val t).
Proof. intros t. now apply refined_same. Qed.
Lemma header_substituted : forall t, substituted (header_val t) (header_val t).
Proof.
  intros t a. exists 0. intros n _ f nested _. unfold header_val. cbn [applyElement].
  reflexivity.
Qed.
Lemma titled_stage : forall text t ps, TitledSpec.titled (cls "L") (cls "N") white (macro_name user) text t ps ->
  exists n0, forall n, n0 <= n -> parseStage X cls low white other n user text = Some (map (fun v => inl [v]) (header_val t :: map part_val ps)).
Proof.
  intros text t ps D. set (g := ctx_store user None normalSubstitutions).
  destruct (titled_run X cls low white other U user text t ps D [] (Soft [] [] false g (state0 H)) eq_refl eq_refl eq_refl eq_refl eq_refl) as (n0 & fs & q & F & M).
  exists n0. intros n L. assert (parse_fragments H n text g = Some (fs, Finished, q)) as Pf by (unfold parse_fragments; eapply P_PegParse.fragments_mono; [exact L|exact F]).
  unfold parseStage. fold g. rewrite Pf. rewrite app_nil_r. f_equal.
  change (map (fun f : PegDoc.fragment H => Convert.elements_of X (f_element f)) fs = map (fun v => inl [v]) (header_val t :: map part_val ps)).
  etransitivity; [symmetry; apply (map_map (@f_element H) (Convert.elements_of X))|].
  etransitivity; [exact (f_equal (map (Convert.elements_of X)) M)|]. cbn [map]. rewrite !map_map. reflexivity.
Qed.
End TitledStages.

(** C72, the attributes of the context *)
Lemma context_none : forall a k, mget a k = None -> mget (callAttributes (newContextAttributes a)) k = None.
Proof. intros a k Q. rewrite mget_callAttributes. cbn [immutableAttrs docAttrs newContextAttributes last_assoc]. rewrite CtxLemmas.last_assoc_None; [reflexivity|now apply mget_None]. Qed.

(** C72 *)
Theorem C72_converted : forall X cls low white other, unicode_ok (go_host X cls low white other) ->
  forall E setColumns (c : config) a text t ps es h,
  c_attrs c = Some a -> (forall k, In k page_names -> mget a k = None) -> page_texts a ->
  TitledSpec.titled (cls "L") (cls "N") white (macro_name (map fst (c_macros c))) text t ps ->
  entries (cls "L") (cls "N") white (map fst (c_macros c)) (e_xhtml E) (e_toLower E) [] ps es -> TitledSpec.contents (e_toLower E) es h ->
  exists n0 a', forall n, n0 <= n -> convert X cls low white other E setColumns n c text =
    Ok (if c_wrap c then page (e_xhtml E) a (c_css c) (c_updated c) (encode_runes t) (title_html t) h else h, encode_runes t, a').
Proof.
  intros X cls low white other U E setColumns c a text t ps es h Ea Na Nt D En Co. set (user := map fst (c_macros c)) in *.
  assert (title t /\ Forall P_SectionDocs.titled ps) as [Ti Tp] by (destruct D; split; [assumption|eapply manuscript_titled; eassumption]).
  destruct (entries_flow X cls low white other U E setColumns user [] ps es En Tp) as (vs1 & vs' & fs & ns & Fl).
  destruct (titled_stage X cls low white other U user text t ps D) as (n1 & P).
  destruct (flow_refine X cls low white other E setColumns user _ _ _ _ _ _ _ Fl) as (n2 & d2 & Rf).
  destruct (header_refined X cls low white other setColumns user t) as (n4 & d4 & Rh).
  destruct (apply_all X cls low white other E setColumns user (header_val t :: vs1) (header_val t :: vs') a) as (n3 & Sb).
  { constructor; [apply header_substituted|exact (flow_apply X cls low white other E setColumns user _ _ _ _ _ _ _ Fl)]. }
  pose proof (flow_noded X cls low white other U E setColumns user _ _ _ _ _ _ _ Fl) as Nd. pose proof (noded_good _ _ _ Nd) as Gd.
  destruct (contents_tree _ _ _ Co ns Nd t) as (vs & body & T & Ip & Tv & (d3 & Rn)).
  pose (cx := newContextAttributes a).
  assert (forall k, In k section_names -> mget (callAttributes cx) k = None) as Nc.
  { intros k I. apply context_none, Na. unfold page_names. apply in_or_app. now left. }
  destruct (agg_flow_ok (cls "L") (cls "N") (e_fmtv E) cx (ascii_words X cls low white other U) (Nc "idprefix" ltac:(cbn; tauto)) (Nc "idseparator" ltac:(cbn; tauto))
    [] fs ns (flow_agg X cls low white other E setColumns user _ _ _ _ _ _ _ Fl) [] (newToc (cgetAsInt cx AttrTableOfContentsLevels 2)) (mkAgg [header_val t] [])) as (refs & tc & used & Ag & K).
  { split; [|split]; [intros x; split; [discriminate|intros []]|discriminate|intros x []]. }
  exists (S (S (n1 + n2 + d2 + n3 + n4 + d4 + d3))), (RenderAttrs.labels a). intros n L. unfold convert, attrs_of. rewrite Ea. fold user.
  assert (parseDocument X cls low white other E setColumns n user a text = Ok (mkDoc (header_val t :: body) refs (match toc_sections tc with [] => None | _ => Some tc end), [])) as ->.
  { unfold parseDocument. rewrite P by lia. erewrite refine_all.
    2: { cbn [mapM]. rewrite Rh by lia. cbn [bind]. rewrite Rf by lia. reflexivity. }
    cbn [bind]. unfold ctx0 in Sb. rewrite Sb by lia. cbn [bind]. cbn [map collectStage collectFootnotes sub_all].
    assert (forall f, substituteFootnotes f (header_val t) = (f, header_val t)) as Sf by reflexivity. rewrite Sf. cbn [fst snd].
    rewrite (flow_collect X cls low white other E setColumns user _ _ _ _ _ _ _ Fl). cbn [map].
    unfold filterStage. cbn [map]. fold (filterStage (map arrangeLists (map (fun v => inl [v]) vs'))). rewrite (flow_arrange X cls low white other E setColumns user _ _ _ _ _ _ _ Fl).
    rewrite map_map. unfold aggregate, aggInit.
    match goal with |- context[aggFragments ?l ?m ?f ?s (toFrag ?x :: ?r)] => assert (toFrag x = Aggregate.Frag [header_val t]) as -> by reflexivity end.
    cbn [aggFragments aggElements].
    match goal with |- context[aggElement ?l ?m ?f (mkAS ?c0 ?r0 ?t0 ?a0) (header_val t)] => assert (aggElement l m f (mkAS c0 r0 t0 a0) (header_val t) = Some (mkAS c0 [] t0 (mkAgg [header_val t] []))) as -> by reflexivity end.
    fold cx. rewrite Ag. cbn [as_tree as_refs as_toc as_ctx].
    change (mkAgg [header_val t] []) with (step (mkAgg [] []) (NText (header_val t))). change (fold_left step ns (step (mkAgg [] []) (NText (header_val t)))) with (fold_left step (NText (header_val t) :: ns) (mkAgg [] [])).
    rewrite (tree_document (NText (header_val t) :: ns) (header_val t :: vs)) by now constructor.
    replace (match refs with [] => header_val t :: vs | _ => map (resolveCrossReferences (cls "L") (cls "N") (e_fmtv E) (callAttributes cx)) (header_val t :: vs) end) with (header_val t :: vs).
    2: { destruct refs; [reflexivity|]. cbn [map]. now rewrite (tree_resolved _ _ _ 0 ns vs T Gd). }
    cbn [d_elements d_refs d_toc]. rewrite Ip. reflexivity. }
  cbn [bind d_elements d_refs d_toc]. destruct n as [|n]; [lia|].
  assert (sectionNumbers (header_val t :: body) = []) as Ns.
  { unfold sectionNumbers. cbn [docHeader docHeader_from header_val]. unfold header_val at 1. unfold docHeader. cbn [docHeader_from]. unfold traverseElements. cbn [traverse_list snd].
    unfold header_val. cbn [traverse_list traverse]. clear - Tv.
    assert (forall c, traverse_list body false "" c = ([], false)) as B.
    { induction Tv as [|x vs X _ IH]; intros c; [reflexivity|]. cbn [traverse_list]. rewrite X, IH. reflexivity. }
    rewrite B. reflexivity. }
  pose proof (rendered_document E c a (header_val t :: body) refs tc used (Some t) n body h Ea Na Nt eq_refl Ti eq_refl (fun b => eq_refl) Ns K) as Re.
  unfold output in Re. apply Re. intros E' st Lo Nu Hh Q. apply Rn; auto. lia.
Qed.
Print Assumptions C72_converted.

(** the page around a document without title *)
Theorem C72_page : forall X cls low white other, unicode_ok (go_host X cls low white other) ->
  forall E setColumns (c : config) a text ps es h,
  c_attrs c = Some a -> (forall k, In k page_names -> mget a k = None) -> page_texts a ->
  manuscript (cls "L") (cls "N") white (macro_name (map fst (c_macros c))) true text ps ->
  entries (cls "L") (cls "N") white (map fst (c_macros c)) (e_xhtml E) (e_toLower E) [] ps es -> nested (e_toLower E) 0 es h ->
  exists n0 a', forall n, n0 <= n -> convert X cls low white other E setColumns n c text =
    Ok (if c_wrap c then page (e_xhtml E) a (c_css c) (c_updated c) "Untitled" "" h else h, "", a').
Proof.
  intros X cls low white other U E setColumns c a text ps es h Ea Na Nt D En Ne. set (user := map fst (c_macros c)) in *.
  destruct (entries_flow X cls low white other U E setColumns user [] ps es En (manuscript_titled _ _ _ _ _ _ D)) as (vs1 & vs' & fs & ns & Fl).
  destruct (manuscript_stage X cls low white other U user text ps D) as (n1 & P).
  destruct (flow_refine X cls low white other E setColumns user _ _ _ _ _ _ _ Fl) as (n2 & d2 & Rf).
  destruct (apply_all X cls low white other E setColumns user _ _ a (flow_apply X cls low white other E setColumns user _ _ _ _ _ _ _ Fl)) as (n3 & Sb).
  pose proof (flow_noded X cls low white other U E setColumns user _ _ _ _ _ _ _ Fl) as Nd. pose proof (noded_good _ _ _ Nd) as Gd.
  destruct (nested_tree _ _ _ _ Ne ns Nd) as (vs & T & (d3 & Rn)).
  pose (cx := newContextAttributes a).
  assert (forall k, In k section_names -> mget (callAttributes cx) k = None) as Nc.
  { intros k I. apply context_none, Na. unfold page_names. apply in_or_app. now left. }
  destruct (agg_flow_ok (cls "L") (cls "N") (e_fmtv E) cx (ascii_words X cls low white other U) (Nc "idprefix" ltac:(cbn; tauto)) (Nc "idseparator" ltac:(cbn; tauto))
    [] fs ns (flow_agg X cls low white other E setColumns user _ _ _ _ _ _ _ Fl) [] (newToc (cgetAsInt cx AttrTableOfContentsLevels 2)) (mkAgg [] [])) as (refs & tc & used & Ag & K).
  { split; [|split]; [intros x; split; [discriminate|intros []]|discriminate|intros x []]. }
  destruct (tree_header _ _ T Gd) as (Nh & Nb & Nl).
  exists (S (S (n1 + n2 + d2 + n3 + d3))), (RenderAttrs.labels a). intros n L. unfold convert, attrs_of. rewrite Ea. fold user.
  assert (parseDocument X cls low white other E setColumns n user a text = Ok (mkDoc vs refs (match toc_sections tc with [] => None | _ => Some tc end), [])) as ->.
  { unfold parseDocument. rewrite P by lia. erewrite refine_all by (apply Rf; lia). cbn [bind]. unfold ctx0 in Sb. rewrite Sb by lia. cbn [bind].
    rewrite (flow_collect X cls low white other E setColumns user _ _ _ _ _ _ _ Fl), (flow_arrange X cls low white other E setColumns user _ _ _ _ _ _ _ Fl).
    rewrite map_map. unfold aggregate, aggInit. fold cx. rewrite Ag. cbn [as_tree as_refs as_toc as_ctx]. rewrite (tree_document _ _ T).
    replace (match refs with [] => vs | _ => map (resolveCrossReferences (cls "L") (cls "N") (e_fmtv E) (callAttributes cx)) vs end) with vs
      by (destruct refs; [reflexivity|symmetry; now apply (tree_resolved _ _ _ 0 ns)]).
    cbn [d_elements d_refs d_toc]. unfold insertPreamble, newPreamble. rewrite Nh. reflexivity. }
  cbn [bind d_elements d_refs d_toc]. destruct n as [|n]; [lia|].
  pose proof (rendered_document E c a vs refs tc used None n vs h Ea Na Nt Nh Logic.I Nb Nl (tree_numbers _ _ T Gd Nh) K) as Re.
  unfold output in Re. apply Re. intros E' st Lo Nu Hh Q. apply Rn; auto. lia.
Qed.
Print Assumptions C72_page.

(** * A document *)
Definition a_report : string :=
"= My report: 1 

Intro

== Part
Text
".
Definition report_config : config :=
  match newConfiguration "" [WithHeaderFooter true; WithCSS ["a.css"; "b.css"]; WithLastUpdated "today"; WithAttribute "nofooter" (Types.VStr ""); WithAttribute "description" (Types.VStr "About me")] with Ok c => c | _ => mkConfig "" None "" false [] "" [] end.
Definition report_html : string :=
"<!DOCTYPE html>
<html lang=""en"">
<head>
<meta charset=""UTF-8"">
<meta http-equiv=""X-UA-Compatible"" content=""IE=edge"">
<meta name=""viewport"" content=""width=device-width, initial-scale=1.0"">
<meta name=""generator"" content=""libasciidoc"">
<meta name=""description"" content=""About me"">
<link type=""text/css"" rel=""stylesheet"" href=""a.css"">
<link type=""text/css"" rel=""stylesheet"" href=""b.css"">
<title>My report: 1</title>
</head>
<body class=""article"">
<div id=""header"">
<h1>My report: 1</h1>
</div>
<div id=""content"">
<div id=""preamble"">
<div class=""sectionbody"">
<div class=""paragraph"">
<p>Intro</p>
</div>
</div>
</div>
<div class=""sect1"">
<h2 id=""_part"">Part</h2>
<div class=""sectionbody"">
<div class=""paragraph"">
<p>Text</p>
</div>
</div>
</div>
</div>
</body>
</html>
".
Theorem C72_run : match convert Empty_set demo_cls demo_low demo_white (fun _ _ _ => None) demo_env (fun t _ => Ok t) 300 report_config (R a_report) with
  | Ok (s, t, _) => Some (s, t) | _ => None end = Some (report_html, "My report: 1").
Proof. vm_compute. reflexivity. Qed.
Theorem C72_hypotheses : exists a ps es h, c_attrs report_config = Some a /\ (forall k, In k page_names -> mget a k = None) /\ page_texts a /\ c_wrap report_config = true /\
  unicode_ok demo_go /\ TitledSpec.titled (demo_cls "L") (demo_cls "N") demo_white (macro_name (map fst (c_macros report_config))) (R a_report) (R "My report: 1") ps /\
  entries (demo_cls "L") (demo_cls "N") demo_white (map fst (c_macros report_config)) (e_xhtml demo_env) (e_toLower demo_env) [] ps es /\ TitledSpec.contents (e_toLower demo_env) es h /\
  page (e_xhtml demo_env) a (c_css report_config) (c_updated report_config) "My report: 1" (title_html (R "My report: 1")) h = report_html.
Proof.
  eexists _, [Block BlankLine; Block (Paragraph [] (raw_lines [R "Intro"])); Block BlankLine; Heading 1 (R "Part"); Block (Paragraph [] (raw_lines [R "Text"]))], _, _.
  split; [reflexivity|]. split; [intros k I; cbn in I; repeat destruct I as [<-|I]; try reflexivity; destruct I|]. split; [intros k I; repeat destruct I as [<-|I]; try exact Logic.I; destruct I|]. split; [reflexivity|]. split; [exact demo_go_unicode|].
  split; [|split; [|split]].
  - refine (titled_document _ _ _ _ [32%N] (R "My report: 1") 1 [10%N] (R "
Intro

== Part
Text
") _ _ _ _ _ _ _ _); [discriminate|constructor; [now left|constructor]|is_title| |lf|right; left; reflexivity|].
    { tw "My"%string. tb. tw "report"%string. tc. tb. tw "1"%string. tb. apply title_nil. }
    refine (man_block _ _ _ _ false ([] ++ [10%N] ++ _) _ _ _ _ (piece_blank _ _ _ _ _ _ _ _ _) _); [discriminate|constructor|discriminate|lf|].
    refine (man_block _ _ _ _ false (R "Intro" ++ [10%N] ++ _) _ _ _ _ (piece_para _ _ _ _ _ _ [] _ _ _ _) _); [discriminate| |lf| |].
    { split; [is_line|]. split; [apply no_colons_dec; reflexivity|]. split; [no_start|].
      eexists _, _. split; [reflexivity|]. split; [reflexivity|]. split; [reflexivity|].
      intros (y & z & u & E & [->| ->] & _); discriminate E. }
    { refine (cont_blank _ [] [10%N] _ _ _ _); [constructor|discriminate|lf]. }
    refine (man_block _ _ _ _ false ([] ++ [10%N] ++ _) _ _ _ _ (piece_blank _ _ _ _ _ _ _ _ _) _); [discriminate|constructor|discriminate|lf|].
    refine (man_heading _ _ _ _ false 1 [32%N] (R "Part") 0 [10%N] _ _ _ _ _ _ _ _ _); [lia|discriminate|constructor; [now left|constructor]|is_title| |lf|].
    { tw "Part"%string. apply title_nil. }
    refine (man_block _ _ _ _ false (R "Text" ++ [10%N] ++ []) _ _ _ _ (piece_para _ _ _ _ _ _ [] _ _ _ _) _); [discriminate| |lf| |constructor].
    { split; [is_line|]. split; [apply no_colons_dec; reflexivity|]. split; [no_start|].
      eexists _, _. split; [reflexivity|]. split; [reflexivity|]. split; [reflexivity|].
      intros (y & z & u & E & [->| ->] & _); discriminate E. }
    { constructor. }
  - assert (ConvertSpec.shown (demo_cls "L") (demo_cls "N") demo_white (map fst (c_macros report_config)) (e_xhtml demo_env) (e_toLower demo_env) (Paragraph [] (raw_lines [R "Intro"])) (paragraph_html "Intro")) as Sp1.
    { eapply (s_para _ _ _ _ _ _ _ _ "Intro"%string); [repeat constructor| |].
      - unfold joined. change (rstrip (R "Intro")) with (R "Intro"). wd "Intro"%string. apply ord_nil.
      - eexists. split; [repeat (apply Forall2_cons || apply Forall2_nil); apply w_char|].
        apply (trimmed_self 0 0); [vm_compute; reflexivity|intros u; discriminate|vm_compute; discriminate]. }
    assert (ConvertSpec.shown (demo_cls "L") (demo_cls "N") demo_white (map fst (c_macros report_config)) (e_xhtml demo_env) (e_toLower demo_env) (Paragraph [] (raw_lines [R "Text"])) (paragraph_html "Text")) as Sp2.
    { eapply (s_para _ _ _ _ _ _ _ _ "Text"%string); [repeat constructor| |].
      - unfold joined. change (rstrip (R "Text")) with (R "Text"). wd "Text"%string. apply ord_nil.
      - eexists. split; [repeat (apply Forall2_cons || apply Forall2_nil); apply w_char|].
        apply (trimmed_self 0 0); [vm_compute; reflexivity|intros u; discriminate|vm_compute; discriminate]. }
    apply ent_block with (h := ""%string); [apply s_blank|].
    apply ent_block with (h := paragraph_html "Intro"); [exact Sp1|].
    apply ent_block with (h := ""%string); [apply s_blank|].
    apply ent_heading with (id := "_Part"%string); [exists 1%N; split; [lia|split; [reflexivity|split; [intros []|lia]]]|].
    apply ent_block with (h := paragraph_html "Text"); [exact Sp2|]. apply ent_nil.
  - match goal with |- TitledSpec.contents _ (?x :: ?y :: ?z :: Head ?l ?i ?t :: ?r) _ => apply (con_sections _ [x; y; z] l i t r) end.
    + repeat constructor.
    + apply nest_text, nest_text, nest_text, nest_nil.
    + match goal with |- nested _ _ (?x :: ?r) _ => change (x :: r) with (x :: r ++ []); apply (nest_section _ 0 1 _ _ r []); [lia|apply nest_text, nest_nil|apply nest_nil|exact Logic.I] end.
  - vm_compute. reflexivity.
Qed.
Print Assumptions C72_hypotheses.

(** the text of the blocks decides, as in C71 *)
Theorem C72_total : forall letter number white user xhtml lower macro text t ps, TitledSpec.titled letter number white macro text t ps ->
  (forall v, In (Block v) ps -> exists h, ConvertSpec.shown letter number white user xhtml lower v h) ->
  exists es h, entries letter number white user xhtml lower [] ps es /\ TitledSpec.contents lower es h.
Proof.
  intros letter number white user xhtml lower macro text t ps D Sh. destruct D as [ws t k e tail ps _ _ _ _ _ _ D].
  destruct (C71_total _ _ _ user xhtml lower _ _ _ _ D Sh) as (es & h & En & Ne). exists es.
  assert (forall k h, nested lower k es h -> k = 0 -> Forall leveled es -> exists h', TitledSpec.contents lower es h') as A.
  { clear. intros k h N. induction N as [k|k x es s N IH|k l id t es1 es2 s1 s2 L N1 _ N2 _ M]; intros -> F.
    - exists "". apply con_plain; constructor.
    - inversion F as [|? ? _ F']; subst. destruct (IH eq_refl F') as (h' & C). destruct C as [es h' Ft N'|es l id t es' p h' Ft N1 N2].
      + exists (x ++ h')%string. apply con_plain; constructor; auto. exact Logic.I.
      + eexists. apply (con_sections lower (Text x :: es) l id t es'); [constructor; [exact Logic.I|exact Ft]|apply nest_text; exact N1|exact N2].
    - eexists. apply (con_sections lower [] l id t (es1 ++ es2)); [apply Forall_nil|apply nest_nil|apply (nest_section lower 0 l id t es1 es2 s1 s2); assumption]. }
  assert (Forall leveled es) as F.
  { assert (Forall (fun p => match p with Heading l _ => 1 <= l | _ => True end) ps) as Lv by (clear - D; induction D; constructor; auto; lia).
    clear - En Lv. induction En; [constructor|..]; inversion Lv; subst; constructor; auto; exact Logic.I. }
  destruct (A 0 h Ne eq_refl F) as (h' & C). eauto.
Qed.
Print Assumptions C72_total.
