(** C51: the links of the table of contents. *)
From Verif Require Import GoBase Types Attrs Utf8 Ids Toc Context Aggregate SecSpec AggLemmas AggDoc P_Sections TocRender.

(** no character that HTML escaping would change *)
Fixpoint html_plain (s : string) : bool :=
  match s with
  | EmptyString => true
  | String c r => negb (existsb (Ascii.eqb c) [chr 34; chr 39; "&"%char; "<"%char; ">"%char; chr 0]) && html_plain r
  end.
Lemma html_plain_escape s : html_plain s = true -> htmlEscapeString s = s.
Proof.
  induction s as [|c s IH]; [reflexivity|]. cbn [html_plain existsb]. rewrite Bool.andb_true_iff, Bool.negb_true_iff.
  intros [H1 H2]. cbn [htmlEscapeString]. rewrite (IH H2).
  repeat (rewrite Bool.orb_false_iff in H1; destruct H1 as [? H1]).
  unfold html_escape_byte. now rewrite H, H0, H3, H4, H5, H6.
Qed.

(** the ids of the sections of a document, in order *)
Definition section_ids (els : list val) : list string := map fst (flat_map section_entry (flat_map flat els)).

Lemma section_entry_forget e : section_entry (forget_xrefs e) = section_entry e.
Proof. now destruct e. Qed.
Lemma entries_forget l l' : map forget_xrefs l = map forget_xrefs l' -> flat_map section_entry l = flat_map section_entry l'.
Proof.
  revert l'. induction l as [|x l IH]; intros [|y l'] H; try discriminate; [reflexivity|].
  cbn [map] in H. cbn [flat_map]. injection H as H1 H2. rewrite (IH _ H2). f_equal.
  now rewrite <- section_entry_forget, H1, section_entry_forget.
Qed.

Lemma toc_expected_incl fixed els : forall d x, In x (toc_expected fixed d els) -> In x (flat_map section_entry els).
Proof.
  induction els as [|e els IH]; intros d x; cbn [toc_expected flat_map]; [auto|].
  rewrite !in_app_iff. intros [H|H]; [apply filter_In in H; tauto|right; eauto].
Qed.

Lemma links_entries lower ts : flat_map (toc_links lower) ts = map (fun x => lower (fst x)) (flat_map toc_entries ts).
Proof.
  assert (S : forall t, toc_links lower t = map (fun x => lower (fst x)) (toc_entries t)).
  { fix REC 1. intros [i l sub]. cbn [toc_links toc_entries map fst]. f_equal.
    induction sub as [|x sub IH]; [reflexivity|]. cbn [flat_map]. rewrite map_app, <- IH. f_equal. apply REC. }
  induction ts as [|t ts IH]; [reflexivity|]. cbn [flat_map]. now rewrite map_app, <- IH, S.
Qed.

(** every section carries its id as a string *)
Definition has_id (v : val) : Prop :=
  match v with Section _ a _ _ => exists id, mget a "id" = Some (VStr id) | _ => True end.

Lemma headings_flat lower v : Forall has_id (flat v) ->
  headings lower v = map (fun x => lower (htmlEscapeString (fst x))) (flat_map section_entry (flat v)).
Proof.
  induction v as [v IH] using val_ind_children. intros H. destruct v; try reflexivity.
  cbn [flat headings] in *. inversion H as [|? ? H1 H2]; subst. destruct H1 as [id E].
  cbn [flat_map section_entry]. rewrite E. cbn [app map fst]. unfold renderElementID. rewrite E. f_equal.
  assert (IH' : forall c, In c elements -> Forall has_id (flat c) -> headings lower c =
    map (fun x => lower (htmlEscapeString (fst x))) (flat_map section_entry (flat c))).
  { intros c Hc. apply IH. cbn. rewrite !in_app_iff. auto. }
  clear IH H E. induction elements as [|x els IHl]; [reflexivity|]. cbn [flat_map] in *.
  apply Forall_app in H2. destruct H2 as [H2 H3]. rewrite flat_map_app, map_app. f_equal.
  - apply IH'; [now left|exact H2].
  - apply IHl; auto. intros c Hc. apply IH'. now right.
Qed.

Lemma has_id_flat l l' es : Forall2 same_but_id es l' -> map forget_xrefs l = map forget_xrefs l' -> Forall has_id l.
Proof.
  intros F. revert l. induction F as [|e e' es l' H F IH]; intros [|x l] E; try discriminate; [constructor|].
  cbn [map] in E. injection E as E1 E2. constructor; [|now apply IH].
  destruct H as [[NS ->]|(lv & a & t & els & id & -> & ->)].
  - destruct x; try exact I. destruct e; discriminate.
  - destruct x; try exact I. cbn in E1. injection E1 as -> -> -> _. exists id. apply mget_mset_eq.
Qed.

(** the flat view and the headings of a whole document *)
Lemma headings_doc lower els : Forall has_id (flat_map flat els) ->
  flat_map (headings lower) els = map (fun id => lower (htmlEscapeString id)) (section_ids els).
Proof.
  unfold section_ids. induction els as [|e els IH]; intros H; [reflexivity|]. cbn [flat_map] in *.
  apply Forall_app in H. destruct H as [H1 H2]. rewrite flat_map_app, !map_app, (IH H2), (headings_flat lower e H1).
  now rewrite !map_map.
Qed.

(** The ids of the headings and the targets of the links, for every document: the ids of the sections in lower case, escaped in the
    headings; and only sections have entries in the table of contents. *)
Theorem C51_headings_and_links :
  forall is_letter is_number fmtv lower c fs doc,
  Forall shallow (goods fs) ->
  aggregate is_letter is_number fmtv c fs = Some doc ->
  flat_map (headings lower) (d_elements doc) = map (fun id => lower (htmlEscapeString id)) (section_ids (d_elements doc)) /\
  exists ids, flat_map (toc_links lower) (match d_toc doc with Some t => toc_sections t | None => [] end) = map lower ids /\
    incl ids (section_ids (d_elements doc)).
Proof.
  intros is_letter is_number fmtv lower c fs doc S A.
  destruct (C02_toc_complete_in_order _ _ _ _ _ _ S A) as (els' & F & E & T). split; [apply headings_doc, (has_id_flat _ _ _ F E)|].
  eexists (map fst _). split.
  - rewrite links_entries, <- map_map with (f := fst) (g := lower). reflexivity.
  - intros id H. apply in_map_iff in H. destruct H as (x & <- & H). rewrite T in H. apply toc_expected_incl in H.
    rewrite <- (entries_forget _ _ E) in H. unfold section_ids. now apply in_map.
Qed.
Print Assumptions C51_headings_and_links.

(** Every link of the table of contents has a heading of the document as its target, for ids without HTML special
    characters (in particular for all generated ids, C30). *)
Theorem C51_links_have_headings :
  forall is_letter is_number fmtv lower c fs doc link,
  Forall shallow (goods fs) ->
  aggregate is_letter is_number fmtv c fs = Some doc ->
  Forall (fun id => html_plain id = true) (section_ids (d_elements doc)) ->
  In link (flat_map (toc_links lower) (match d_toc doc with Some t => toc_sections t | None => [] end)) ->
  In link (flat_map (headings lower) (d_elements doc)).
Proof.
  intros is_letter is_number fmtv lower c fs doc link S A P L.
  destruct (C02_toc_complete_in_order _ _ _ _ _ _ S A) as (els' & F & E & T).
  rewrite links_entries, T in L. apply in_map_iff in L. destruct L as ([id lv] & <- & L). apply toc_expected_incl in L.
  rewrite <- (entries_forget _ _ E) in L. rewrite (headings_doc lower _ (has_id_flat _ _ _ F E)).
  apply in_map_iff. exists id. assert (I : In id (section_ids (d_elements doc))).
  { unfold section_ids. apply in_map_iff. exists (id, lv). now split. }
  split; [|exact I]. rewrite Forall_forall in P. cbn [fst]. now rewrite (html_plain_escape id (P id I)).
Qed.
Print Assumptions C51_links_have_headings.

(** Exactly one heading, if moreover every section has a title: just when different ids are still different in lower case. *)
Theorem C51_links_unambiguous :
  forall is_letter is_number fmtv lower c fs doc,
  Forall shallow (goods fs) ->
  aggregate is_letter is_number fmtv c fs = Some doc ->
  section_ids (d_elements doc) = flat_map titled_id (flat_map flat (d_elements doc)) ->
  (NoDup (flat_map (headings lower) (d_elements doc)) <->
   forall i j, In i (section_ids (d_elements doc)) -> In j (section_ids (d_elements doc)) -> lower (htmlEscapeString i) = lower (htmlEscapeString j) -> i = j).
Proof.
  intros is_letter is_number fmtv lower c fs doc S A T.
  rewrite (proj1 (C51_headings_and_links is_letter is_number fmtv lower c fs doc S A)).
  pose proof (proj1 (C01_section_ids_unique _ _ _ _ _ _ S A)) as N. rewrite <- T in N. clear T.
  revert N. generalize (section_ids (d_elements doc)). intros ids N. split.
  - induction ids as [|x l IH]; intros ND i j; [intros []|]. cbn [map] in ND. inversion ND as [|? ? D1 D2]; inversion N as [|? ? N1 N2]; subst.
    intros [<-|Hi] [<-|Hj] E; [reflexivity|..].
    + exfalso. apply D1. rewrite E. now apply (in_map (fun id => lower (htmlEscapeString id))).
    + exfalso. apply D1. rewrite <- E. now apply (in_map (fun id => lower (htmlEscapeString id))).
    + now apply IH.
  - induction ids as [|x l IH]; intros J; [constructor|]. inversion N as [|? ? N1 N2]; subst. cbn [map]. constructor.
    + intros H. apply in_map_iff in H. destruct H as (y & Ey & Iy). apply J in Ey; [subst y; auto|now right|now left].
    + apply IH; auto. intros i j Hi Hj. apply J; now right.
Qed.
Print Assumptions C51_links_unambiguous.

(** ASCII part of strings.ToLower *)
Definition lower_byte (c : ascii) : ascii :=
  let n := N_of_ascii c in if ((65 <=? n) && (n <=? 90))%N then ascii_of_N (n + 32) else c.
Fixpoint lower_ascii (s : string) : string :=
  match s with EmptyString => EmptyString | String c r => String (lower_byte c) (lower_ascii r) end.

(** titles that differ in case only: two headings with the same id, two links with the same target *)
Theorem C51_case_refuted :
  exists fs doc, Forall shallow (goods fs) /\ agg fs = Some doc /\
    flat_map (headings lower_ascii) (d_elements doc) = ["_foo"; "_foo"] /\
    flat_map (toc_links lower_ascii) (match d_toc doc with Some t => toc_sections t | None => [] end) = ["_foo"; "_foo"].
Proof.
  exists [Frag [sec 1 "Foo"; sec 1 "foo"]]. eexists. split; [repeat constructor|]. split; [vm_compute; reflexivity|].
  split; vm_compute; reflexivity.
Qed.
Print Assumptions C51_case_refuted.

(** an id with a quote: the heading is escaped, the link is not *)
Theorem C51_escape_refuted :
  exists fs doc, Forall shallow (goods fs) /\ agg fs = Some doc /\
    flat_map (headings lower_ascii) (d_elements doc) = ["a&amp;b"] /\
    flat_map (toc_links lower_ascii) (match d_toc doc with Some t => toc_sections t | None => [] end) = ["a&b"].
Proof.
  exists [Frag [Section 1 [("id", VStr "a&b")] (Some [StringElement "Foo"]) []]]. eexists. split; [repeat constructor|].
  split; [vm_compute; reflexivity|]. split; vm_compute; reflexivity.
Qed.

(** the first section of a manpage: its id is ignored, the link to it leads nowhere unless it is called Name *)
Theorem C51_manpage_refuted :
  exists fs doc, Forall shallow (goods fs) /\ agg fs = Some doc /\
    manpage_headings lower_ascii (d_elements doc) = ["_name"; "_synopsis"] /\
    flat_map (toc_links lower_ascii) (match d_toc doc with Some t => toc_sections t | None => [] end) = ["cmd"; "_synopsis"].
Proof.
  exists [Frag [Section 1 [("id", VStr "cmd")] (Some [StringElement "Name"]) []; sec 1 "Synopsis"]].
  eexists. split; [repeat constructor|].
  split; [vm_compute; reflexivity|]. split; vm_compute; reflexivity.
Qed.

Theorem C51_example :
  exists fs doc, Forall shallow (goods fs) /\ agg fs = Some doc /\
    forallb html_plain (section_ids (d_elements doc)) = true /\
    section_ids (d_elements doc) = flat_map titled_id (flat_map flat (d_elements doc)) /\
    flat_map (headings lower_ascii) (d_elements doc) = ["_foo"; "_bar"; "_foo_2"].
Proof.
  exists [Frag [sec 1 "Foo"; sec 2 "bar"; par "x"; sec 1 "Foo"]]. eexists. split; [repeat constructor|].
  split; [vm_compute; reflexivity|]. repeat split; vm_compute; reflexivity.
Qed.
