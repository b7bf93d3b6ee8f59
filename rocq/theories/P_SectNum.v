(** Property C35: section numbers. *)
From Verif Require Import GoBase Types Attrs Utf8 Ids Toc Context Aggregate SectNum SectNumSpec
  SectNumLemmas P_Sections.

(** numbering is on at the beginning of the body iff the last switch of the header says so *)
Definition initially (els : list val) : bool :=
  match docHeader els with
  | Some (DocumentHeader _ _ h, _) => state_after false h
  | _ => false
  end.

(** The numbers given to sections are exactly those of the specification [section_number]
    (SectNumSpec): numbered siblings are counted 1, 2, ...; a section inside a numbered one has
    the number of its parent, a dot and its rank; sections met while numbering is off have none. *)
Theorem C35_section_numbers :
  forall els, Forall all_have_ids els -> NoDup (flat_map section_ids els) ->
  forall id n, mget (sectionNumbers els) id = Some n <->
               section_number (initially els) "" els id n.
Proof.
  intros els H1 H2 id n. unfold sectionNumbers, initially.
  destruct (docHeader els) as [[v i]|]; [destruct v|]; try (apply traverseElements_spec; assumption).
  rewrite traverseElements_state. now apply traverseElements_spec.
Qed.
Print Assumptions C35_section_numbers.

(** When numbering is switched on in the header and never touched afterwards, the number of a
    section is its position in the section tree, written with dots ... *)
Theorem C35_number_is_position :
  forall els, Forall all_have_ids els -> NoDup (flat_map section_ids els) ->
  initially els = true -> flat_map switches els = [] ->
  forall id n, mget (sectionNumbers els) id = Some n <->
               exists p, section_at els id p /\ n = dotted p.
Proof.
  intros els H1 H2 HI NS id n. rewrite C35_section_numbers by assumption. rewrite HI.
  apply (section_number_at els id n "" NS).
Qed.
Print Assumptions C35_number_is_position.

(** ... and different sections have different numbers. *)
Theorem C35_numbers_distinct :
  forall els, Forall all_have_ids els -> NoDup (flat_map section_ids els) ->
  initially els = true -> flat_map switches els = [] ->
  forall id id' n, mget (sectionNumbers els) id = Some n ->
                   mget (sectionNumbers els) id' = Some n -> id = id'.
Proof.
  intros els H1 H2 HI NS id id' n. rewrite !C35_section_numbers by assumption. rewrite HI.
  now apply numbers_distinct.
Qed.
Print Assumptions C35_numbers_distinct.

(** every section has a number then *)
Theorem C35_all_numbered :
  forall els, Forall all_have_ids els -> NoDup (flat_map section_ids els) ->
  initially els = true -> flat_map switches els = [] ->
  forall id, In id (flat_map section_ids els) -> exists n, mget (sectionNumbers els) id = Some n.
Proof.
  intros els H1 H2 HI NS id HX.
  destruct (section_at_total els id H1 HX) as (p & HP).
  exists (dotted p). apply C35_number_is_position; eauto.
Qed.
Print Assumptions C35_all_numbered.

(** Without any switch no section is numbered. *)
Theorem C35_off_no_numbers :
  forall els, Forall all_have_ids els -> NoDup (flat_map section_ids els) ->
  initially els = false -> flat_map switches els = [] ->
  forall id, mget (sectionNumbers els) id = None.
Proof.
  intros els H1 H2 HI NS id. destruct (mget (sectionNumbers els) id) as [n|] eqn:E; [|reflexivity].
  apply C35_section_numbers in E; try assumption. rewrite HI in E.
  now apply section_number_off in E.
Qed.
Print Assumptions C35_off_no_numbers.

Definition nsec (l : Z) (id : string) (els : list val) : val :=
  Section l [("id", VStr id)] (Some [StringElement id]) els.
Definition ndoc : list val :=
  [DocumentHeader (Some [StringElement "T"]) [] [AttributeDeclaration "sectnums" VNil];
   par "p"; nsec 1 "a" [par "q"; nsec 2 "b" []; nsec 2 "c" [nsec 3 "d" []]]; nsec 1 "e" []].
Theorem C35_example :
  sectionNumbers ndoc = [("a","1");("b","1.1");("c","1.2");("d","1.2.1");("e","2")] /\
  initially ndoc = true /\ flat_map switches ndoc = [] /\
  flat_map section_ids ndoc = ["a";"b";"c";"d";"e"] /\ Forall all_have_ids ndoc.
Proof.
  repeat split; repeat constructor; cbn; eauto 10.
Qed.

(** The distinctness part of the full claim fails when numbering is switched on inside sections
    that are not numbered: all numbers restart at ".1". *)
Theorem C35_distinct_numbers_refuted :
  exists els id id' n, Forall all_have_ids els /\ NoDup (flat_map section_ids els) /\ id <> id' /\
    mget (sectionNumbers els) id = Some n /\ mget (sectionNumbers els) id' = Some n.
Proof.
  exists [nsec 1 "a" [AttributeDeclaration "sectnums" VNil; nsec 2 "b" []; AttributeReset "sectnums"];
          nsec 1 "c" [AttributeDeclaration "sectnums" VNil; nsec 2 "d" []]], "b", "d", ".1".
  split; [repeat constructor; cbn; eauto 10|]. split.
  - cbn. repeat constructor; cbn; intuition congruence.
  - repeat split; try reflexivity. discriminate.
Qed.
Print Assumptions C35_distinct_numbers_refuted.

(** A switch in the preamble is ignored: the preamble is not searched (types.go:167-199). *)
Theorem C35_switch_in_preamble_refuted :
  exists els, In (Preamble [par "x"; AttributeDeclaration "sectnums" VNil]) els /\
    mget (sectionNumbers els) "a" = None /\ In "a" (flat_map section_ids els).
Proof.
  exists [DocumentHeader (Some [StringElement "T"]) [] [];
          Preamble [par "x"; AttributeDeclaration "sectnums" VNil]; nsec 1 "a" []].
  repeat split; cbn; auto.
Qed.
Print Assumptions C35_switch_in_preamble_refuted.
