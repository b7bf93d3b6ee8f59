(** The lists of C69: from the items one after the other to the tree of lists, and its HTML. *)
From Coq Require Import List String NArith ZArith Bool Lia.
From Verif Require Import GoBase GoLemmas Utf8 Types Attrs Elements Footnotes Filter ListSpec Lists Aggregate Render.
From Verif Require Import Peg PegBlockSpec PegInlineSpec ConvertSpec.
Import ListNotations.
Local Open Scope string_scope.
Local Open Scope list_scope.

(** * Stripped lines *)
Lemma concat_join sep l : String.concat sep l = join sep l.
Proof. induction l as [|x [|y l] IH]; [reflexivity|reflexivity|]. cbn [String.concat join] in *. now rewrite IH. Qed.
Lemma split_none s : no_lf s -> split_char (chr 10) s = [s].
Proof.
  induction s as [|c s IH]; [reflexivity|]. intros (N & F). cbn [split_char]. rewrite (IH F). destruct (Ascii.eqb_spec c (chr 10)); [contradiction|reflexivity].
Qed.
Lemma split_app s t : no_lf s -> split_char (chr 10) (s ++ LF ++ t)%string = s :: split_char (chr 10) t.
Proof.
  induction s as [|c s IH]; [reflexivity|]. intros (N & F). specialize (IH F). cbn [append split_char] in *. rewrite IH. destruct (Ascii.eqb_spec c (chr 10)); [contradiction|reflexivity].
Qed.
Lemma split_lines ls : ls <> [] -> Forall no_lf ls -> split_char (chr 10) (join LF ls) = ls.
Proof.
  intros Ne F. induction F as [|l ls N F IH]; [congruence|]. destruct ls as [|l' ls]; [cbn [join]; now apply split_none|].
  change (join LF (l :: l' :: ls)) with (l ++ LF ++ join LF (l' :: ls))%string. rewrite split_app by exact N. now rewrite IH.
Qed.
Lemma white_runes : space_runes = white_space.
Proof. vm_compute. reflexivity. Qed.
Lemma find_none {A} (f : A -> bool) l : (forall x, In x l -> f x = false) -> find_first f l = None.
Proof. induction l as [|x l IH]; [reflexivity|]. intros N. cbn [find_first]. rewrite (N x) by now left. apply IH. intros y I. apply N. now right. Qed.
Lemma no_prefix t : (forall p u, In p white_space -> t <> p ++ u)%string -> find_first (has_prefix t) space_runes = None.
Proof.
  intros N. apply find_none. intros p I. rewrite white_runes in I. destruct (has_prefix t p) eqn:Q; [|reflexivity]. apply has_prefix_iff in Q as (u & ->). now elim (N p u I).
Qed.
Lemma no_suffix t : (forall p u, In p white_space -> t <> u ++ p)%string -> find_first (has_suffix t) space_runes = None.
Proof.
  intros N. apply find_none. intros p I. rewrite white_runes in I. destruct (has_suffix t p) eqn:Q; [|reflexivity]. apply has_suffix_iff in Q as (u & ->). now elim (N p u I).
Qed.
Lemma stripped_ok s t : stripped s t -> trimSpace s = t.
Proof.
  intros (a & -> & B & N). unfold trimSpace.
  assert (forall k, trim_right_space k t = t) as Rt by (intros [|k]; [reflexivity|cbn [trim_right_space]; rewrite no_suffix; [reflexivity|intros p u I; exact (proj2 (N p u I))]]).
  assert (forall k, k = String.length (encode_runes a ++ t)%string -> trim_left_space k (encode_runes a ++ t)%string = t) as L.
  { induction B as [|r a Br B IH].
    - intros k _. destruct k; [reflexivity|]. cbn [encode_runes map sconcat fold_right append trim_left_space]. rewrite no_prefix; [reflexivity|intros p u I; exact (proj1 (N p u I))].
    - intros k Ek. destruct Br as [-> | ->]; subst k; cbn; apply IH; reflexivity. }
  rewrite L by reflexivity. apply Rt.
Qed.
Lemma strip_lines ls ts : ls <> [] -> Forall no_lf ls -> Forall2 stripped ls ts -> trimSpaces (String.concat LF ls) = String.concat LF ts.
Proof.
  intros Ne F S. unfold trimSpaces. rewrite (concat_join LF ls), (concat_join LF ts). rewrite split_lines by assumption. f_equal. clear Ne F.
  induction S as [|l t ls ts S1 S IH]; [reflexivity|]. cbn [map]. now rewrite (stripped_ok l t S1), IH.
Qed.

(** * The tree *)
(** an item with its content, and the list of a marker *)
Definition item_of (m : marker) (es : list val) : val :=
  match m with MOrdered s => OrderedListElement s [] es | MUnordered b => UnorderedListElement b "nocheck" [] es | _ => Types.VNil end.
Definition proper (m : marker) : Prop := match m with MOrdered _ | MUnordered _ => True | _ => False end.
Section Tree.
(** the content of a paragraph, and its HTML *)
Variable para : list val -> string -> Prop.
Inductive lblock : val -> string -> Prop :=
| lb_list : forall m items h, proper m -> items <> [] -> litems m items h -> lblock (ListBlock (kind_of_marker m) [] items) (list_start m ++ h ++ list_end m)%string
with litems : marker -> list val -> string -> Prop :=
| li_nil : forall m, litems m [] ""
| li_cons : forall m l p rest r items h, para l p -> linside rest r -> litems m items h ->
    litems m (item_of m (Paragraph [] l :: rest) :: items) (item_start ++ p ++ r ++ item_end ++ h)%string
with linside : list val -> string -> Prop :=
| ln_nil : linside [] ""
| ln_cons : forall b h l r, lblock b h -> linside l r -> linside (b :: l) (h ++ r)%string.
Scheme lblock_mind := Induction for lblock Sort Prop with litems_mind := Induction for litems Sort Prop with linside_mind := Induction for linside Sort Prop.
Combined Scheme ltree_ind from lblock_mind, litems_mind, linside_mind.

Lemma litems_snoc m items h l p rest r : litems m items h -> para l p -> linside rest r ->
  litems m (items ++ [item_of m (Paragraph [] l :: rest)]) (h ++ item_start ++ p ++ r ++ item_end)%string.
Proof.
  intros L P N. induction L as [m|m l' p' rest' r' items h P' N' L IH].
  - cbn [app append]. rewrite <- (GoLemmas.sapp_nil_r (_ ++ p ++ r ++ item_end)%string). rewrite !GoLemmas.sapp_assoc. apply li_cons; [assumption..|constructor].
  - rewrite !GoLemmas.sapp_assoc. cbn [app]. apply li_cons; [assumption..|now apply IH].
Qed.
Lemma linside_snoc l r b h : linside l r -> lblock b h -> linside (l ++ [b]) (r ++ h)%string.
Proof.
  intros N B. induction N as [|b' h' l r B' N IH].
  - cbn [app append]. rewrite <- (GoLemmas.sapp_nil_r h). constructor; [exact B|constructor].
  - rewrite GoLemmas.sapp_assoc. cbn [app]. now constructor.
Qed.

(** ** The open lists *)
Inductive open_list (m : marker) (l : olist) : string -> Prop :=
| open_mk : forall hi l0 p rest r, proper m -> ol_kind l = kind_of_marker m -> ol_attrs l = [] -> litems m (ol_init l) hi ->
    para l0 p -> linside rest r -> ol_last l = item_of m (Paragraph [] l0 :: rest) -> open_list m l (hi ++ item_start ++ p ++ r)%string.
Inductive opened : list olist -> list marker -> string -> Prop :=
| op_nil : opened [] [] ""
| op_cons : forall s ms out m l h, opened s ms out -> open_list m l h -> opened (l :: s) (m :: ms) (out ++ list_start m ++ h)%string.
(** a list that was closed, if any *)
Inductive waiting : option val -> string -> Prop :=
| wait_none : waiting None ""
| wait_some : forall b h, lblock b h -> waiting (Some b) h.
Lemma item_elements m es : proper m -> getElements (item_of m es) = Some es /\ (forall es', set_elements (item_of m es) es' = item_of m es').
Proof. destruct m; intros []; split; reflexivity. Qed.
Lemma attached m l h b w : open_list m l h -> waiting b w -> open_list m (attach l b) (h ++ w)%string.
Proof.
  intros [hi l0 p rest r Pm K A Li P N La] W. destruct W as [|b w B].
  - rewrite GoLemmas.sapp_nil_r. now apply (open_mk m l hi l0 p rest r).
  - rewrite !GoLemmas.sapp_assoc. apply (open_mk m (attach l (Some b)) hi l0 p (rest ++ [b]) (r ++ w)%string); [exact Pm|exact K|exact A|exact Li|exact P|now apply linside_snoc|].
    cbn [attach ol_last]. unfold append_element. rewrite La. destruct (item_elements m (Paragraph [] l0 :: rest) Pm) as [-> S]. apply S.
Qed.
Lemma closed m l h : open_list m l h -> lblock (to_block l) (list_start m ++ h ++ item_end ++ list_end m)%string.
Proof.
  intros [hi l0 p rest r Pm K A Li P N La]. unfold to_block. rewrite K, A, La.
  replace (list_start m ++ (hi ++ item_start ++ p ++ r) ++ item_end ++ list_end m)%string with (list_start m ++ (hi ++ item_start ++ p ++ r ++ item_end) ++ list_end m)%string by (now rewrite !GoLemmas.sapp_assoc).
  apply lb_list; [exact Pm|destruct (ol_init l); discriminate|now apply litems_snoc].
Qed.
Lemma lists_end_cons m ms : lists_end (m :: ms) = (item_end ++ list_end m ++ lists_end ms)%string.
Proof. unfold lists_end. cbn [map]. set (l := map _ ms). rewrite (concat_join "" l), (concat_join "" (_ :: l)). unfold l. destruct (map (fun m => item_end ++ list_end m)%string ms); cbn [join append]; now rewrite ?GoLemmas.sapp_nil_r, ?GoLemmas.sapp_assoc. Qed.
Lemma all_closed s ms out : opened s ms out -> forall b w, waiting b w -> s <> [] \/ b <> None -> lblock (close_all b s) (out ++ w ++ lists_end ms)%string.
Proof.
  induction 1 as [|s ms out m l h O IH Ol]; intros b w W Ne.
  - destruct W as [|b w B]; [now destruct Ne|]. cbn. now rewrite GoLemmas.sapp_nil_r.
  - cbn [close_all]. pose proof (closed _ _ _ (attached _ _ _ _ _ Ol W)) as B.
    specialize (IH _ _ (wait_some _ _ B) ltac:(right; discriminate)). rewrite lists_end_cons. now rewrite !GoLemmas.sapp_assoc in *.
Qed.
Lemma can_add m l h e : open_list m l h -> forall m' es, proper m' -> e = item_of m' es -> canAdd l e = marker_eqb m' m.
Proof.
  intros [hi l0 p rest r Pm K A Li P N La] m' es P' ->. unfold canAdd. rewrite K, La. destruct m, m'; try now destruct Pm; try now destruct P'; try reflexivity.
Qed.
Lemma parent_found m es s ms out : proper m -> opened s ms out -> forall b w, waiting b w ->
  match back_to m ms with
  | Some ms' => exists l r out', find_parent b s (item_of m es) = Some (l, r) /\ opened (l :: r) ms' out' /\
      (out' = out ++ w ++ lists_end (firstn (List.length ms - List.length ms') ms))%string
  | None => find_parent b s (item_of m es) = None
  end.
Proof.
  intros Pm O. induction O as [|s ms out m1 l h O IH Ol]; intros b w W; [reflexivity|]. cbn [back_to find_parent].
  rewrite (can_add _ _ _ _ Ol m es Pm eq_refl). destruct (marker_eqb m m1) eqn:Q.
  - exists (attach l b), s, (out ++ list_start m1 ++ h ++ w)%string. split; [reflexivity|]. split.
    + apply op_cons; [exact O|now apply attached].
    + rewrite Nat.sub_diag. cbn [firstn lists_end map String.concat]. now rewrite GoLemmas.sapp_nil_r, !GoLemmas.sapp_assoc.
  - pose proof (closed _ _ _ (attached _ _ _ _ _ Ol W)) as B. specialize (IH _ _ (wait_some _ _ B)). destruct (back_to m ms) as [ms'|] eqn:Bk; [|exact IH].
    destruct IH as (l1 & r1 & out' & F & O' & ->). exists l1, r1. eexists. split; [exact F|]. split; [exact O'|].
    assert (List.length ms' <= List.length ms) as Le.
    { clear - Bk. revert Bk. induction ms as [|x ms IH]; [discriminate|]. cbn [back_to]. destruct (marker_eqb m x); [intros [= <-]; lia|]. intros B. specialize (IH B). cbn [List.length]. lia. }
    cbn [List.length]. rewrite Nat.sub_succ_l by exact Le. cbn [firstn]. rewrite lists_end_cons. now rewrite !GoLemmas.sapp_assoc.
Qed.
Lemma marker_eqb_ok m m' : marker_eqb m m' = true -> m = m'.
Proof. destruct m, m'; cbn; try discriminate; try reflexivity; intros Q; apply String.eqb_eq in Q; now subst. Qed.
Lemma back_to_head m ms ms' : back_to m ms = Some ms' -> exists r, ms' = m :: r.
Proof. induction ms as [|x ms IH]; [discriminate|]. cbn [back_to]. destruct (marker_eqb m x) eqn:Q; [|exact IH]. intros [= <-]. apply marker_eqb_ok in Q. subst. eauto. Qed.
Lemma adjust_item m l p s ms out : proper m -> opened s ms out ->
  let m' := adjusted ms m in proper m' /\ adjustStyle (item_of m [Paragraph [] l]) (match s with [] => None | x :: _ => Some x end) = item_of m' [Paragraph [] l] /\
  (para l p -> opened (newList (item_of m' [Paragraph [] l]) :: s) (m' :: ms) (out ++ list_start m' ++ item_start ++ p)%string).
Proof.
  intros Pm O m'. assert (proper m') as P'.
  { unfold m', adjusted. destruct m; try exact Pm. destruct ms as [|[| | |]]; exact Logic.I. }
  split; [exact P'|]. split.
  - unfold m', adjusted. destruct O as [|s ms out m1 x h O [hi l0 p0 rest r P1 K A Li Pa N La]]; [destruct m; reflexivity|]. destruct m; [reflexivity|reflexivity| |reflexivity].
    cbn [item_of adjustStyle]. unfold ol_first. rewrite La. destruct Li as [m1|m1 l' p' rest' r' items' h' P2 N2 L2]; destruct m1; destruct P1; reflexivity.
  - intros Pa. apply op_cons; [exact O|]. replace (item_start ++ p)%string with ("" ++ item_start ++ p ++ "")%string by (cbn [append]; now rewrite GoLemmas.sapp_nil_r).
    apply (open_mk m' _ "" l p [] ""); [exact P'| | |constructor|exact Pa|constructor|]; destruct m'; destruct P'; reflexivity.
Qed.
Lemma arranged_items ms0 : forall items ps s ms out, opened s ms out -> Forall2 (fun ml p => proper (fst ml) /\ para (snd ml) p) items ps -> s <> [] \/ items <> [] ->
  ms0 = ms -> exists b, (do s' <- arrange_loop s (map (fun ml => item_of (fst ml) [Paragraph [] (snd ml)]) items); Ok (close_all None s')) = Ok b /\
    lblock b (out ++ list_html ms (combine (map fst items) ps))%string.
Proof.
  intros items ps s ms out O F Ne _. revert s ms out O Ne. induction F as [|[m l] p items ps (Pm & Pa) F IH]; intros s ms out O Ne.
  - cbn [map arrange_loop bind combine list_html]. eexists. split; [reflexivity|]. apply (all_closed s ms out O None "" wait_none). destruct Ne as [Ne|Ne]; [now left|congruence].
  - cbn [fst snd] in Pm, Pa. cbn [map fst snd arrange_loop combine list_html]. unfold arrange_step.
    assert (forall es, match item_of m es with ListContinuation off _ => pops (Z.to_nat off) None s | _ => s end = s) as E by (destruct m; reflexivity). cbn zeta. rewrite E. clear E.
    pose proof (parent_found m [Paragraph [] l] s ms out Pm O None "" wait_none) as Pf. destruct (back_to m ms) as [ms'|] eqn:Bk.
    + destruct Pf as (x & r & out' & -> & O' & ->). destruct (back_to_head _ _ _ Bk) as (ms1 & ->).
      inversion O' as [|s1 ms2 out2 m2 l2 h2 O2 Ol E1 E2 E3]; subst. destruct Ol as [hi l0 p0 rest r0 P1 K A Li P2 N La].
      assert (list_add x (item_of m [Paragraph [] l]) = Ok (mkOL (ol_kind x) (ol_attrs x) (ol_init x ++ [ol_last x]) (item_of m [Paragraph [] l]))) as ->.
      { unfold list_add. rewrite K, A. destruct m; destruct Pm; cbn [item_of listKind kind_of_marker]; reflexivity. }
      cbn [bind]. set (x' := mkOL _ _ _ _).
      assert (opened (x' :: r) (m :: ms1) (out2 ++ list_start m ++ (hi ++ item_start ++ p0 ++ r0 ++ item_end) ++ item_start ++ p ++ ""))%string as O3.
      { apply op_cons; [exact O2|]. apply (open_mk m x' (hi ++ item_start ++ p0 ++ r0 ++ item_end)%string l p [] ""); [exact Pm|exact K|exact A| |exact Pa|constructor|reflexivity].
        cbn [x' ol_init]. rewrite La. now apply litems_snoc. }
      destruct (IH _ _ _ O3 ltac:(left; discriminate)) as (b & -> & B). exists b. split; [reflexivity|]. clear - B E3. rewrite GoLemmas.sapp_nil_r in B. cbn [append] in E3.
      cbn [List.length]. rewrite <- (GoLemmas.sapp_assoc out). rewrite <- E3. rewrite !GoLemmas.sapp_assoc in *. exact B.
    + rewrite Pf. assert (exists k, listKind (item_of m [Paragraph [] l]) = Some k) as (k & ->) by (destruct m; destruct Pm; eexists; reflexivity).
      destruct (adjust_item m l p s ms out Pm O) as (P' & -> & O'). cbn [bind]. destruct (IH _ _ _ (O' Pa) ltac:(left; discriminate)) as (b & -> & B). exists b. split; [reflexivity|].
      cbn zeta. rewrite !GoLemmas.sapp_assoc in *. exact B.
Qed.
End Tree.
