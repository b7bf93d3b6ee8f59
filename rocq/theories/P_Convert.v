(** C69: what a document made of paragraphs of ordinary text, verbatim blocks, comments and blank lines becomes. *)
From Coq Require Import List String NArith ZArith Bool Lia.
From Verif Require Import GoBase GoLemmas Utf8 Utf8Lemmas Types Attrs Context Elements Merge Subs Refs Footnotes Filter ListSpec Lists Aggregate Toc Config
  Validator RenderAttrs Templates Render ApplySubs Convert.
From Verif Require Import Peg PegGrammar PegDoc PegHost PegSym PegBlockSpec PegInlineSpec ConvertSpec P_ListHtml P_PegRun P_PegBlocks P_PegPara P_PegDocs P_PegNested P_PegInline P_PegNormal.
From Verif Require Tmpl Escape.
Import ListNotations.
Local Open Scope string_scope.
Local Open Scope list_scope.

(** * Strings *)
Lemma raw_text ls : forall k, serialize_loop k (raw_lines ls) = (encode_runes (joined ls), []).
Proof.
  intros k. induction ls as [|l [|l' ls] IH]; [reflexivity| |].
  - cbn [raw_lines joined serialize_loop]. now rewrite GoLemmas.sapp_nil_r.
  - change (raw_lines (l :: l' :: ls)) with (RawLine (encode_runes (rstrip l) ++ LF) :: raw_lines (l' :: ls)).
    cbn [serialize_loop]. rewrite IH. change (joined (l :: l' :: ls)) with (rstrip l ++ [10%N] ++ joined (l' :: ls)).
    rewrite !encode_runes_app, GoLemmas.sapp_assoc. reflexivity.
Qed.
Lemma concat_sconcat l : String.concat "" l = sconcat l.
Proof.
  induction l as [|x [|y l] IH]; [reflexivity|cbn; now rewrite GoLemmas.sapp_nil_r|].
  change (String.concat "" (x :: y :: l)) with (x ++ "" ++ String.concat "" (y :: l))%string. rewrite IH. reflexivity.
Qed.
Lemma encode_nil t : encode_runes t = "" -> t = [].
Proof.
  destruct t as [|r t]; [reflexivity|]. unfold encode_runes. cbn [map sconcat fold_right].
  unfold encode_rune. repeat match goal with |- context[if ?b then _ else _] => destruct b end; discriminate.
Qed.

(** * Trimming *)
Definition lfs (n : nat) : string := String.concat "" (repeat LF n).
Lemma lfs_S n : lfs (S n) = String (chr 10) (lfs n).
Proof. unfold lfs. rewrite !concat_sconcat. reflexivity. Qed.
Lemma left_lfs n t : trim_left_char (chr 10) (lfs n ++ t) = trim_left_char (chr 10) t.
Proof. induction n as [|n IH]; [reflexivity|]. rewrite lfs_S. cbn [append trim_left_char]. now rewrite Ascii.eqb_refl. Qed.
Lemma left_none t : (forall u, t <> LF ++ u)%string -> trim_left_char (chr 10) t = t.
Proof.
  destruct t as [|d t]; [reflexivity|]. intros N. cbn [trim_left_char]. destruct (Ascii.eqb_spec d (chr 10)) as [->|]; [|reflexivity]. exfalso. now apply (N t).
Qed.
Lemma right_lfs n : trim_right_char (chr 10) (lfs n) = "".
Proof. induction n as [|n IH]; [reflexivity|]. rewrite lfs_S. cbn [trim_right_char]. rewrite IH. reflexivity. Qed.
Lemma right_app t n : trim_right_char (chr 10) (t ++ lfs n) = trim_right_char (chr 10) t.
Proof. induction t as [|d t IH]; [apply right_lfs|]. cbn [append trim_right_char]. now rewrite IH. Qed.
Lemma right_none t : (forall u, t <> u ++ LF)%string -> trim_right_char (chr 10) t = t.
Proof.
  induction t as [|d t IH]; [reflexivity|]. intros N. cbn [trim_right_char]. rewrite IH.
  - destruct t as [|e t]; [|reflexivity]. destruct (Ascii.eqb_spec d (chr 10)) as [->|]; [|reflexivity]. exfalso. now apply (N "").
  - intros u ->. now apply (N (String d u)).
Qed.
Lemma trimmed_ok s t : trimmed s t -> trimLF s = t.
Proof.
  intros (n & m & -> & N1 & N2). unfold trimLF. change (String.concat "" (repeat LF n)) with (lfs n). change (String.concat "" (repeat LF m)) with (lfs m).
  rewrite <- GoLemmas.sapp_assoc, right_app. destruct t as [|d t].
  - now rewrite GoLemmas.sapp_nil_r, right_lfs.
  - rewrite right_none; [rewrite left_lfs; now apply left_none|]. intros u E. revert u E. induction n as [|n IH]; intros u E; [now apply (N2 u)|].
    rewrite lfs_S in E. destruct u as [|c u].
    + cbn in E. injection E as E. clear -E. destruct (lfs n); discriminate E.
    + injection E as _ E. now apply (IH u).
Qed.

(** * Inline elements *)
Definition simple (v : val) : Prop := match v with StringElement _ | SpecialCharacter _ | Symbol _ | Callout _ | QuotedText _ [StringElement _] [] => True | _ => False end.
Lemma simple_inv v : simple v -> (exists s, v = StringElement s) \/ (exists s, v = SpecialCharacter s) \/ (exists s, v = Symbol s) \/ (exists n, v = Callout n) \/ exists k s, v = QuotedText k [StringElement s] [].
Proof.
  destruct v; try (now intros []); intros S; eauto 10. destruct elements as [|e [|]]; try (now destruct S); try (destruct e; now destruct S). destruct e; try (now destruct S). destruct attrs; [|now destruct S]. do 4 right. eauto.
Qed.
Ltac simply Hs := apply simple_inv in Hs; destruct Hs as [(?s & ->)|[(?s & ->)|[(?s & ->)|[(?n & ->)|(?k & ?s & ->)]]]].
Definition item_simple (i : item) : Prop := match i with Char _ => True | Elem v => simple v end.
Lemma grouped_simple its : Forall item_simple its -> forall run, Forall simple (grouped run its).
Proof.
  assert (forall run, Forall simple (text_of run)) as T by (intros [|]; repeat constructor).
  induction 1 as [|[r|v] its Hi F IH]; intros run; cbn [grouped]; auto.
  apply Forall_app. split; auto.
Qed.
Lemma written_simple its hs : Forall2 written its hs -> Forall item_simple its.
Proof. induction 1 as [|? ? ? ? W]; constructor; auto. destruct W; exact Logic.I. Qed.

(** * The stages on simple elements *)
Lemma restore_simple f ph l : Forall simple l -> sizes l <= f -> restore (S f) ph l = Ok l.
Proof.
  intros F. cbn [restore]. induction F as [|v l Hs F IH]; intros L; [reflexivity|]. cbn [mapM]. change (sizes (v :: l)) with (vsize v + sizes l) in L. rewrite IH by lia.
  simply Hs; try reflexivity. cbn [getElements]. destruct f as [|f]; [cbn in L; lia|]. reflexivity.
Qed.
Section Inline.
Variable plain : list val -> result string.
Variable parse : list val -> list string -> result (list val).
Variable ctx : ctxattrs.
Lemma refs_loop_simple f subs cs l : Forall simple l -> sizes l <= f -> refs_loop plain ctx (refs_reparse plain parse ctx f subs) cs l = Ok (cs, l, false).
Proof.
  intros F. induction F as [|v l Hs F IH]; intros L; [reflexivity|]. change (sizes (v :: l)) with (vsize v + sizes l) in L. cbn [refs_loop]. specialize (IH ltac:(lia)).
  assert (refs_elem plain ctx (refs_reparse plain parse ctx f subs) cs v = Ok (cs, v, false)) as ->.
  { simply Hs; try reflexivity. destruct f as [|f]; [cbn in L; lia|]. destruct subs; reflexivity. }
  cbn [bind]. rewrite IH. reflexivity.
Qed.
Lemma replaceRefs_simple subs cs l : Forall simple l -> replaceRefs plain parse ctx subs cs l = Ok (cs, l).
Proof.
  intros F. unfold replaceRefs, refs_fuel. cbn [refs_reparse]. rewrite refs_loop_simple by (assumption || apply le_n). cbn [bind]. now destruct subs.
Qed.
End Inline.
Lemma inlines_simple pws c subs l : Forall simple l -> reparseInlines pws c subs l = Ok l.
Proof.
  induction 1 as [|v l Hs F IH]; [reflexivity|]. cbn [reparseInlines].
  assert ((if with_attributes v then reparseInline pws (S (vsize v)) c subs v else Ok (subs, v)) = Ok (subs, v)) as -> by (simply Hs; reflexivity).
  cbn [bind fst snd]. rewrite IH. reflexivity.
Qed.
Lemma sub_inline_simple f l : Forall simple l -> sub_inline f l = (f, l).
Proof. induction 1 as [|v l Hs F IH]; [reflexivity|]. cbn [sub_inline]. simply Hs; rewrite IH; reflexivity. Qed.

Definition vhtml (v : val) : string :=
  match v with
  | StringElement s => s
  | SpecialCharacter n => match Escape.renderSpecialCharacter n with Ok s => s | _ => "" end
  | Symbol n => match Escape.renderSymbol n with Ok s => s | _ => "" end
  | Callout n => ("<b class=""conum"">(" ++ itoa n ++ ")</b>")%string
  | QuotedText k [StringElement s] [] => match find (fun qt => String.eqb k (fst qt)) quote_tags with Some (_, tag) => ("<" ++ tag ++ ">" ++ s ++ "</" ++ tag ++ ">")%string | None => "" end
  | _ => ""
  end.
Definition renders (v : val) : Prop :=
  match v with
  | StringElement _ | Callout _ => True
  | SpecialCharacter n => exists s, Escape.renderSpecialCharacter n = Ok s
  | Symbol n => exists s, Escape.renderSymbol n = Ok s
  | QuotedText k [StringElement _] [] => In k (map fst quote_tags)
  | _ => False
  end.
Lemma renders_simple v : renders v -> simple v.
Proof.
  destruct v; try (cbn; auto; intros []; exact Logic.I). destruct elements as [|e [|]]; try (now intros []); try (destruct e; now intros []). destruct e; try (now intros []). destruct attrs; [|now intros []]. intros _. exact Logic.I.
Qed.
(** the paragraph of a list item *)
Definition item_para (l : list val) (p : string) : Prop :=
  Forall renders l /\ p = ("<p>" ++ trimSpaces (sconcat (map vhtml l)) ++ "</p>" ++ LF)%string.
Lemma item_para_simple l p : item_para l p -> Forall simple l.
Proof. intros (F & _). eapply Forall_impl; [|exact F]. apply renders_simple. Qed.
(** what the elements are after the substitutions, and after the filter *)
Definition visible (v : val) : bool := negb (matched v).
Inductive settled : val -> val -> Prop :=
| set_blank : settled BlankLine BlankLine
| set_block : forall k a l, mget a AttrTitle = None -> Forall simple l -> settled (DelimitedBlock k a l) (DelimitedBlock k a l)
| set_para : forall a l, mget a AttrTitle = None -> Forall simple l -> settled (Paragraph a l) (Paragraph a l)
| set_compound : forall k l l', settled_all l l' -> settled (DelimitedBlock k [] l) (DelimitedBlock k [] l')
| set_list : forall items b h, Forall (fun ml => proper (fst ml) /\ Forall simple (snd ml)) items ->
    doArrangeListElements (map (fun ml => item_of (fst ml) [Paragraph [] (snd ml)]) items) = Ok b -> lblock item_para b h ->
    settled (ListElements (map (fun ml => item_of (fst ml) [Paragraph [] (snd ml)]) items)) b
| set_remark : forall s, settled (SinglelineComment s) (SinglelineComment s)
| set_break : settled ThematicBreak ThematicBreak
with settled_all : list val -> list val -> Prop :=
| sa_nil : settled_all [] []
| sa_keep : forall v w l l', settled v w -> visible v = true -> settled_all l l' -> settled_all (v :: l) (w :: l')
| sa_drop : forall v w l l', settled v w -> visible v = false -> settled_all l l' -> settled_all (v :: l) l'.
Scheme settled_mind := Induction for settled Sort Prop with settled_all_mind := Induction for settled_all Sort Prop.
Combined Scheme settled_both from settled_mind, settled_all_mind.
Definition foot_loop := fix loop (f : footnotes) (l : list val) {struct l} : footnotes * list val :=
    match l with
    | [] => (f, [])
    | e :: r => let (f1, e') := substituteFootnotes f e in let (f2, r') := loop f1 r in (f2, e' :: r')
    end.
Lemma collect_settled f v w : settled v w -> substituteFootnotes f v = (f, v).
Proof.
  destruct 1 as [|k a l _ F|a l _ F|k l l' F|items b h F A B|s|]; try reflexivity.
  - cbn [substituteFootnotes]. now rewrite sub_inline_simple.
  - cbn [substituteFootnotes]. change (fix loop (f : footnotes) (l : list val) {struct l} : footnotes * list val := _) with foot_loop.
    match goal with |- (let (_, _) := ?x in _) = _ => enough (x = (f, map (fun ml => item_of (fst ml) [Paragraph [] (snd ml)]) items)) as -> by reflexivity end.
    clear A. induction F as [|[m l] items (Pm & Fl) F IH]; [reflexivity|]. cbn [fst snd] in Pm, Fl. cbn [map fst snd foot_loop].
    assert (substituteFootnotes f (item_of m [Paragraph [] l]) = (f, item_of m [Paragraph [] l])) as ->.
    { destruct m; destruct Pm; cbn [item_of substituteFootnotes]; rewrite (sub_inline_simple f l Fl); reflexivity. }
    now rewrite IH.
Qed.
Lemma arrange_simple v : simple v -> arrangeElem v = Ok v.
Proof. intros Hs. simply Hs; reflexivity. Qed.
Definition arrange_all := fix loop (l : list val) : result (list val) :=
                   match l with
                   | [] => Ok []
                   | x :: r => do x' <- arrangeElem x; do r' <- loop r; Ok (x' :: r')
                   end.
Lemma filter_simple v : simple v -> matched v = false /\ filterElem v = Ok v /\ isEmpty v = false.
Proof. intros Hs. simply Hs; repeat split; reflexivity. Qed.
Definition filter_loop := fix loop (l : list val) : result (list val) :=
    match l with
    | [] => Ok []
    | e :: r => if matched e then loop r else do e' <- filterElem e; do r' <- loop r; Ok (if isEmpty e' then r' else e' :: r')
    end.
Definition filter_items := fix items (l : list val) : result (list val) :=
    match l with
    | [] => Ok []
    | e :: r => do e' <- filterElem e; do r' <- items r; Ok (e' :: r')
    end.
Lemma filter_simples l : Forall simple l -> filter_loop l = Ok l.
Proof.
  intros F. induction F as [|v l Hs F IH]; [reflexivity|]. cbn [filter_loop]. destruct (filter_simple v Hs) as (-> & -> & E). cbn [bind]. rewrite IH. cbn [bind]. now rewrite E.
Qed.
(** the tree of lists goes through the filter *)
Lemma filter_tree : (forall b h, lblock item_para b h -> matched b = false /\ filterElem b = Ok b /\ isEmpty b = false) /\
  (forall m items h, litems item_para m items h -> proper m -> filter_items items = Ok items) /\ (forall l h, linside item_para l h -> filter_loop l = Ok l).
Proof.
  apply ltree_ind; try reflexivity.
  - intros m items h Pm _ _ IH. split; [reflexivity|]. split; [|reflexivity]. cbn [filterElem].
    change (fix items (l : list val) : result (list val) := _) with filter_items. now rewrite IH.
  - intros m l p rest r items h Pa _ In_ _ It Pm. specialize (It Pm). cbn [filter_items]. rewrite It.
    assert (filterElem (item_of m (Paragraph [] l :: rest)) = Ok (item_of m (Paragraph [] l :: rest))) as ->; [|reflexivity].
    assert (filter_loop (Paragraph [] l :: rest) = Ok (Paragraph [] l :: rest)) as Fl.
    { cbn [filter_loop matched filterElem]. change (fix loop (l : list val) : result (list val) := _) with filter_loop.
      rewrite (filter_simples l) by (eapply item_para_simple; exact Pa). cbn [bind setElements set_elements isEmpty]. now rewrite In_. }
    revert Fl. generalize (Paragraph [] l :: rest). intros es Fl.
    destruct m; destruct Pm; cbn [item_of filterElem]; change (fix loop (l : list val) : result (list val) := _) with filter_loop; rewrite Fl; reflexivity.
  - intros b h l r _ (M & Fb & Em) _ Fl. cbn [filter_loop]. rewrite M, Fb. cbn [bind]. rewrite Fl. cbn [bind]. now rewrite Em.
Qed.
(** the lists are arranged, and then the filter leaves the rest *)
Definition becomes (v w : val) : Prop := exists u, arrangeElem v = Ok u /\ matched u = matched v /\ (visible v = true -> filterElem u = Ok w /\ isEmpty w = false).
Lemma becomes_both : (forall v w, settled v w -> becomes v w) /\ (forall l l', settled_all l l' -> exists us, arrange_all l = Ok us /\ filter_loop us = Ok l').
Proof.
  apply settled_both.
  - exists BlankLine. repeat split; discriminate.
  - intros k a l _ F. exists (DelimitedBlock k a l). split; [|split; [reflexivity|]].
    + cbn [arrangeElem]. match goal with |- bind ?x _ = _ => enough (x = Ok l) as -> by reflexivity end.
      induction F as [|v l Hs F IH]; [reflexivity|]. rewrite arrange_simple by assumption. cbn [bind]. rewrite IH. reflexivity.
    + intros _. cbn [filterElem]. change (fix loop (l : list val) : result (list val) := _) with filter_loop. rewrite (filter_simples l F). split; reflexivity.
  - intros a l _ F. exists (Paragraph a l). split; [reflexivity|]. split; [reflexivity|]. intros _. cbn [filterElem].
    change (fix loop (l : list val) : result (list val) := _) with filter_loop. rewrite (filter_simples l F). split; reflexivity.
  - intros k l l' _ (us & A & Fl). exists (DelimitedBlock k [] us). split; [|split; [reflexivity|]].
    + cbn [arrangeElem]. change (fix loop (l : list val) : result (list val) := _) with arrange_all. now rewrite A.
    + intros _. cbn [filterElem]. change (fix loop (l : list val) : result (list val) := _) with filter_loop. rewrite Fl. split; reflexivity.
  - intros items b h _ A B. destruct (proj1 filter_tree b h B) as (M & Fb & Em). exists b. split; [exact A|]. split; [exact M|]. intros _. split; assumption.
  - intros s. exists (SinglelineComment s). repeat split; discriminate.
  - exists ThematicBreak. repeat split.
  - exists []. split; reflexivity.
  - intros v w l l' _ (u & Av & Mv & Fv) V _ (us & A & Fl). exists (u :: us). cbn [arrange_all filter_loop]. rewrite Av. cbn [bind]. rewrite A. split; [reflexivity|].
    destruct (Fv V) as [Q Em]. unfold visible in V. apply negb_true_iff in V. rewrite Mv, V, Q. cbn [bind]. rewrite Fl. cbn [bind]. now rewrite Em.
  - intros v w l l' _ (u & Av & Mv & Fv) V _ (us & A & Fl). exists (u :: us). cbn [arrange_all filter_loop]. rewrite Av. cbn [bind]. rewrite A. split; [reflexivity|].
    unfold visible in V. apply negb_false_iff in V. now rewrite Mv, V.
Qed.
Definition settled_becomes := proj1 becomes_both.
Section Agg.
Variables (isl isn : N -> bool) (fmtv : val -> string).
Lemma reference_simple v refs : simple v -> Aggregate.reference fmtv v refs = refs.
Proof. intros Hs. simply Hs; reflexivity. Qed.
Definition visit := fix visit (l : list val) (refs : gomap val) {struct l} : gomap val :=
      match l with
      | [] => refs
      | x :: r => visit r (Aggregate.reference fmtv x refs)
      end.
Lemma reference_tree : (forall b h, lblock item_para b h -> forall refs, Aggregate.reference fmtv b refs = refs) /\
  (forall m items h, litems item_para m items h -> proper m -> forall refs, visit items refs = refs) /\ (forall l h, linside item_para l h -> forall refs, visit l refs = refs).
Proof.
  apply ltree_ind; try reflexivity.
  - intros m items h Pm _ _ IH refs. cbn [Aggregate.reference]. change (fix visit (l : list val) (refs : gomap val) {struct l} : gomap val := _) with visit. now rewrite IH.
  - intros m l p rest r items h Pa _ In_ _ It Pm refs. cbn [visit]. rewrite (It Pm).
    destruct m; destruct Pm; cbn [item_of Aggregate.reference]; change (fix visit (l : list val) (refs : gomap val) {struct l} : gomap val := _) with visit; cbn [visit]; apply In_.
  - intros b h l r _ Bv _ Lv refs. cbn [visit]. rewrite Bv. apply Lv.
Qed.
Lemma reference_both : (forall v w, settled v w -> forall refs, Aggregate.reference fmtv w refs = refs) /\ (forall l l', settled_all l l' -> forall refs, visit l' refs = refs).
Proof.
  apply settled_both; try reflexivity.
  - intros k a l N F refs. cbn [Aggregate.reference]. unfold refTitle. rewrite N.
    revert refs. induction F as [|v l Hs F IH]; intros refs; [reflexivity|]. rewrite reference_simple by assumption. apply IH.
  - intros a l N F refs. cbn [Aggregate.reference]. unfold refTitle. rewrite N.
    revert refs. induction F as [|v l Hs F IH]; intros refs; [reflexivity|]. rewrite ?reference_simple by assumption. apply IH.
  - intros k l l' _ L refs. cbn [Aggregate.reference]. change (fix visit (l : list val) (refs : gomap val) {struct l} : gomap val := _) with visit. apply L.
  - intros items b h _ _ B refs. exact (proj1 reference_tree b h B refs).
  - intros v w l l' _ Av _ _ Al refs. cbn [visit]. rewrite Av. apply Al.
  - intros v w l l' _ _ _ _ Al refs. apply Al.
Qed.
Lemma agg_settled c t root v w : settled v w -> aggElement isl isn fmtv (mkAS c [] t (mkAgg root [])) w = Some (mkAS c [] t (mkAgg (root ++ [w]) [])).
Proof.
  intros S. pose proof (proj1 reference_both v w S []) as E.
  destruct S as [| | | |items b h F A B| |]; [| | | |destruct B| |]; unfold aggElement; cbn [as_refs as_tree as_ctx as_toc]; rewrite E; reflexivity.
Qed.
(** the fragments after the filter *)
Inductive kept : list val -> list (list val) -> list val -> Prop :=
| kept_nil : kept [] [] []
| kept_keep : forall v w l fs l', settled v w -> visible v = true -> kept l fs l' -> kept (v :: l) ([w] :: fs) (w :: l')
| kept_drop : forall v w l fs l', settled v w -> visible v = false -> kept l fs l' -> kept (v :: l) ([] :: fs) l'.
Lemma kept_settled l l' : settled_all l l' -> exists fs, kept l fs l'.
Proof.
  induction 1 as [|v w l l' S V _ (fs & IH)|v w l l' S V _ (fs & IH)]; eexists; [apply kept_nil|eapply kept_keep; eauto|eapply kept_drop; eauto].
Qed.
Lemma agg_settleds c t vs fs ws : kept vs fs ws -> forall root,
  aggFragments isl isn fmtv (mkAS c [] t (mkAgg root [])) (map (fun l => toFrag (inl l)) fs) = Some (mkAS c [] t (mkAgg (root ++ ws) [])).
Proof.
  induction 1 as [|v w l fs l' S V K IH|v w l fs l' S V K IH]; intros root; [cbn; now rewrite app_nil_r| |]; cbn [map toFrag aggFragments aggElements].
  - rewrite (agg_settled _ _ _ v) by assumption. rewrite IH, <- app_assoc. reflexivity.
  - apply IH.
Qed.
End Agg.
Lemma collect_stage vs fs ws : kept vs fs ws -> forall f, collectStage f (map (fun v => inl [v]) vs) = (f, map (fun v => inl [v]) vs).
Proof.
  induction 1 as [|v w l fs l' S V K IH|v w l fs l' S V K IH]; intros f; [reflexivity| |]; cbn [map collectStage collectFootnotes sub_all]; rewrite (collect_settled f v w) by assumption; now rewrite IH.
Qed.
Lemma arrange_stage vs fs ws : kept vs fs ws -> filterStage (map arrangeLists (map (fun v => inl [v]) vs)) = map (fun l => inl l) fs.
Proof.
  unfold filterStage. induction 1 as [|v w l fs l' S V K IH|v w l fs l' S V K IH]; [reflexivity| |]; cbn [map]; rewrite IH; f_equal; unfold arrangeLists, arrangeListElements; cbn [mapM];
    destruct (settled_becomes v w S) as (u & Au & Mu & Fu); rewrite Au; cbn [bind]; unfold filterOut; cbn [filterElems]; rewrite Mu.
  - destruct (Fu V) as [Q Em]. unfold visible in V. apply negb_true_iff in V. rewrite V, Q. cbn [bind]. now rewrite Em.
  - unfold visible in V. apply negb_false_iff in V. now rewrite V.
Qed.
Lemma no_header vs ws : settled_all vs ws -> docHeader ws = None /\ bodyElements ws = ws.
Proof.
  intros F. split.
  - unfold docHeader. assert (forall k, docHeader_from ws k = None) as A; [|apply A]. induction F as [|v w l l' S V F IH|v w l l' S V F IH]; intros k; [reflexivity| |apply IH].
    destruct S as [| | | |items b h _ _ B| |]; [discriminate V| | | |destruct B|discriminate V|]; reflexivity.
  - induction F as [|v w l l' S V F IH|v w l l' S V F IH]; [reflexivity| |exact IH]. destruct S as [| | | |items b h _ _ B| |]; [| | | |destruct B| |]; cbn [bodyElements]; now rewrite IH.
Qed.

(** * Rendering *)
Lemma text_of_html run : Forall renders (text_of run) /\ sconcat (map vhtml (text_of run)) = encode_runes run.
Proof. destruct run; [split; [constructor|reflexivity]|]. split; [repeat constructor|]. cbn [text_of map vhtml sconcat fold_right]. apply GoLemmas.sapp_nil_r. Qed.
Lemma sconcat_app a b : sconcat (a ++ b) = (sconcat a ++ sconcat b)%string.
Proof. induction a as [|x a IH]; [reflexivity|]. cbn [app sconcat fold_right]. fold (sconcat (a ++ b)) (sconcat a). now rewrite IH, GoLemmas.sapp_assoc. Qed.
Lemma written_vhtml v h : written (Elem v) h -> renders v /\ vhtml v = h.
Proof.
  intros W. inversion W as [| | | |s h' I| |q tag s I]; subst; try (split; [first [exact Logic.I|eexists; reflexivity]|reflexivity]).
  2:{ cbv [quote_tags In] in I. repeat (destruct I as [J|I]; [injection J as <- <-; split; [cbn; tauto|reflexivity]|]). destruct I. }
  cbv [entities In] in I. repeat (destruct I as [J|I]; [injection J as <- <-; split; [eexists; reflexivity|reflexivity]|]). destruct I.
Qed.
Lemma grouped_html its hs : Forall2 written its hs -> forall run,
  Forall renders (grouped run its) /\ sconcat (map vhtml (grouped run its)) = (encode_runes run ++ sconcat hs)%string.
Proof.
  induction 1 as [|i h its hs W F IH]; intros run.
  - cbn [grouped]. destruct (text_of_html run) as [A B]. split; [exact A|]. cbn [sconcat fold_right]. now rewrite B, GoLemmas.sapp_nil_r.
  - destruct i as [r|v]; cbn [grouped].
    + destruct (IH (run ++ [r])) as [A B]. split; [exact A|]. rewrite B, encode_runes_app, GoLemmas.sapp_assoc. inversion W. reflexivity.
    + destruct (IH []) as [A B]. destruct (text_of_html run) as [A' B']. apply written_vhtml in W as [Wr Wh]. split.
      * apply Forall_app. split; [exact A'|]. constructor; assumption.
      * rewrite map_app, sconcat_app, B'. cbn [map sconcat fold_right]. fold (sconcat (map vhtml (grouped [] its))) (sconcat hs). rewrite B, Wh. reflexivity.
Qed.

Section Rendering.
Variable E : renv.
Definition quiet (st : rst) : Prop := (forall k, In k neutral_names -> mget (r_attrs st) k = None) /\ r_within st = false /\ r_list st = 0%Z.
(** any state of the attributes: enough for inline elements *)
Definition unicode_on (st : rst) : Prop := getAsBool (r_attrs st) "unicode" true = true.
Lemma exec_ok t e n ns s st : Tmpl.parse (template E t) = Some (n :: ns) -> Tmpl.exec_nodes (e_toLower E) (n :: ns) e = Ok s -> exec E t e st = Ok (s, st).
Proof.
  intros P X. unfold exec, lift, Tmpl.execute. destruct (String.eqb_spec (template E t) "") as [Q|_]; [rewrite Q in P; discriminate P|].
  now rewrite P, X.
Qed.
Ltac run_template := eapply exec_ok; [unfold template; destruct (e_xhtml E); vm_compute; reflexivity|].
Lemma callout_html n st : exec E TCalloutRef [(".Ref", Tmpl.FI n)] st = Ok (vhtml (Callout n), st).
Proof. run_template. reflexivity. Qed.
Lemma string_ok k s st : unicode_on st -> renderElement E (S k) (StringElement s) st = Ok (s, st).
Proof. intros U. cbn [renderElement renderElementWith]. unfold renderString, bindM, getAttrs, ret. rewrite U. reflexivity. Qed.
Lemma string_elements_ok k s st : unicode_on st -> renderElements (renderElement E (S k)) [StringElement s] st = Ok (sconcat (map vhtml [StringElement s]), st).
Proof. intros U. cbn [renderElements]. unfold bindM. now rewrite string_ok. Qed.
Lemma rec_ok k v st : renders v -> unicode_on st -> renderElement E (S (S k)) v st = Ok (vhtml v, st).
Proof.
  intros R U. pose proof (renders_simple v R) as Hs. simply Hs.
  - now apply string_ok.
  - destruct R as (h & R). cbn [renderElement renderElementWith vhtml]. rewrite R. reflexivity.
  - destruct R as (h & R). cbn [renderElement renderElementWith vhtml]. rewrite R. reflexivity.
  - cbn [renderElement renderElementWith]. apply callout_html.
  - remember (S k) as d eqn:Ed. cbn [renderElement renderElementWith]. unfold renderQuotedText. cbn [renderElements]. subst d. unfold bindM. rewrite string_ok by exact U. unfold ret. cbn [renderElementRoles mget]. unfold ret.
    rewrite GoLemmas.sapp_nil_r. cbn [renders] in R. cbv [quote_tags map fst In] in R. repeat (destruct R as [<-|R]; [cbn [quotedTemplate existsb String.eqb Ascii.eqb Bool.eqb orb]; run_template; cbn; rewrite ?GoLemmas.sapp_assoc; reflexivity|]). destruct R.
Qed.
Lemma elements_ok k l st : Forall renders l -> unicode_on st -> renderElements (renderElement E (S (S k))) l st = Ok (sconcat (map vhtml l), st).
Proof.
  intros F U. induction F as [|v l R F IH]; [reflexivity|]. cbn [renderElements]. unfold bindM. rewrite rec_ok by assumption. rewrite IH. reflexivity.
Qed.
Lemma quiet_unicode st : quiet st -> unicode_on st.
Proof. intros (Q & _). unfold unicode_on, getAsBool. rewrite Q; [reflexivity|right; now left]. Qed.
Lemma paragraph_ok k l st : Forall renders l -> quiet st ->
  renderElement E (S (S (S k))) (Paragraph [] l) st = Ok (paragraph_html (trimLF (sconcat (map vhtml l))), st).
Proof.
  intros F Q. pose proof (quiet_unicode st Q) as U. destruct Q as (Qa & Qw & Ql). remember (S (S k)) as d eqn:Ed. cbn [renderElement renderElementWith].
  unfold renderParagraph. rewrite Qw, Ql. cbn [orb Z.ltb Z.compare]. cbn [mget].
  unfold renderRegularParagraph, usual, mapS, renderParagraphElements, getAttrs, bindM, ret. subst d. rewrite elements_ok by assumption.
  assert (hasOption (r_attrs st) "hardbreaks" = false) as Hb.
  { unfold hasOption, ahas, mhas, AttrOptions. rewrite (Qa "options"), (Qa "hardbreaks"); [reflexivity|cbn; tauto|cbn; tauto]. }
  rewrite Hb. cbn [hasOption mget ahas orb renderElementRoles renderElementTitle].
  unfold ret. run_template. cbn. reflexivity.
Qed.
Lemma quiet_in st : quiet st -> unicode_on (mkRst (r_attrs st) (r_counters st) true (r_list st) (r_log st)).
Proof. intros Q. exact (quiet_unicode st Q). Qed.
Lemma st_eta st : quiet st -> mkRst (r_attrs st) (r_counters st) (r_within st) (r_list st) (r_log st) = st.
Proof. now destruct st. Qed.
Lemma verbatim_ok k kind class before after l st : In (kind, (class, before, after)) verbatim_blocks -> Forall renders l -> quiet st ->
  renderElement E (S (S (S k))) (DelimitedBlock kind [] l) st = Ok (block_html class before (trimLF (sconcat (map vhtml l))) after, st).
Proof.
  intros I F Q. pose proof (quiet_unicode st Q) as U. pose proof (quiet_in st Q) as U'. remember (S (S k)) as d eqn:Ed. cbn [renderElement renderElementWith].
  cbv [verbatim_blocks In] in I. destruct I as [I|[I|[I|[]]]]; injection I as <- <- <- <-; unfold renderDelimitedBlock; cbn [String.eqb Ascii.eqb Bool.eqb].
  - unfold renderListingBlock. cbn [mget]. unfold inBlock, usual, mapS, bindM, ret. subst d. rewrite elements_ok by assumption.
    cbn [renderElementRoles renderElementTitle mget]. unfold ret. erewrite exec_ok; [|unfold template; destruct (e_xhtml E); vm_compute; reflexivity|cbn; reflexivity].
    cbn [r_attrs r_counters r_list r_log]. rewrite st_eta by assumption. reflexivity.
  - unfold renderLiteralBlock. unfold usual, mapS, bindM, ret. subst d. rewrite elements_ok by assumption.
    cbn [renderElementRoles renderElementTitle mget]. unfold ret. run_template. cbn. reflexivity.
  - unfold renderFencedBlock. unfold inBlock, usual, mapS, bindM, ret. subst d. rewrite elements_ok by assumption.
    cbn [renderElementRoles renderElementTitle mget]. unfold ret. erewrite exec_ok; [|unfold template; destruct (e_xhtml E); vm_compute; reflexivity|cbn; reflexivity].
    cbn [r_attrs r_counters r_list r_log]. rewrite st_eta by assumption. reflexivity.
Qed.
Lemma pass_ok k s st : quiet st -> renderElement E (S (S (S k))) (DelimitedBlock "pass" [] (match s with "" => [] | _ => [StringElement s] end)) st = Ok ((trimLF s ++ LF)%string, st).
Proof.
  intros Q. pose proof (quiet_in st Q) as U'. remember (S (S k)) as d eqn:Ed. cbn [renderElement renderElementWith].
  unfold renderDelimitedBlock; cbn [String.eqb Ascii.eqb Bool.eqb]. unfold renderPassthroughBlock, inBlock, bindM. subst d.
  rewrite elements_ok; [|destruct s; repeat constructor|assumption].
  cbn [renderElementRoles mget]. unfold ret. erewrite exec_ok; [|unfold template; destruct (e_xhtml E); vm_compute; reflexivity|cbn; reflexivity].
  cbn [r_attrs r_counters r_list r_log]. rewrite st_eta by assumption. f_equal. f_equal.
  assert (sconcat (map vhtml match s with "" => [] | _ => [StringElement s] end) = s) as -> by (destruct s; [reflexivity|cbn [map vhtml sconcat fold_right]; apply GoLemmas.sapp_nil_r]).
  reflexivity.
Qed.
Lemma code_ok k lang l st : lang <> "" -> Forall renders l -> quiet st ->
  renderElement E (S (S (S k))) (DelimitedBlock "listing" [(AttrStyle, Types.VStr "source"); ("language", Types.VStr lang)] l) st =
  Ok (block_html "listingblock" (code_before lang) (trimLF (sconcat (map vhtml l))) "</code></pre>", st).
Proof.
  intros Ne F Q. pose proof (quiet_in st Q) as U'. remember (S (S k)) as d eqn:Ed. cbn [renderElement renderElementWith].
  unfold renderDelimitedBlock; cbn [String.eqb Ascii.eqb Bool.eqb]. unfold renderListingBlock, AttrStyle. cbn [mget String.eqb Ascii.eqb Bool.eqb eq_str].
  unfold renderSourceBlock, renderSourceBlockElements, inBlock, bindM, getAttrs, ret. subst d. cbn [r_attrs].
  destruct Q as (Qa & Qw & Ql). unfold getD, getAsStringD. rewrite (Qa "source-highlighter") by (cbn; tauto).
  cbn [mget String.eqb Ascii.eqb Bool.eqb]. cbn [negb andb]. rewrite orb_true_r.
  rewrite elements_ok by assumption. cbn [r_attrs r_counters r_list r_log renderElementRoles renderElementTitle mget String.eqb Ascii.eqb Bool.eqb fst snd]. unfold ret.
  destruct lang as [|c lang]; [congruence|].
  erewrite exec_ok; [|unfold template; destruct (e_xhtml E); vm_compute; reflexivity|cbn; reflexivity].
  replace (mkRst (r_attrs st) (r_counters st) (r_within st) (r_list st) (r_log st)) with st by now destruct st. unfold block_html, code_before. f_equal. f_equal. cbn [append]. repeat (progress (rewrite ?GoLemmas.sapp_assoc; cbn [append])). reflexivity.
Qed.
Definition same (st st' : rst) : Prop := r_attrs st' = r_attrs st /\ r_within st' = r_within st /\ r_list st' = r_list st.
Lemma same_refl st : same st st.
Proof. repeat split. Qed.
Lemma same_trans a b c : same a b -> same b c -> same a c.
Proof. unfold same. intuition congruence. Qed.
Lemma same_quiet st st' : same st st' -> quiet st -> quiet st'.
Proof. intros (A & B & C) (Q & W & L). unfold quiet. rewrite A, B, C. auto. Qed.
Lemma caption_ok k c p st : exists x st', renderCaption [] k c p st = Ok (x, st') /\ same st st'.
Proof.
  unfold renderCaption, bindM, getAttrs, ret. set (cap := match getAsString [] "caption" with Some _ => _ | None => _ end). clearbody cap.
  destruct (contains cap p); [|eexists _, _; split; [reflexivity|apply same_refl]].
  unfold nextCounter. destruct st. eexists _, _. split; [reflexivity|]. repeat split.
Qed.
Lemma compound_ok k kind before after l h st st1 : In (kind, (before, after)) compound_blocks ->
  renderElements (renderElement E k) l st = Ok (h, st1) -> same st st1 ->
  exists st2, renderElement E (S k) (DelimitedBlock kind [] l) st = Ok ((before ++ h ++ after)%string, st2) /\ same st st2.
Proof.
  intros I R Sm. cbn [renderElement renderElementWith].
  cbv [compound_blocks In] in I. destruct I as [I|[I|[I|[I|[]]]]]; injection I as <- <- <-; unfold renderDelimitedBlock; cbn [String.eqb Ascii.eqb Bool.eqb ahas mhas mget].
  - unfold renderExampleBlock, bindM. rewrite R. cbn [renderElementRoles renderElementTitle mget]. unfold ret.
    destruct (caption_ok "example-caption" "exampleBlockCounter" "{counter:example-number}" st1) as ((cap & num) & st2 & -> & S2).
    exists st2. split; [|eapply same_trans; eauto]. run_template. cbn. reflexivity.
  - unfold renderSidebarBlock, usual, bindM. rewrite R. cbn [renderElementRoles renderElementTitle mget]. unfold ret. exists st1. split; [|exact Sm]. run_template. cbn. reflexivity.
  - unfold renderOpenBlock, usual, bindM. rewrite R. cbn [renderElementRoles renderElementTitle mget]. unfold ret. exists st1. split; [|exact Sm]. run_template. cbn. reflexivity.
  - unfold renderQuoteBlock, usual, bindM. rewrite R. cbn [renderElementRoles renderElementTitle mget]. unfold ret. exists st1. split; [|exact Sm].
    unfold exec, lift, Tmpl.execute. cbn [template]. unfold template. destruct (e_xhtml E); vm_compute Tmpl.parse; cbn; reflexivity.
Qed.
Lemma embedded_ok k l p st : item_para l p -> quiet st -> inList (renderElement E (S (S (S k))) (Paragraph [] l)) st = Ok (p, st).
Proof.
  intros (F & ->) Q. pose proof (quiet_unicode st Q) as U. destruct Q as (Qa & Qw & Ql). unfold inList. remember (S (S k)) as d eqn:Ed. cbn [renderElement renderElementWith].
  unfold renderParagraph. cbn [r_within r_list]. rewrite Ql. cbn [Z.add Z.ltb Z.compare]. rewrite orb_true_r.
  unfold renderEmbeddedParagraph, bindM. subst d. rewrite elements_ok by assumption. cbn [mget renderCheckStyle].
  erewrite exec_ok; [|unfold template; destruct (e_xhtml E); vm_compute; reflexivity|cbn; reflexivity].
  cbn [r_attrs r_counters r_within r_list r_log Z.sub Z.add Z.opp Z.pos_sub Pos.compare Pos.compare_cont]. destruct st as [at_ co wi li lo]. cbn [r_list] in Ql. subst li. reflexivity.
Qed.
Lemma ordered_start s c st : exec E TOrderedList [(".ID", Tmpl.FS ""); (".Title", Tmpl.FS ""); (".Roles", Tmpl.FS ""); (".Style", Tmpl.FS s);
    (".ListStyle", Tmpl.FS (numberingType s)); (".Start", Tmpl.FS ""); (".Content", Tmpl.FS c); (".Reversed", Tmpl.FB false)] st = Ok ((list_start (MOrdered s) ++ c ++ list_end (MOrdered s))%string, st).
Proof.
  unfold numberingType, list_start, list_end, number_type, mget, find, optS, fst.
  repeat match goal with |- context[String.eqb s ?x] => destruct (String.eqb s x); cbn iota end.
  all: run_template; cbn; repeat (progress (rewrite ?GoLemmas.sapp_assoc; cbn [append])); reflexivity.
Qed.
End Rendering.
Definition render_items (E : renv) (k : nat) (m : marker) (items : list val) : M string :=
  match m with MOrdered _ => renderOrderedItems E (renderElement E k) items | _ => renderUnorderedItems E (renderElement E k) items end.
Lemma render_tree : (forall b h, lblock item_para b h -> exists d0, forall k, d0 <= k -> forall E st, quiet st -> renderElement E k b st = Ok (h, st)) /\
  (forall m items h, litems item_para m items h -> proper m -> exists d0, forall k, d0 <= k -> forall E st, quiet st -> render_items E k m items st = Ok (h, st)) /\
  (forall l h, linside item_para l h -> exists d0, forall k, d0 <= k -> forall E st, quiet st -> renderElements (renderElement E k) l st = Ok (h, st)).
Proof.
  apply ltree_ind.
  - intros m items h Pm Ne Li IH. destruct (IH Pm) as (d0 & R). exists (S d0). intros k L E st Q. destruct k as [|k]; [lia|]. specialize (R k ltac:(lia) E st Q).
    cbn [renderElement renderElementWith]. unfold renderList. destruct m as [|s|b|]; destruct Pm; cbn [kind_of_marker String.eqb Ascii.eqb Bool.eqb].
    + unfold renderOrderedList, bindM. cbn [render_items] in R. rewrite R. cbn [renderElementRoles renderElementTitle mget]. unfold ret, lift.
      assert (getNumberingStyle [] items = Ok s) as -> by (inversion Li; subst; [congruence|reflexivity]). apply ordered_start.
    + unfold renderUnorderedList, bindM. cbn [render_items] in R. inversion Li as [|? l p rest r items' h' Pa In_ Li']; subst; [congruence|]. cbn [item_of String.eqb Ascii.eqb Bool.eqb negb] in *. unfold ret at 1. rewrite R.
      cbn [renderElementRoles renderElementTitle mget]. unfold ret.
      erewrite exec_ok; [|unfold template; destruct (e_xhtml E); vm_compute; reflexivity|cbn; reflexivity]. reflexivity.
  - intros m _. exists 0. intros k _ E st _. destruct m; reflexivity.
  - intros m l p rest r items h Pa _ (d1 & R1) _ It Pm. destruct (It Pm) as (d2 & R2). exists (3 + d1 + d2). intros k L E st Q. destruct k as [|[|[|k]]]; [lia|lia|lia|].
    specialize (R1 (S (S (S k))) ltac:(lia) E st Q). specialize (R2 (S (S (S k))) ltac:(lia) E st Q).
    assert (forall t, In t [TOrderedListElement; TUnorderedListElement] -> renderItem E (renderElement E (S (S (S k)))) t (Paragraph [] l :: rest) st = Ok ((item_start ++ p ++ r ++ item_end)%string, st)) as Ri.
    { intros t It'. unfold renderItem, renderListElements, bindM. rewrite (embedded_ok E k l p st Pa Q), R1. unfold ret.
      cbv [In] in It'. destruct It' as [<-|[<-|[]]]; (erewrite exec_ok; [|unfold template; destruct (e_xhtml E); vm_compute; reflexivity|cbn; reflexivity]);
        unfold item_start, item_end; cbn [append]; rewrite ?GoLemmas.sapp_assoc; reflexivity. }
    destruct m as [|s|b|]; destruct Pm; cbn [render_items item_of renderOrderedItems renderUnorderedItems] in *; unfold bindM; (rewrite Ri by (cbn; tauto)); rewrite R2; unfold ret; now rewrite !GoLemmas.sapp_assoc.
  - exists 0. reflexivity.
  - intros b h l r _ (d1 & R1) _ (d2 & R2). exists (d1 + d2). intros k L E st Q. cbn [renderElements]. unfold bindM. rewrite R1 by (assumption || lia). rewrite R2 by (assumption || lia). reflexivity.
Qed.

(** the renderer goes on with the same output format and the same strings.ToLower *)
Definition alike (E E' : renv) : Prop := e_xhtml E' = e_xhtml E /\ e_toLower E' = e_toLower E.
Lemma break_rendered E k st : renderElement E (S k) ThematicBreak st = Ok ((if e_xhtml E then "<hr/>" ++ LF else "<hr>" ++ LF)%string, st).
Proof. cbn [renderElement renderElementWith]. unfold exec, lift, Tmpl.execute. cbn [template]. unfold template. destruct (e_xhtml E); vm_compute Tmpl.parse; cbn; reflexivity. Qed.
Lemma admonition_rendered E k style class caption l st : In (style, (class, caption)) admonition_captions -> e_toLower E style = class ->
  Forall renders l -> sconcat (map vhtml l) <> "" -> quiet st ->
  renderElement E (S (S (S k))) (Paragraph [(AttrStyle, Types.VStr style)] l) st = Ok (admonition_html class caption (sconcat (map vhtml l)), st).
Proof.
  intros I Lw F Ne Q. pose proof (quiet_unicode st Q) as U. destruct Q as (Qa & Qw & Ql). remember (S (S k)) as d eqn:Ed. cbn [renderElement renderElementWith].
  assert (hasOption (r_attrs st) "hardbreaks" = false) as Hb.
  { unfold hasOption, ahas, mhas, AttrOptions. rewrite (Qa "options"), (Qa "hardbreaks"); [reflexivity|cbn; tauto|cbn; tauto]. }
  unfold renderParagraph. rewrite Qw, Ql. cbn [orb Z.ltb Z.compare].
  unfold AttrStyle.
  assert (getD E (r_attrs st) "icons" "text" = "text") as Gi by (unfold getD, getAsStringD; rewrite (Qa "icons") by (cbn; tauto); reflexivity).
  assert (forall c, In c ["tip"; "note"; "important"; "warning"; "caution"] -> mget (r_attrs st) (c ++ "-caption")%string = None) as Gc.
  { intros c Ic. apply Qa. cbn in Ic. repeat destruct Ic as [<-|Ic]; try destruct Ic; cbn; tauto. }
  assert (renderElements (renderElement E d) l st = Ok (sconcat (map vhtml l), st)) as Re by (subst d; now apply elements_ok).
  revert Ne Re. generalize (sconcat (map vhtml l)). intros h Ne Re. destruct h as [|ch h]; [congruence|].
  cbv [admonition_captions In] in I.
  assert (forall c, In c ["tip"; "note"; "important"; "warning"; "caution"] -> forall v x, getD E [("style", v)] "caption" (getD E (r_attrs st) (c ++ "-caption") x) = x) as Gd.
  { intros c Ic v x. unfold getD, getAsStringD. cbn [mget String.eqb Ascii.eqb Bool.eqb]. now rewrite (Gc c Ic). }
  repeat (destruct I as [I|I]; [injection I as <- <- <-;
    cbn [mget String.eqb Ascii.eqb Bool.eqb existsb orb]; unfold renderAdmonitionParagraph; cbn [getAsString mget String.eqb Ascii.eqb Bool.eqb]; rewrite Lw;
    unfold renderIcon, bindM, getAttrs; rewrite Gi; rewrite Gd by (cbn; tauto); cbn [String.eqb Ascii.eqb Bool.eqb orb]; unfold ret;
    (erewrite exec_ok; [|unfold template; destruct (e_xhtml E); vm_compute; reflexivity|cbn; reflexivity]);
    unfold usual, renderParagraphElements, bindM, getAttrs; rewrite Hb, Re; cbn [hasOption mget ahas mhas orb renderElementRoles renderElementTitle String.eqb Ascii.eqb Bool.eqb AttrOptions]; unfold ret;
    (eapply exec_ok; [unfold template; destruct (e_xhtml E); vm_compute; reflexivity|]); cbn; repeat (progress (rewrite ?GoLemmas.sapp_assoc; cbn [append])); reflexivity|]).
  destruct I.
Qed.

(** * The substitutions *)
Section Stages.
Variable X : Type.
Variable cls : string -> Peg.rune -> bool.
Variable low : Peg.rune -> Peg.rune.
Variable white : Peg.rune -> bool.
Variable other : string -> Peg.labels (PegHost.hv X) -> Peg.soft PegHost.gstore (option (list string)) -> option (Peg.value (PegHost.hv X) * bool).
Notation H := (PegHost.go_host X cls low white other).
Hypothesis U : unicode_ok H.
Variable E : renv.
Variable setColumns : val -> list val -> result val.
Variable user : list string.
Notation pws n := (parseWithSubstitutions X cls low white other n user).

Lemma vals_elem l : vals X (VList (map (@elem X) l)) = Some l.
Proof.
  unfold vals. cbn [to_val].
  match goal with |- match option_map _ ?x with _ => _ end = _ => enough (x = Some l) as -> by reflexivity end.
  induction l as [|v l IH]; [reflexivity|]. cbn [map elem to_val]. rewrite IH. reflexivity.
Qed.
(** the substitutions [subs] turn the text into [l] *)
Definition reads (subs : list string) (text : list rune) (l : list val) : Prop :=
  Forall simple l /\
  (text = [] -> l = []) /\ (text <> [] -> exists n0 before s, p_errs s = false /\ forall n, n0 <= n ->
    parse H the_grammar n "NormalGroup" text (ctx_store user None subs) = Some (@ROk H (VList (map (@elem X) l)) (Pos before []) [] s)).
Lemma pws_ok subs ls l : characters (joined ls) -> reads subs (joined ls) l ->
  exists n0, forall n, n0 <= n -> pws n (Some None) "NormalGroup" (VSlice (raw_lines ls)) subs = Ok l.
Proof.
  intros V (Fs & R0 & R1). unfold parseWithSubstitutions. cbn [serialize bind]. rewrite raw_text.
  destruct (list_eq_dec N.eq_dec (joined ls) []) as [En|Ne].
  - rewrite (R0 En), En. exists 0. intros n _. reflexivity.
  - destruct (R1 Ne) as (n0 & b & s & Es & P). exists n0. intros n L.
    destruct (String.eqb_spec (encode_runes (joined ls)) "") as [Q|_]; [now apply encode_nil in Q|].
    rewrite runes_encode_all by exact V. rewrite (P n L). unfold parsed. rewrite Es. rewrite vals_elem. cbn [bind]. apply restore_simple; [exact Fs|apply le_n].
Qed.
Definition ctx0 (a : attributes) : actx := mkActx (newContextAttributes a) [] None.
Notation plainE := (plainText E).
Lemma slice_ok subs ls l a : characters (joined ls) -> reads subs (joined ls) l ->
  exists n0, forall n, n0 <= n -> onSlice plainE (pws n) (ctx0 a) (raw_lines ls) subs = Ok (ctx0 a, l).
Proof.
  intros V R. destruct (pws_ok subs ls l V R) as (n0 & P). exists n0. intros n L. unfold onSlice. destruct R as (Fs & R0 & _).
  destruct (raw_lines ls) as [|e es] eqn:Er.
  - rewrite R0; [reflexivity|]. destruct ls as [|? [|? ?]]; [reflexivity|discriminate Er|discriminate Er].
  - unfold sub_split. cbn [ac_exp ctx0]. rewrite (P n L). cbn [bind]. destruct (sub_contains subs AttributeRefs); [|reflexivity].
    rewrite replaceRefs_simple by exact Fs. reflexivity.
Qed.
Notation apply n := (applyElement plainE (e_fmtv E) (pws n) (quoteAttribution X cls low white other n) setColumns).
Definition plain_attrs (a : attributes) : Prop := Forall (fun kv => In (fst kv) [AttrStyle; "language"] /\ exists s, snd kv = Types.VStr s) a.
Lemma attributes_ok c n nested a : plain_attrs a -> attributesOf plainE (pws n) c nested a = Ok a.
Proof.
  intros F. unfold attributesOf, refs_attrs, reparseAttributes.
  assert (mapM (fun kv => do v <- refs_value plainE (ac_attrs c) (snd kv); Ok (fst kv, v)) a = Ok a) as ->.
  { induction F as [|[k v] a (I & s & Es) F IH]; [reflexivity|]. cbn [snd] in Es. subst v. cbn [mapM fst snd refs_value bind]. rewrite IH. reflexivity. }
  cbn [bind]. induction F as [|[k v] a (I & s & Es) F IH]; [reflexivity|]. cbn [fst] in I. cbn [mapM]. rewrite IH.
  destruct I as [<-|[<-|[]]]; reflexivity.
Qed.
Lemma block_applied kind b subs ls l a : In kind ["listing"; "literal"; "fenced"; "pass"; "comment"] -> plain_attrs b ->
  newSubstitutions (e_fmtv E) (DelimitedBlock kind b (raw_lines ls)) b = Ok subs ->
  characters (joined ls) -> reads subs (joined ls) l ->
  exists n0, forall n, n0 <= n -> forall f nested, apply n (S f) nested (ctx0 a) (DelimitedBlock kind b (raw_lines ls)) = Ok (ctx0 a, DelimitedBlock kind b l).
Proof.
  intros I F S V R. destruct (slice_ok subs ls l a V R) as (n0 & P). exists n0. intros n L f nested.
  cbn [applyElement applyElementWith getElements]. unfold onWithElements. cbn [getAttributes]. rewrite attributes_ok by exact F. cbn [bind withAttrs]. rewrite S. cbn [bind].
  cbv [In] in I. repeat destruct I as [<-|I]; try destruct I; cbn [existsb String.eqb Ascii.eqb Bool.eqb orb]; rewrite (P n L); reflexivity.
Qed.
Lemma styled_applied b ls l a : plain_attrs b -> newSubstitutions (e_fmtv E) (Paragraph b (raw_lines ls)) b = Ok normalSubstitutions ->
  characters (joined ls) -> reads normalSubstitutions (joined ls) l ->
  exists n0, forall n, n0 <= n -> forall f nested, apply n (S f) nested (ctx0 a) (Paragraph b (raw_lines ls)) = Ok (ctx0 a, Paragraph b l).
Proof.
  intros Pb Nb V R. destruct (slice_ok _ ls l a V R) as (n0 & P). exists n0. intros n L f nested.
  cbn [applyElement applyElementWith getElements]. unfold onWithElements. cbn [getAttributes]. rewrite attributes_ok by exact Pb. cbn [bind withAttrs].
  rewrite Nb. cbn [bind]. rewrite (P n L). cbn [bind fst snd].
  rewrite inlines_simple by apply R. reflexivity.
Qed.
Lemma para_applied ls l a : characters (joined ls) -> reads normalSubstitutions (joined ls) l ->
  exists n0, forall n, n0 <= n -> forall f nested, apply n (S f) nested (ctx0 a) (Paragraph [] (raw_lines ls)) = Ok (ctx0 a, Paragraph [] l).
Proof. apply styled_applied; [constructor|reflexivity]. Qed.

(** ** What is shown *)
Lemma reads_verbatim text its : verbatim_text (cls "L") text -> verbatim true true text its -> Forall simple (grouped [] its) -> reads verbatimSubstitutions text (grouped [] its).
Proof.
  intros (V & Ea & Nf & Sm) R F. split; [exact F|]. split.
  - intros ->. rewrite (C67_one_reading _ _ _ _ _ R (verb_nil true true)). reflexivity.
  - intros Ne. apply (C67_verbatim_inline X cls low white other U verbatimSubstitutions); auto.
    intros k I J. cbn in I, J. repeat destruct I as [<-|I]; try (now destruct I); repeat destruct J as [J|J]; try discriminate J; auto.
Qed.
Definition raw (s : string) : list val := match s with "" => [] | _ => [StringElement s] end.
Lemma reads_none text : verbatim_text (cls "L") text -> reads noneSubstitutions text (raw (encode_runes text)).
Proof.
  intros (V & Ea & Nf & Sm). split; [destruct (encode_runes text); repeat constructor|]. split; [intros ->; reflexivity|]. intros Ne.
  destruct (C67_every_text false false text) as (its & R).
  assert (grouped [] its = raw (encode_runes text)) as G.
  { rewrite (C67_no_substitution text its Ne R). destruct (encode_runes text) eqn:Q; [|reflexivity]. now apply encode_nil in Q. }
  rewrite <- G. apply (C67_verbatim_inline X cls low white other U noneSubstitutions); auto. intros k _ [].
Qed.
Lemma reads_ordinary text its : ordinary (cls "L") (cls "N") (macro_name user) None text its -> Forall simple (grouped [] its) ->
  reads normalSubstitutions text (grouped [] its).
Proof.
  intros O F. split; [exact F|]. split.
  - intros ->. inversion O; subst; try reflexivity; try (now destruct w). match goal with B : In s symbols |- _ => cbn in B; repeat destruct B as [<-|B]; try discriminate; destruct B end.
  - intros Ne. apply (C68_ordinary_inline X cls low white other U normalSubstitutions); auto; [cbn; tauto|cbn; tauto|cbn; tauto|].
    intros I. cbn in I. repeat destruct I as [I|I]; try discriminate I; auto.
Qed.
(** [v] is refined into [v1], the substitutions give [v'], the filter leaves [w], which is rendered as [h] *)
Definition refined (v v1 : val) : Prop := exists n0 d0, forall n d, n0 <= n -> d0 <= d ->
  refineElement (reparseElements X cls low white other n user) d v = Ok v1.
Definition substituted (v1 v' : val) : Prop := forall a, exists n0, forall n, n0 <= n -> forall f nested, vsize v1 <= f ->
  apply n (S f) nested (ctx0 a) v1 = Ok (ctx0 a, v').
Definition rendered (w : val) (h : string) : Prop := exists d0, forall k, d0 <= k -> forall E' st, alike E E' -> quiet st ->
  exists st', renderElement E' k w st = Ok (h, st') /\ same st st'.
Definition applied (v : val) (h : string) : Prop := exists v1 v' w,
  refined v v1 /\ substituted v1 v' /\ settled v' w /\ (if visible v' then rendered w h else h = "").
Definition all_applied (vs : list val) (hs : list string) : Prop := exists vs1 vs' ws,
  (exists n0 d0, forall n d, n0 <= n -> d0 <= d -> mapM (refineElement (reparseElements X cls low white other n user) d) vs = Ok vs1) /\
  Forall2 substituted vs1 vs' /\ settled_all vs' ws /\
  (exists d0, forall k, d0 <= k -> forall E' st, alike E E' -> quiet st -> exists st', renderElements (renderElement E' k) ws st = Ok (sconcat hs, st') /\ same st st').
Lemma html_elements its h : html_of its h ->
  Forall renders (grouped [] its) /\ Forall simple (grouped [] its) /\ trimLF (sconcat (map vhtml (grouped [] its))) = h.
Proof.
  intros (hs & W & T). destruct (grouped_html its hs W []) as [A B]. split; [exact A|]. split.
  - eapply Forall_impl; [|exact A]. apply renders_simple.
  - rewrite B. apply trimmed_ok. rewrite concat_sconcat in T. exact T.
Qed.

Lemma refined_same v : (forall r d, refineElement r (S d) v = Ok v) -> refined v v.
Proof. intros R. exists 0, 1. intros n d _ L. destruct d; [lia|]. apply R. Qed.
Lemma rendered_at w h : (forall E' k st, alike E E' -> quiet st -> renderElement E' (S (S (S k))) w st = Ok (h, st)) -> rendered w h.
Proof. intros R. exists 3. intros k L E' st Al Q. destruct k as [|[|[|k]]]; [lia|lia|lia|]. exists st. split; [now apply R|apply same_refl]. Qed.
Lemma substituted_at v v' : (forall a, exists n0, forall n, n0 <= n -> forall f nested, apply n (S f) nested (ctx0 a) v = Ok (ctx0 a, v')) -> substituted v v'.
Proof. intros A a. destruct (A a) as (n0 & P). exists n0. intros n L f nested _. now apply P. Qed.

(** the second parsing of the lines of a compound block *)
Inductive raw_tree : val -> Prop :=
| raw_leaf : forall v, getElements v = None -> (forall r, v <> ElementPlaceHolder r) -> v <> Types.VNil -> raw_tree v
| raw_node : forall v es, getElements v = Some es -> raw_trees es -> setElements v es = Ok v -> raw_tree v
with raw_trees : list val -> Prop :=
| raw_nil : raw_trees []
| raw_cons : forall v vs, raw_tree v -> raw_trees vs -> raw_trees (v :: vs).
Lemma raw_lines_tree ls : raw_trees (raw_lines ls).
Proof.
  induction ls as [|l [|m ls] IH]; [constructor| |]; (apply raw_cons; [apply raw_leaf; [reflexivity|discriminate|discriminate]|]); [constructor|exact IH].
Qed.
Lemma set_raw v ls : getElements v = Some (raw_lines ls) -> (forall a h rows f, v <> Table a h rows f) -> (forall l, v <> TableRow l) -> setElements v (raw_lines ls) = Ok v.
Proof.
  assert (forall f l, Forall (fun x => match x with RawLine _ => True | _ => False end) l -> on_first f l = l) as A by (intros f l [|x r Hx _]; [reflexivity|destruct x; now destruct Hx || reflexivity]).
  assert (Forall (fun x => match x with RawLine _ => True | _ => False end) (raw_lines ls)) as F by (induction ls as [|l [|m ls] IH]; cbn; repeat constructor; exact IH).
  intros G Nt Nr. destruct v; try discriminate G; try (now elim (Nt _ _ _ _ eq_refl)); try (now elim (Nr _ eq_refl)); injection G as ->; try reflexivity.
  unfold setElements, on_last. rewrite (A _ (raw_lines ls)) by exact F. rewrite A by (apply Forall_rev; exact F). now rewrite rev_involutive.
Qed.
Lemma raw_lined v ls : getElements v = Some (raw_lines ls) -> (forall a h rows f, v <> Table a h rows f) -> (forall l, v <> TableRow l) -> raw_tree v.
Proof. intros G Nt Nr. eapply raw_node; [exact G|apply raw_lines_tree|now apply set_raw]. Qed.
Lemma item_tree i : raw_tree (item_val i).
Proof.
  destruct i as [[b|s] ls]; cbn [item_val]; (eapply raw_node; [reflexivity| |reflexivity]); (apply raw_cons; [|constructor]); (eapply raw_lined; [reflexivity|discriminate|discriminate]).
Qed.
Lemma document_raw header text vs : document (alnum cls) white header text vs -> raw_trees vs.
Proof.
  induction 1 as [|header text v tail vs Ne P D IH]; constructor; [|exact IH].
  destruct P; try (eapply raw_lined; [reflexivity|discriminate|discriminate]); try (apply raw_leaf; [reflexivity|discriminate|discriminate]).
  eapply raw_node; [reflexivity| |reflexivity]. apply (raw_cons (item_val (k, c :: ls)) (map item_val items)); [apply item_tree|].
  clear. induction items as [|i items IH]; constructor; [apply item_tree|exact IH].
Qed.
Lemma elements_size v es : getElements v = Some es -> sizes es < vsize v.
Proof.
  destruct v; try discriminate; intros [= <-]; cbn [vsize]; fold sizes; match goal with |- sizes ?l < S ?n => change (sizes l) with (sizes l) end; try lia.
Qed.
Lemma restore_trees f : forall vs, raw_trees vs -> sizes vs < f -> restore f [] vs = Ok vs.
Proof.
  induction f as [|f IHf]; [lia|]. intros vs F L. cbn [restore]. induction F as [|v vs R F IH]; [reflexivity|]. cbn [sizes] in L. cbn [mapM]. rewrite IH by lia.
  destruct R as [v G Np Nn|v es G Fe Se].
  - rewrite G. destruct v; try reflexivity. now elim (Np ref).
  - pose proof (elements_size v es G) as Lt. rewrite G, IHf by (assumption || lia). cbn [bind]. rewrite Se. destruct v; try discriminate G; reflexivity.
Qed.
Lemma nested_parsed ls vs : characters (joined ls) -> ~ In 65533%N (joined ls) -> document (alnum cls) white false (joined ls) vs ->
  exists n0, forall n, n0 <= n -> reparseElements X cls low white other n user (raw_lines ls) = Ok vs.
Proof.
  intros V Nf D. destruct (nested_ok X cls low white other U (joined ls) vs D Nf (ctx_store user None normalSubstitutions) eq_refl) as (n0 & b & s & Es & P).
  exists n0. intros n L. unfold reparseElements. cbn [serialize bind]. rewrite raw_text. rewrite runes_encode_all by exact V. rewrite (P n L). unfold parsed. rewrite Es, vals_elem. cbn [bind].
  pose proof (document_raw _ _ _ D) as F.
  assert (rev (drop_nils (rev vs)) = vs) as ->.
  { assert (forall v, In v vs -> v <> Types.VNil) as Nn.
    { clear - F. induction F as [|v vs R F IH]; [intros v []|]. intros u [<-|I]; [|now apply IH]. destruct R as [v G Np Nn|v es G Fe Se]; [exact Nn|]. intros ->. discriminate G. }
    rewrite <- (rev_involutive vs) at 2. f_equal. destruct (rev vs) as [|v r] eqn:Er; [reflexivity|]. assert (v <> Types.VNil) as Nv by (apply Nn, in_rev; rewrite Er; now left).
    destruct v; try reflexivity. now elim Nv. }
  apply restore_trees; [exact F|lia].
Qed.
Lemma sizes_in v l : In v l -> vsize v <= sizes l.
Proof. induction l as [|x l IH]; [intros []|]. cbn [sizes]. intros [<-|I]; [lia|]. specialize (IH I). lia. Qed.
Lemma substituted_all vs1 vs' : Forall2 substituted vs1 vs' -> forall a, exists n0, forall n, n0 <= n -> forall f, sizes vs1 <= f ->
  onElements (apply n (S f)) true (ctx0 a) vs1 = Ok (ctx0 a, vs').
Proof.
  intros F a. induction F as [|v1 v' vs1 vs' A F (n1 & IH)]; [exists 0; reflexivity|]. destruct (A a) as (n2 & Q). exists (n1 + n2). intros n L f Lf. cbn [sizes] in Lf.
  cbn [onElements]. rewrite Q by lia. cbn [bind fst snd]. rewrite IH by lia. reflexivity.
Qed.
Lemma compound_applied kind before after ls vs hs : In (kind, (before, after)) compound_blocks -> characters (joined ls) -> ~ In 65533%N (joined ls) ->
  document (alnum cls) white false (joined ls) vs -> all_applied vs hs -> applied (DelimitedBlock kind [] (raw_lines ls)) (before ++ sconcat hs ++ after)%string.
Proof.
  intros I V Nf D (vs1 & vs' & ws & (n1 & d1 & Rf) & Sb & St & Rn). destruct (nested_parsed ls vs V Nf D) as (n2 & Np).
  assert (existsb (String.eqb kind) ["example"; "quote"; "sidebar"; "open"] = true) as Ek by (cbv [compound_blocks In] in I; destruct I as [I|[I|[I|[I|[]]]]]; injection I as <- _ _; reflexivity).
  exists (DelimitedBlock kind [] vs1), (DelimitedBlock kind [] vs'), (DelimitedBlock kind [] ws). split; [|split; [|split]].
  - exists (n1 + n2), (S d1). intros n d Ln Ld. destruct d as [|d]; [lia|]. cbn [refineElement]. rewrite Ek, Np by lia. cbn [bind]. rewrite Rf by lia. reflexivity.
  - intros a. destruct (substituted_all vs1 vs' Sb a) as (n3 & Q). exists n3. intros n L f nested Lf. destruct f as [|f]; [cbn in Lf; lia|].
    remember (S f) as g eqn:Eg. cbn [applyElement applyElementWith getElements]. unfold onWithElements. cbn [getAttributes]. rewrite attributes_ok by constructor. cbn [bind withAttrs].
    assert (exists subs, newSubstitutions (e_fmtv E) (DelimitedBlock kind [] vs1) [] = Ok subs) as (subs & ->).
    { cbv [compound_blocks In] in I; destruct I as [I|[I|[I|[I|[]]]]]; injection I as <- _ _; eexists; reflexivity. }
    cbn [bind]. rewrite Ek. subst g. rewrite Q; [reflexivity|exact L|]. change (S (sizes vs1 + 0) <= S f) in Lf. lia.
  - apply set_compound. exact St.
  - assert (visible (DelimitedBlock kind [] vs') = true) as -> by (cbv [compound_blocks In] in I; destruct I as [I|[I|[I|[I|[]]]]]; injection I as <- _ _; reflexivity).
    destruct Rn as (d0 & P). exists (S d0). intros k L E' st Al Q. destruct k as [|k]; [lia|]. destruct (P k ltac:(lia) E' st Al Q) as (st1 & Re & Sm).
    eapply compound_ok; eassumption.
Qed.
Lemma all_applied_nil : all_applied [] [].
Proof.
  exists [], [], []. split; [exists 0, 0; reflexivity|]. split; [constructor|]. split; [constructor|]. exists 0. intros k _ E' st _ Q. exists st. split; [reflexivity|apply same_refl].
Qed.
Lemma all_applied_cons v h vs hs : applied v h -> all_applied vs hs -> all_applied (v :: vs) (h :: hs).
Proof.
  intros (v1 & v' & w & (n1 & d1 & R1) & S1 & T1 & H1) (vs1 & vs' & ws & (n2 & d2 & R2) & S2 & T2 & H2).
  exists (v1 :: vs1), (v' :: vs'), (if visible v' then w :: ws else ws). split; [|split; [constructor; assumption|split]].
  - exists (n1 + n2), (d1 + d2). intros n d Ln Ld. cbn [mapM]. rewrite R1 by lia. cbn [bind]. rewrite R2 by lia. reflexivity.
  - destruct (visible v') eqn:Vi; [eapply sa_keep|eapply sa_drop]; eassumption.
  - destruct H2 as (d2' & P2). destruct (visible v') eqn:Vi.
    + destruct H1 as (d1' & P1). exists (d1' + d2'). intros k L E' st Al Q. destruct (P1 k ltac:(lia) E' st Al Q) as (st1 & Q1 & M1).
      destruct (P2 k ltac:(lia) E' st1 Al (same_quiet _ _ M1 Q)) as (st2 & Q2 & M2).
      exists st2. cbn [renderElements]. unfold bindM. rewrite Q1, Q2. split; [reflexivity|eapply same_trans; eauto].
    + subst h. exists d2'. exact P2.
Qed.
(** ** Lists *)
Lemma para_reads ls its h : characters (joined ls) -> ordinary (cls "L") (cls "N") (macro_name user) None (joined ls) its -> item_html its h ->
  item_para (grouped [] its) h /\ reads normalSubstitutions (joined ls) (grouped [] its).
Proof.
  intros V O (hs & lines & ts & W & Ne & Nl & Ec & St & ->). destruct (grouped_html its hs W []) as [A B].
  assert (Forall simple (grouped [] its)) as Fs by (eapply Forall_impl; [|exact A]; apply renders_simple).
  split; [|now apply reads_ordinary]. split; [exact A|]. rewrite B. change (encode_runes []) with "". cbn [append]. rewrite <- concat_sconcat, Ec. now rewrite (strip_lines lines ts).
Qed.
Lemma item_val_of k ls : item_val (k, ls) = item_of (marker_of_mark k) [Paragraph [] (raw_lines ls)].
Proof. now destruct k. Qed.
Lemma subs_elements n c b es es' : (forall a l, b <> Paragraph a l) -> (forall k a l, b <> DelimitedBlock k a l) -> (forall s t a l, b <> LabeledListElement s t a l) ->
  (forall a h r f, b <> Table a h r f) -> (forall lv a t l, b <> Section lv a t l) -> (forall t a l, b <> DocumentHeader t a l) ->
  getAttributes b = [] -> withAttrs b [] = b -> getElements b = Some es -> (exists subs, newSubstitutions (e_fmtv E) b [] = Ok subs) -> forall f nested,
  onElements (apply n f) true c es = Ok (c, es') -> apply n (S f) nested c b = Ok (c, set_elements b es').
Proof.
  intros N1 N2 N3 N4 N5 N6 Ga Wa Ge (subs & Ns) f nested Q. cbn [applyElement]. unfold applyElementWith.
  assert (onWithElements plainE (e_fmtv E) (pws n) (quoteAttribution X cls low white other n) (apply n f) nested c b = Ok (c, set_elements b es')) as O.
  { unfold onWithElements. rewrite Ga. rewrite attributes_ok by constructor. cbn [bind]. rewrite Wa, Ns. cbn [bind].
    destruct b; try discriminate Ge; try (now elim (N1 _ _ eq_refl)); try (now elim (N2 _ _ _ eq_refl)); try (now elim (N3 _ _ _ _ eq_refl)); rewrite Ge, Q; reflexivity. }
  destruct b; try discriminate Ge; try (now elim (N4 _ _ _ _ eq_refl)); try (now elim (N5 _ _ _ _ eq_refl)); try (now elim (N6 _ _ _ eq_refl)); cbn [getElements]; exact O.
Qed.
Lemma item_applied k ls l : characters (joined ls) -> reads normalSubstitutions (joined ls) l -> substituted (item_val (k, ls)) (item_of (marker_of_mark k) [Paragraph [] l]).
Proof.
  intros V R a. destruct (para_applied ls l a V R) as (n0 & P). exists n0. intros n L f nested Lf.
  assert (exists g, f = S g) as (g & ->) by (destruct f; [destruct k; cbn in Lf; lia|eauto]).
  assert (item_of (marker_of_mark k) [Paragraph [] l] = set_elements (item_val (k, ls)) [Paragraph [] l]) as -> by now destruct k.
  apply (subs_elements n (ctx0 a) _ [Paragraph [] (raw_lines ls)]); try (destruct k; discriminate); try (destruct k; reflexivity); [destruct k; eexists; reflexivity|].
  cbn [onElements]. rewrite (P n L g true). reflexivity.
Qed.
Lemma list_applied items hs : items <> [] -> Forall2 (fun i h => exists its, characters (joined (snd i)) /\
    ordinary (cls "L") (cls "N") (macro_name user) None (joined (snd i)) its /\ item_html its h) items hs ->
  applied (ListElements (map item_val items)) (list_html [] (combine (map (fun i => marker_of_mark (fst i)) items) hs)).
Proof.
  intros Ne F.
  assert (exists ls, Forall2 substituted (map item_val items) (map (fun ml => item_of (fst ml) [Paragraph [] (snd ml)]) ls) /\
    Forall2 (fun ml p => proper (fst ml) /\ item_para (snd ml) p) ls hs /\ map fst ls = map (fun i => marker_of_mark (fst i)) items) as (ls & Sb & Fp & Em).
  { clear Ne. induction F as [|[k lines] h items hs (its & V & O & Hh) F (ls & Sb & Fp & Em)]; [exists []; repeat split; constructor|]. cbn [snd] in V, O.
    destruct (para_reads lines its h V O Hh) as [Pa R]. exists ((marker_of_mark k, grouped [] its) :: ls). cbn [map fst snd]. split; [|split].
    - constructor; [|exact Sb]. now apply item_applied.
    - constructor; [|exact Fp]. split; [now destruct k|exact Pa].
    - now rewrite Em. }
  destruct (arranged_items item_para [] ls hs [] [] "" (op_nil _) Fp ltac:(right; intros ->; destruct items; [congruence|discriminate Em]) eq_refl) as (b & Ab & B).
  cbn [append] in B. rewrite Em in B.
  exists (ListElements (map item_val items)), (ListElements (map (fun ml => item_of (fst ml) [Paragraph [] (snd ml)]) ls)), b. split; [|split; [|split]].
  - exists 0, 2. intros n d _ L. destruct d as [|[|d]]; [lia|lia|]. cbn [refineElement].
    match goal with |- bind ?x _ = _ => enough (x = Ok (map item_val items)) as -> by reflexivity end.
    clear. induction items as [|[k l] items IH]; [reflexivity|]. cbn [map mapM] in *. rewrite IH. now destruct k.
  - intros a. destruct (substituted_all _ _ Sb a) as (n0 & Q). exists n0. intros n L f nested Lf.
    assert (sizes (map item_val items) < f) as Lf' by (pose proof (elements_size (ListElements (map item_val items)) _ eq_refl); lia). destruct f as [|f]; [lia|].
    apply (subs_elements n (ctx0 a) (ListElements (map item_val items)) (map item_val items)); try discriminate; try reflexivity; [eexists; reflexivity|].
    apply Q; [exact L|lia].
  - apply (set_list ls b (list_html [] (combine (map (fun i => marker_of_mark (fst i)) items) hs))); [|exact Ab|exact B].
    clear - Fp. induction Fp as [|ml p ls hs (Pm & Pa) Fp IH]; constructor; [|exact IH]. split; [exact Pm|]. eapply item_para_simple; exact Pa.
  - change (visible (ListElements _)) with true. cbn iota. destruct (proj1 render_tree _ _ B) as (d0 & R). exists d0. intros k L E' st _ Q. exists st. split; [now apply R|apply same_refl].
Qed.
Scheme shown_mind := Induction for ConvertSpec.shown Sort Prop with all_shown_mind := Induction for ConvertSpec.all_shown Sort Prop.
Combined Scheme shown_both from shown_mind, all_shown_mind.
Lemma shown_applied : (forall v h, ConvertSpec.shown (cls "L") (cls "N") white user (e_xhtml E) (e_toLower E) v h -> applied v h) /\
  (forall vs hs, ConvertSpec.all_shown (cls "L") (cls "N") white user (e_xhtml E) (e_toLower E) vs hs -> all_applied vs hs).
Proof.
  apply shown_both.
  - exists BlankLine, BlankLine, BlankLine. split; [now apply refined_same|]. split; [|split; [constructor|reflexivity]]. intros a. exists 0. intros n _ f nested _. reflexivity.
  - intros ls V. set (b := DelimitedBlock "comment" [] (raw (encode_runes (joined ls)))). exists (DelimitedBlock "comment" [] (raw_lines ls)), b, b. pose proof (reads_none _ V) as R.
    split; [now apply refined_same|]. split; [|split; [constructor; [reflexivity|apply R]|reflexivity]].
    apply substituted_at. intros a. apply (block_applied "comment" [] noneSubstitutions); [cbn; tauto|constructor|reflexivity|apply V|exact R].
  - intros kind class before after ls its h I V R Hh. destruct (html_elements its h Hh) as (Fr & Fs & Eh). pose proof (reads_verbatim _ _ V R Fs) as R'.
    set (b := DelimitedBlock kind [] (grouped [] its)). exists (DelimitedBlock kind [] (raw_lines ls)), b, b.
    assert (In kind ["listing"; "literal"; "fenced"]) as Ik by (cbv [verbatim_blocks In] in I; destruct I as [I|[I|[I|[]]]]; injection I as <- _ _ _; cbn; tauto).
    split; [|split; [|split; [constructor; [reflexivity|exact Fs]|]]].
    + apply refined_same. intros r d. cbv [In] in Ik. destruct Ik as [<-|[<-|[<-|[]]]]; reflexivity.
    + apply substituted_at. intros a. apply (block_applied kind [] verbatimSubstitutions); [cbn in Ik |- *; tauto|constructor| |apply V|exact R'].
      cbv [In] in Ik. destruct Ik as [<-|[<-|[<-|[]]]]; reflexivity.
    + assert (visible b = true) as -> by (unfold b; cbv [In] in Ik; destruct Ik as [<-|[<-|[<-|[]]]]; reflexivity).
      apply rendered_at. intros E' k st _ Q. unfold b. rewrite (verbatim_ok E' k kind class before after) by assumption. now rewrite Eh.
  - intros lang ls its h Nl V R Hh. destruct (html_elements its h Hh) as (Fr & Fs & Eh). pose proof (reads_verbatim _ _ V R Fs) as R'.
    set (b := DelimitedBlock "listing" (code_attrs lang) (grouped [] its)). exists (DelimitedBlock "listing" (code_attrs lang) (raw_lines ls)), b, b.
    split; [now apply refined_same|]. split; [|split; [constructor; [reflexivity|exact Fs]|]].
    + apply substituted_at. intros a. apply (block_applied "listing" (code_attrs lang) verbatimSubstitutions); [cbn; tauto| |reflexivity|apply V|exact R'].
      constructor; [split; [now left|eexists; reflexivity]|]. constructor; [split; [right; now left|eexists; reflexivity]|constructor].
    + apply rendered_at. intros E' k st _ Q. unfold b, code_attrs. rewrite code_ok; [now rewrite Eh|intros Q'; now apply encode_nil in Q'|assumption|assumption].
  - intros ls h V T. set (b := DelimitedBlock "pass" [] (raw (encode_runes (joined ls)))). exists (DelimitedBlock "pass" [] (raw_lines ls)), b, b. pose proof (reads_none _ V) as R.
    split; [now apply refined_same|]. split; [|split; [constructor; [reflexivity|apply R]|]].
    + apply substituted_at. intros a. apply (block_applied "pass" [] noneSubstitutions); [cbn; tauto|constructor|reflexivity|apply V|exact R].
    + apply rendered_at. intros E' k st _ Q. unfold b, raw. rewrite pass_ok by exact Q. now rewrite (trimmed_ok _ _ T).
  - intros ls its h V R Hh. destruct (html_elements its h Hh) as (Fr & Fs & Eh). pose proof (reads_ordinary _ _ R Fs) as R'.
    set (b := Paragraph [] (grouped [] its)). exists (Paragraph [] (raw_lines ls)), b, b. split; [now apply refined_same|]. split; [|split; [constructor; [reflexivity|exact Fs]|]].
    + apply substituted_at. intros a. apply para_applied; assumption.
    + apply rendered_at. intros E' k st _ Q. unfold b. rewrite paragraph_ok by assumption. now rewrite Eh.
  - intros items hs Ne F. now apply list_applied.
  - intros s. exists (SinglelineComment s), (SinglelineComment s), (SinglelineComment s). split; [now apply refined_same|]. split; [|split; [constructor|reflexivity]]. intros a. exists 0. intros n _ f nested _. reflexivity.
  - exists ThematicBreak, ThematicBreak, ThematicBreak. split; [now apply refined_same|]. split; [|split; [constructor|]]; [intros a; exists 0; intros n _ f nested _; reflexivity|].
    apply rendered_at. intros E' k st (Ax & _) Q. rewrite <- Ax. apply break_rendered.
  - intros k class caption ls its hs I Lw V R W Ne. destruct (grouped_html its hs W []) as [A B]. change (encode_runes []) with "" in B. cbn [append] in B.
    assert (Forall simple (grouped [] its)) as Fs by (eapply Forall_impl; [|exact A]; apply renders_simple). pose proof (reads_ordinary _ _ R Fs) as R'.
    rewrite concat_sconcat in *. rewrite <- B in *.
    set (b := Paragraph [(AttrStyle, Types.VStr k)] (grouped [] its)). exists (Paragraph [(AttrStyle, Types.VStr k)] (raw_lines ls)), b, b. split; [now apply refined_same|]. split; [|split; [constructor; [reflexivity|exact Fs]|]].
    + apply substituted_at. intros a. apply styled_applied; [constructor; [split; [now left|eexists; reflexivity]|constructor]| |assumption|assumption].
      cbv [admonition_captions In] in I. repeat (destruct I as [I|I]; [injection I as <- _ _; reflexivity|]). destruct I.
    + apply rendered_at. intros E' d st (_ & Al) Q. unfold b. apply admonition_rendered; auto. now rewrite Al.
  - intros kind before after ls vs hs I V Nf D _ A. rewrite concat_sconcat. now apply compound_applied with (vs := vs).
  - exact all_applied_nil.
  - intros v h vs hs _ A _ B. now apply all_applied_cons.
Qed.
(** ** The stages, on all the elements *)
Lemma refine_all r vs vs1 d : mapM (refineElement r d) vs = Ok vs1 -> refineStage r d (map (fun v => inl [v]) vs) = Ok (map (fun v => inl [v]) vs1).
Proof.
  unfold refineStage. revert vs1. induction vs as [|v vs IH]; intros vs1 M; [injection M as <-; reflexivity|]. cbn [mapM] in M. cbn [map mapM]. unfold refineFragment at 1. cbn [mapM].
  destruct (refineElement r d v) as [v1| |]; [|discriminate M|discriminate M]. cbn [bind] in *. destruct (mapM (refineElement r d) vs) as [l| |]; [|discriminate M|discriminate M].
  injection M as <-. rewrite (IH l eq_refl). reflexivity.
Qed.
Lemma apply_all vs1 vs' a : Forall2 substituted vs1 vs' -> exists n0, forall n, n0 <= n ->
  applyStage plainE (e_fmtv E) (pws n) (quoteAttribution X cls low white other n) setColumns (ctx0 a) (map (fun v => inl [v]) vs1) = Ok (map (fun v => inl [v]) vs').
Proof.
  induction 1 as [|v1 v' vs1 vs' A F (n1 & IH)]; [exists 0; reflexivity|].
  destruct (A a) as (n2 & Q). exists (n1 + n2). intros n L.
  cbn [map applyStage applyFragment applyElements]. rewrite Q by lia. cbn [bind fst snd]. rewrite IH by lia. reflexivity.
Qed.
Lemma parse_stage text vs : document (alnum cls) white true text vs ->
  exists n0, forall n, n0 <= n -> parseStage X cls low white other n user text = Some (map (fun v => inl [v]) vs).
Proof.
  intros D. destruct (C66_documents_parsed X cls low white other U true text vs D (ctx_store user None normalSubstitutions) eq_refl eq_refl) as (n0 & fs & q & M & _ & P).
  exists n0. intros n L. unfold parseStage. rewrite (P n L). rewrite app_nil_r. f_equal.
  change (map (fun f : PegDoc.fragment H => Convert.elements_of X (f_element f)) fs = map (fun v => inl [v]) vs).
  etransitivity; [symmetry; apply (map_map (@f_element H) (Convert.elements_of X))|].
  etransitivity; [exact (f_equal (map (Convert.elements_of X)) M)|]. rewrite map_map. reflexivity.
Qed.
Lemma document_ok text vs hs a : document (alnum cls) white true text vs -> all_applied vs hs ->
  exists n0 ws, (exists vs', settled_all vs' ws) /\
    (exists d0, forall k, d0 <= k -> forall E' st, alike E E' -> quiet st -> exists st', renderElements (renderElement E' k) ws st = Ok (sconcat hs, st') /\ same st st') /\
    forall n, n0 <= n -> parseDocument X cls low white other E setColumns n user a text = Ok (mkDoc ws [] None, []).
Proof.
  intros D (vs1 & vs' & ws & (n3 & d3 & Rf) & Sb & St & Rn). destruct (parse_stage text vs D) as (n1 & P). destruct (apply_all _ _ a Sb) as (n2 & Q).
  exists (S (n1 + n2 + n3 + d3)), ws. split; [exists vs'; exact St|]. split; [exact Rn|]. intros n L.
  unfold parseDocument. rewrite P by lia. erewrite refine_all by (apply Rf; lia). cbn [bind]. rewrite Q by lia. cbn [bind].
  destruct (kept_settled _ _ St) as (fs & K). rewrite (collect_stage _ _ _ K), (arrange_stage _ _ _ K).
  rewrite map_map. unfold aggregate. change (aggInit (newContextAttributes a)) with (mkAS (newContextAttributes a) [] (newToc (cgetAsInt (newContextAttributes a) AttrTableOfContentsLevels 2)) (mkAgg [] [])).
  rewrite (agg_settleds _ _ _ _ _ _ _ _ K). cbn [as_tree as_refs as_toc app]. unfold agDoc. cbn [ag_root ag_open nest d_elements d_refs d_toc]. rewrite app_nil_r.
  unfold insertPreamble, newPreamble. destruct (no_header _ _ St) as [-> _]. reflexivity.
Qed.
End Stages.

(** * The conversion *)
Lemma labels_get a k : existsb (String.eqb k) ["figure-caption"; "example-caption"; "table-caption"; "version-label"] = false -> mget (RenderAttrs.labels a) k = mget a k.
Proof. cbn [existsb]. intros Q. repeat (apply orb_false_iff in Q as [? Q]). unfold RenderAttrs.labels. rewrite !mget_mset_neq; [reflexivity|apply not_eq_sym; now apply String.eqb_neq..].
Qed.

(** C69 *)
Theorem C69_converted : forall X cls low white other, unicode_ok (go_host X cls low white other) ->
  forall E setColumns (c : config) a text vs hs,
  c_attrs c = Some a -> (forall k, In k neutral_names -> mget a k = None) -> c_wrap c = false ->
  document (alnum cls) white true text vs -> ConvertSpec.all_shown (cls "L") (cls "N") white (map fst (c_macros c)) (e_xhtml E) (e_toLower E) vs hs ->
  exists n0 a', forall n, n0 <= n -> convert X cls low white other E setColumns n c text = Ok (String.concat "" hs, "", a').
Proof.
  intros X cls low white other U E setColumns c a text vs hs Ea Na Wr D Sh. rewrite concat_sconcat.
  pose proof (proj2 (shown_applied X cls low white other U E setColumns _) vs hs Sh) as A.
  destruct (document_ok X cls low white other U E setColumns _ text vs hs a D A) as (n1 & ws & (vs' & F) & (d0 & Rn) & P).
  destruct (no_header vs' ws F) as [Nh Nb].
  exists (S (n1 + d0)), (RenderAttrs.labels a). intros n L. unfold convert, attrs_of. rewrite Ea. rewrite P by lia. cbn [bind d_elements d_refs d_toc].
  unfold validateInto, attrs_of, validate, AttrDocType. rewrite Ea. unfold getAsStringD at 1. rewrite (Na "doctype") by now left. cbn [String.eqb Ascii.eqb Bool.eqb bind].
  unfold render. cbn [rd_elements]. rewrite Ea. unfold renderAttrs, newContextAttrs, expandHeader, headerDecls. rewrite Nh. cbn [bind].
  assert (leadingDecls ws (RenderAttrs.labels a) = RenderAttrs.labels a) as ->.
  { clear - F. induction F as [|v w l l' S V F IH|v w l l' S V F IH]; [reflexivity| |exact IH]. destruct S as [| | | |items b h _ _ B| |]; [discriminate V| | | |destruct B|discriminate V|]; reflexivity. }
  set (E' := mkRenv _ _ _ _ _ _ _ _ _ _ _ _ _). unfold renderDocument, headerTitle, hasHeader. cbn [rd_elements rd_toc rd_notes option_map]. rewrite Nh.
  set (st := mkRst _ _ _ _ _). assert (quiet st) as Q.
  { split; [|split; reflexivity]. intros k I. cbn [r_attrs st]. rewrite labels_get; [now apply Na|]. cbv [neutral_names In] in I.
    repeat destruct I as [<-|I]; try reflexivity; destruct I. }
  unfold bindM at 1. cbn [ret]. unfold splitAndRender, bindM, getAttrs, ret. cbn [r_attrs st rc_wrap rd_elements rd_notes].
  rewrite Wr. unfold getD, getAsStringD. rewrite labels_get by reflexivity. rewrite (Na "doctype") by now left. cbn [String.eqb Ascii.eqb Bool.eqb].
  unfold hasHeader. rewrite Nh, Nb. unfold renderDocumentBody, bindM, getAttrs, ret. cbn [rd_toc rd_notes].
  destruct (Rn n ltac:(lia) E' st ltac:(split; reflexivity) Q) as (st1 & B & Sm).
  destruct (mget (r_attrs st) "toc"); rewrite B; cbn [renderFootnotes ret snd]; unfold ret; rewrite GoLemmas.sapp_nil_r; rewrite (proj1 Sm); reflexivity.
Qed.

(** * A document *)
Fixpoint ascii_lower (s : string) : string :=
  match s with
  | "" => ""
  | String c r => let n := Ascii.nat_of_ascii c in String (if (65 <=? n)%nat && (n <=? 90)%nat then Ascii.ascii_of_nat (n + 32) else c) (ascii_lower r)
  end.
Definition demo_env : renv := mkRenv false ascii_lower (fun _ => "") (fun _ => Ok []) (fun _ _ => "") (fun s => Ok s) (fun _ s => s) (fun _ => None) (fun _ => "") (fun _ _ _ s => Ok s) [] [] false.
Definition demo_config : config := match newConfiguration "" [] with Ok c => c | _ => mkConfig "" None "" false [] "" [] end.
Definition html_written (text : string) : result string :=
  match convert Empty_set demo_cls demo_low demo_white (fun _ _ _ => None) demo_env (fun t _ => Ok t) 300 demo_config (Peg.R text) with
  | Ok (s, _, _) => Ok s | Err e => Err e | Panic e => Panic e
  end.
Definition a_source : string :=
"Isn't R&D -> (C)

====
----
a<b <1>

----

====
".
Definition a_page : string :=
"<div class=""paragraph"">
<p>Isn&#8217;t R&amp;D &#8594; &#169;</p>
</div>
<div class=""exampleblock"">
<div class=""content"">
<div class=""listingblock"">
<div class=""content"">
<pre>a&lt;b <b class=""conum"">(1)</b></pre>
</div>
</div>
</div>
</div>
".
Theorem C69_run : html_written a_source = Ok a_page.
Proof. vm_compute. reflexivity. Qed.
Fixpoint last_char (s : string) : option Ascii.ascii := match s with EmptyString => None | String c EmptyString => Some c | String _ r => last_char r end.
Lemma last_char_app u c : last_char (u ++ String c "")%string = Some c.
Proof. induction u as [|x u IH]; [reflexivity|]. cbn [append last_char]. destruct (u ++ String c "")%string eqn:E; [destruct u; discriminate E|exact IH]. Qed.
Lemma trimmed_self n m t s : t = (lfs n ++ s ++ lfs m)%string -> (forall u, s <> LF ++ u)%string -> last_char s <> Some (chr 10) -> trimmed t s.
Proof. intros E A B. exists n, m. split; [exact E|split; [exact A|]]. intros u ->. apply B. apply last_char_app. Qed.
(** the hypotheses hold of it *)
Theorem C69_hypotheses : exists a vs hs, c_attrs demo_config = Some a /\ (forall k, In k neutral_names -> mget a k = None) /\ c_wrap demo_config = false /\
  unicode_ok demo_go /\ document (alnum demo_cls) demo_white true (Peg.R a_source) vs /\
  ConvertSpec.all_shown (demo_cls "L") (demo_cls "N") demo_white (map fst (c_macros demo_config)) (e_xhtml demo_env) (e_toLower demo_env) vs hs /\ String.concat "" hs = a_page.
Proof.
  eexists _, [Paragraph [] (raw_lines [Peg.R "Isn't R&D -> (C)"]); BlankLine; DelimitedBlock "example" [] (raw_lines [Peg.R "----"; Peg.R "a<b <1>"; []; Peg.R "----"; []])], _.
  split; [reflexivity|]. split; [intros k I; cbn in I; repeat destruct I as [<-|I]; try reflexivity; destruct I|]. split; [reflexivity|]. split; [exact demo_go_unicode|].
  split; [|split].
  - refine (doc_cons _ _ true (Peg.R "Isn't R&D -> (C)" ++ [10%N] ++ _) _ _ _ _ (piece_para _ _ _ _ _ _ [] _ _ _ _) _).
    + discriminate.
    + split; [is_line|]. split; [apply no_colons_dec; reflexivity|]. split; [no_start|].
      eexists _, _. split; [reflexivity|]. split; [reflexivity|]. split; [reflexivity|].
      intros (y & z & u & E & [->| ->] & _); discriminate E.
    + lf.
    + refine (cont_blank _ [] [10%N] _ _ _ _); [constructor|discriminate|lf].
    + refine (doc_cons _ _ false ([] ++ [10%N] ++ _) _ _ _ _ (piece_blank _ _ _ _ _ _ _ _ _) _); [discriminate|constructor|discriminate|lf|].
      refine (doc_cons _ _ false (repeat 61%N 4 ++ [] ++ [10%N] ++ Peg.R "----
a<b <1>

----

====
") _ _ _ _ (piece_fence _ _ _ "example" 61%N 4 4 _ _ _ [Peg.R "----"; Peg.R "a<b <1>"; []; Peg.R "----"; []] [] _ _ _ _ _ _) _); [discriminate|cbn; tauto|lia|constructor|discriminate|lf| |constructor].
      refine (until_line _ (Peg.R "----") [10%N] _ _ _ _ _ _ _ _); [is_line|discriminate|not_delimiter|lf|].
      refine (until_line _ (Peg.R "a<b <1>") [10%N] _ _ _ _ _ _ _ _); [is_line|discriminate|not_delimiter|lf|].
      refine (until_line _ [] [10%N] _ _ _ _ _ _ _ _); [is_line|discriminate|not_delimiter|lf|].
      refine (until_line _ (Peg.R "----") [10%N] _ _ _ _ _ _ _ _); [is_line|discriminate|not_delimiter|lf|].
      refine (until_line _ [] [10%N] _ _ _ _ _ _ _ _); [is_line|discriminate|not_delimiter|lf|].
      refine (until_stop _ (Peg.R "====") [10%N] [] _ _ _ _); [is_line|discriminate| |lf]. exists []. split; [constructor|reflexivity].
  - apply all_cons; [|apply all_cons; [apply s_blank|apply all_cons; [|apply all_nil]]].
    + eapply (s_para _ _ _ _ _ _ _ _ "Isn&#8217;t R&amp;D &#8594; &#169;"); [repeat constructor| |].
      * unfold joined. change (rstrip (R "Isn't R&D -> (C)")) with (R "Isn't R&D -> (C)").
        wd "Isn"%string. ap. wd "t"%string. sp. wd "R"%string. sc. wd "D"%string. sp. sy "->"%string. sp. sy "(C)"%string. apply ord_nil.
      * eexists. split; [repeat (apply Forall2_cons || apply Forall2_nil); try apply w_char; try apply w_amp; apply w_symbol; cbn; tauto|].
        apply (trimmed_self 0 0); [vm_compute; reflexivity|intros u; discriminate|vm_compute; discriminate].
    + eapply (s_compound _ _ _ _ _ _ "example" _ _ _ [DelimitedBlock "listing" [] (raw_lines [Peg.R "a<b <1>"; []])]); [left; reflexivity|repeat constructor| | |apply all_cons; [|apply all_nil]].
      { intros I. vm_compute in I. repeat destruct I as [I|I]; try discriminate I; auto. }
      { refine (doc_cons _ _ false (repeat 45%N 4 ++ [] ++ [10%N] ++ Peg.R "a<b <1>

----
") _ _ [] _ (piece_fence _ _ _ "listing" 45%N 4 4 _ _ _ [Peg.R "a<b <1>"; []] [] _ _ _ _ _ _) _); [discriminate|cbn; tauto|lia|constructor|discriminate|lf| |constructor].
        refine (until_line _ (Peg.R "a<b <1>") [10%N] _ _ _ _ _ _ _ _); [is_line|discriminate|not_delimiter|lf|].
        refine (until_line _ [] [10%N] _ _ _ _ _ _ _ _); [is_line|discriminate|not_delimiter|lf|].
        refine (until_stop _ (Peg.R "----") [10%N] [] _ _ _ _); [is_line|discriminate| |lf]. exists []. split; [constructor|reflexivity]. }
      eapply (s_verbatim _ _ _ _ _ _ "listing" _ _ _ _ _ "a&lt;b <b class=""conum"">(1)</b>"); [left; reflexivity| | |].
      * split; [repeat constructor|]. split; [now apply apostropheb_spec|]. split; [|apply smallb_spec; reflexivity].
        intros I. vm_compute in I. repeat destruct I as [I|I]; try discriminate I; auto.
      * change (joined [R "a<b <1>"; []]) with (R "a<b " ++ (60%N :: [49%N] ++ 62%N :: [] ++ [10%N])).
        assert (forall r u its, r <> 60%N -> verbatim true true u its -> verbatim true true (r :: u) ((if special_char r then Elem (SpecialCharacter (encode_runes [r])) else Char r) :: its)) as V.
        { intros r u its Ne V. apply (verb_char true true); [|exact V]. intros _ (ds & w & C). apply callout_shape in C as (_ & _ & ws & _ & E & _). now injection E. }
        apply V; [discriminate|]. apply (verb_char true true 60%N).
        { intros _ (ds & w & C). apply callout_shape in C as (Ne & D & ws & _ & E & _). destruct ds as [|d ds]; [now elim Ne|]. injection E as <- _.
          inversion D as [|? ? D1 _]. unfold digit in D1. lia. }
        apply V; [discriminate|]. apply V; [discriminate|]. apply (verb_callout true true _ [49%N] [10%N]); [reflexivity| |].
        { apply callout_end; [discriminate|repeat constructor; discriminate|constructor|now left]. }
        apply V; [discriminate|]. apply verb_nil.
      * eexists. split; [repeat (apply Forall2_cons || apply Forall2_nil); first [apply w_lt|apply w_char|apply w_callout]|].
        apply (trimmed_self 0 1); [vm_compute; reflexivity|intros u; discriminate|vm_compute; discriminate].
  - vm_compute. reflexivity.
Qed.

(** * A listing can vanish without a message *)
(** a number that does not fit in an int after "<" is an error of the parser, and the block is left out *)
Theorem C69_dropped_refuted : html_written "one

----
x <9223372036854775808
----

two" = html_written "one

two".
Proof. vm_compute. reflexivity. Qed.
Theorem C69_dropped_literal_refuted : html_written "----
x <9223372036854775808
----" = Ok "".
Proof. vm_compute. reflexivity. Qed.

Print Assumptions C69_converted.
Print Assumptions C69_hypotheses.
