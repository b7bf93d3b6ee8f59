(** C65 and C66: documents made of blank lines, delimited blocks and paragraphs. *)
From Coq Require Import List String NArith ZArith Bool Ascii Arith Lia.
From Verif Require Import GoBase Utf8 Types Attrs Elements Subs Peg PegGrammar PegDoc PegHost PegSym PegBlockSpec P_PegTerm P_PegParse P_PegRun P_PegLines P_PegBlocks P_PegFragment P_PegPara P_PegList P_PegBreak.
Import ListNotations.
Local Open Scope list_scope.

(** * Every text has lines *)
Lemma cut_line : forall text : list rune, text <> [] -> exists l e t, text = l ++ e ++ t /\ one_line l /\ l ++ e <> [] /\ eol e t.
Proof.
  induction text as [|r text IH]; intros Ne; [congruence|].
  destruct (N.eqb_spec r 10) as [->|N10].
  { exists [], [10%N], text. repeat split; [constructor|discriminate|now left]. }
  destruct (N.eqb_spec r 13) as [->|N13].
  { destruct text as [|r text].
    - exists [], [13%N], []. repeat split; [constructor|discriminate|right; right; left; auto].
    - destruct (N.eqb_spec r 10) as [->|N].
      + exists [], [13%N; 10%N], text. repeat split; [constructor|discriminate|right; now left].
      + exists [], [13%N], (r :: text). repeat split; [constructor|discriminate|]. right. right. left. split; auto.
        destruct r as [|p]; auto. destruct p as [p|p|]; auto; destruct p as [p|p|]; auto; destruct p as [p|p|]; auto; destruct p; auto; congruence. }
  destruct text as [|r' text].
  - exists [r], [], []. repeat split; [repeat constructor; auto|discriminate|]. right. right. right. auto.
  - destruct (IH ltac:(discriminate)) as (l & e & t & E & L & N & Ee). exists (r :: l), e, t. rewrite E. repeat split; auto; [|discriminate].
    constructor; auto.
Qed.
Lemma lines_total : forall stop, (forall l, one_line l -> stop l \/ ~ stop l) -> (forall l, stop l -> l <> []) ->
  forall text, exists ls tail, lines_until stop text ls tail.
Proof.
  intros stop Dec Ns text. remember (List.length text) as k eqn:Ek. assert (List.length text <= k) as Lk by lia. clear Ek.
  revert text Lk. induction k as [|k IH]; intros text Lk.
  - destruct text; [|cbn in Lk; lia]. exists [], []. constructor.
  - destruct text as [|r text]; [exists [], []; constructor|].
    destruct (cut_line (r :: text) ltac:(discriminate)) as (l & e & t & E & L & N & Ee). rewrite E in *.
    destruct (Dec l L) as [S|S].
    + exists [], t. apply until_stop; auto.
    + destruct (IH t) as (ls & tail & Q).
      { rewrite !app_length in Lk. assert (List.length (l ++ e) <> 0) by (destruct (l ++ e); [congruence|discriminate]). rewrite app_length in *. lia. }
      exists (l :: ls), tail. apply until_line; auto.
Qed.
Lemma delimiter_dec1 : forall x n l, plain_char x -> delimiter x n l \/ ~ delimiter x n l.
Proof.
  intros x n l P. destruct (delimiter_dec x n l P) as [(k & L & D)|N].
  - destruct (Nat.eq_dec n k) as [<-|Ne]; [now left|]. right. intros D'. apply Ne. eapply delimiter_unique; eauto.
  - right. apply N. lia.
Qed.
Lemma fences_plain : forall kind x m, In (kind, x, m) fences -> plain_char x /\ 1 <= m.
Proof.
  intros kind x m I. unfold fences in I. cbn [In] in I.
  repeat match type of I with _ \/ _ => destruct I as [I|I] end; try (injection I as <- <- <-); [..|destruct I]; (split; [split; [|split]; reflexivity|lia]).
Qed.

Lemma fragments_step : forall (H : host) b text s v b' tail en s' n1 n2 fs e q, text <> [] -> v <> Peg.VNil ->
  eval H the_grammar n1 (ERef "DocumentFragment") (Pos b text) [] s = Some (ROk v (Pos b' tail) en s') -> p_errs s' = false ->
  fragments H n2 (Pos b' tail) s' = Some (fs, e, q) ->
  fragments H (S (Nat.max n1 n2)) (Pos b text) s = Some (Frag (List.length b) (List.length b') v :: fs, e, q).
Proof.
  intros H b text s v b' tail en s' n1 n2 fs e q Ne Nv R E1 F. remember (S (Nat.max n1 n2)) as n eqn:En. rewrite En at 1. cbn [fragments]. rewrite <- En.
  unfold next. destruct text as [|r text]; [congruence|].
  change (at_eof (Pos b (r :: text))) with false. cbn iota.
  assert (eval H the_grammar n (ERef "DocumentFragment") (Pos b (r :: text)) [] s = Some (ROk v (Pos b' tail) en s')) as -> by (eapply eval_mono; [|exact R]; lia).
  rewrite E1. cbn iota.
  assert (fragments H (Nat.max n1 n2) (Pos b' tail) s' = Some (fs, e, q)) as -> by (eapply fragments_mono; [|exact F]; lia).
  destruct v; try reflexivity; now elim Nv.
Qed.

Lemma next_step : forall (H : host) b text s v p' en s' n1 n, text <> [] ->
  eval H the_grammar n1 (ERef "DocumentFragment") (Pos b text) [] s = Some (ROk v p' en s') -> p_errs s' = false ->
  n1 <= n -> next H n (Pos b text) s = Some (NextOk H v p' s').
Proof.
  intros H b text s v p' en s' n1 n Ne R E1 L. unfold next. destruct text as [|r text]; [congruence|].
  change (at_eof (Pos b (r :: text))) with false. cbn iota.
  assert (eval H the_grammar n (ERef "DocumentFragment") (Pos b (r :: text)) [] s = Some (ROk v p' en s')) as -> by (eapply eval_mono; [exact L|exact R]).
  now rewrite E1.
Qed.

Section Docs.
  Variable X : Type.
  Variable cls : string -> rune -> bool.
  Variable low : rune -> rune.
  Variable white : rune -> bool.
  Variable other : string -> labels (hv X) -> soft gstore (option (list string)) -> option (value (hv X) * bool).
  Notation H := (go_host X cls low white other).
  Hypothesis U : unicode_ok H.
  Notation G := the_grammar.
  Notation Ok_ := (Ok_ H G).
  Notation No_ := (No_ H G).
  Notation alnum := (alnum cls).

  Lemma blank_ok : forall ws e t b er g st, blanks ws -> ws ++ e <> [] -> eol e t ->
    exists b', Ok_ (ERef "DocumentFragment") (Pos b (ws ++ e ++ t)) [] (er, g, st) (elem BlankLine) (Pos b' t) [] (er, set_front g (Some false), st).
  Proof.
    intros ws e t b er g st W Ne E. destruct (ok_BlankLine X cls low white other ws e t b [] er g st W Ne E) as (b' & en' & O). exists b'.
    assert (exists r u, ws ++ e ++ t = r :: u /\ lowb r = true) as (r & u & Er & Lr).
    { destruct W as [|r ws Br W].
      - destruct e as [|r e]; [cbn in Ne; congruence|]. exists r, (e ++ t). split; auto. apply eol_at in E. cbn [app at_eol] in E.
        unfold lowb. now rewrite E, orb_true_r.
      - exists r, (ws ++ e ++ t). split; auto. apply blankb_spec in Br. unfold lowb. now rewrite Br. }
    rewrite Er in *. clear - O Lr U.
    assert (forallb (fun e => fails_on G quiet_name 40 e true b [r]) (ERef "BlockAttributes" :: firstn 6 fragment_alts) = true) as F.
    { unfold lowb, blankb, eolb in Lr. rewrite !orb_true_iff, !N.eqb_eq in Lr. destruct Lr as [[->| ->]|[->| ->]]; vm_compute; reflexivity. }
    pose proof (no_alts X cls low white other U b [r] u (er, g, st) _ F) as N.
    eapply (fragment_any X cls low white other true (firstn 6 fragment_alts) x_BlankLine (skipn 7 fragment_alts)); [reflexivity| | |exact O|reflexivity].
    - apply N. now left.
    - intros a I. apply N. now right.
  Qed.

  Definition still (header : bool) (v : val) : bool := header && match v with BlankLine => true | _ => false end.
  (** an admonition is only read outside of a literal paragraph *)
  Definition labeled (v : val) : Prop := exists k ls, v = Paragraph [(AttrStyle, Types.VStr k)] ls.
  Lemma piece_ok : forall header text v tail b er g st, isDocumentHeaderAllowed g = header -> (labeled v -> isWithinLiteralParagraph g = false) -> piece alnum white header text v tail ->
    exists b' g', Ok_ (ERef "DocumentFragment") (Pos b text) [] (er, g, st) (elem v) (Pos b' tail) [] (er, g', st) /\
      isDocumentHeaderAllowed g' = still header v /\ st_within g' = st_within g /\ st_macros g' = st_macros g /\ isWithinLiteralParagraph g' = isWithinLiteralParagraph g.
  Proof.
    intros header text v tail b er g st Hg Hp P.
    assert (forall g, isDocumentHeaderAllowed (after g) = false) as Af by reflexivity. unfold still.
    destruct P as [ws e tail W Ne E|kind x m n ws e body ls tail I L W T E Q|ws e body ls tail W E Q|n ws e body ls tail L W E Q T|lang ws e body ls tail Lg W T E Q|l e t ls tail F E C|l k x e t ls items tail Il St E M|l e tail L N Nc E T|w ws e e' tail I W E E'|w k l e t ls tail I L Nc V E C].
    - destruct (blank_ok ws e tail b er g st W Ne E) as (b' & O). eexists _, _. split; [exact O|]. rewrite andb_true_r. split; [exact Hg|repeat split].
    - destruct (fence_ok X cls low white other U kind x m n ws e body ls tail b er g st I L W E (fun _ => T) Q) as (b' & O).
      eexists _, _. split; [exact O|]. rewrite Af, andb_false_r. repeat split.
    - destruct (open_ok X cls low white other U ws e body ls tail b er g st W E Q) as (b' & O).
      eexists _, _. split; [exact O|]. rewrite Af, andb_false_r. repeat split.
    - destruct (comment_ok X cls low white other U n ws e body ls tail b er g st L W E Q) as (b' & O).
      { rewrite Hg. destruct header; [right; now apply T|now left]. }
      eexists _, _. split; [exact O|]. rewrite Af, andb_false_r. repeat split.
    - destruct (code_ok X cls low white other U lang ws e body ls tail b er g st Lg W T E Q) as (b' & O).
      eexists _, _. split; [exact O|]. rewrite Af, andb_false_r. repeat split.
    - destruct (paragraph_ok X cls low white other U l e t ls tail b er g st F E C) as (b' & O).
      eexists _, _. split; [exact O|]. rewrite Af, andb_false_r. repeat split.
    - destruct (list_ok X cls low white other U er g st l k x e t ls items tail b Il St E M) as (b' & O).
      eexists _, _. split; [exact O|]. rewrite Af, andb_false_r. repeat split.
    - destruct (remark_ok X cls low white other U er g st l e tail b L N Nc E) as (b' & O).
      { rewrite Hg. destruct header; [right; now apply T|now left]. }
      eexists _, _. split; [exact O|]. rewrite Af, andb_false_r. repeat split.
    - destruct (break_ok X cls low white other U er g st w ws e e' tail b I W E E') as (b' & O).
      eexists _, _. split; [exact O|]. rewrite Af, andb_false_r. repeat split.
    - destruct (admonition_ok X cls low white other U er g st w k l e t ls tail b I (Hp ltac:(do 2 eexists; reflexivity)) L Nc V E C) as (b' & O).
      eexists _, _. split; [exact O|]. rewrite Af, andb_false_r. repeat split.
  Qed.

  Lemma document_run : forall header text vs, document alnum white header text vs -> forall b s, p_errs s = false ->
    isDocumentHeaderAllowed (c_store s) = header -> isWithinLiteralParagraph (c_store s) = false ->
    exists n fs q, fragments H n (Pos b text) s = Some (fs, Finished, q) /\ map f_element fs = map elem vs.
  Proof.
    intros header text vs D. induction D as [header|header text v tail vs Ne P D IH]; intros b s Es Hs Hp.
    - exists 1, [], (Pos b []). split; reflexivity.
    - destruct (piece_ok header text v tail b false (c_store s) (c_state s) Hs (fun _ => Hp) P) as (b' & g' & O & Hg' & _ & _ & Hp').
      destruct (O s) as (s' & (n1 & R) & Es'); [destruct s as [mp mt er0 gs0 ct0]; cbn in Es; subst er0; reflexivity|].
      assert (p_errs s' = false /\ c_store s' = g') as [E1 E2] by (split; [exact (f_equal (fun c => fst (fst c)) Es')|exact (f_equal (fun c => snd (fst c)) Es')]).
      destruct (IH b' s' E1) as (n2 & fs & q & F & M).
      { refine (eq_trans (f_equal isDocumentHeaderAllowed E2) Hg'). }
      { refine (eq_trans (f_equal isWithinLiteralParagraph E2) _). now rewrite Hp'. }
      exists (S (Nat.max n1 n2)), (@Frag H (List.length b) (List.length b') (@elem X v) :: fs), q.
      split; [|cbn [map]; now rewrite M]. eapply (fragments_step H); eauto. discriminate.
  Qed.
End Docs.

(** * The theorems *)
Lemma starts_elem : forall al wh header text v tail, piece al wh header text v tail -> text <> [].
Proof.
  intros al wh header text v tail [ws e t W Ne E|kind x m n ws e body ls t I L W T E Q|ws e body ls t W E Q|n ws e body ls t L W E Q T|lang ws e body ls t Lg W T E Q|l e t ls tl F E C|l k x e t ls items tl Il St E M|l e t L N Nc E T|w ws e e' t I W E E'|w k l e t ls tl I L Nc V E C].
  - rewrite app_assoc. destruct (ws ++ e); [congruence|discriminate].
  - apply fences_plain in I. destruct n; [lia|discriminate].
  - discriminate.
  - destruct n; [lia|discriminate].
  - discriminate.
  - destruct F as (_ & _ & _ & r & l' & -> & _). discriminate.
  - destruct St as (_ & St). destruct l; [destruct St|discriminate].
  - discriminate.
  - unfold thematic_breaks in I. cbn [In] in I. repeat match type of I with _ \/ _ => destruct I as [<-|I] end; [..|destruct I]; discriminate.
  - unfold admonitions in I. cbn [In] in I. repeat match type of I with _ \/ _ => destruct I as [I|I] end; [..|destruct I]; injection I as <- _; discriminate.
Qed.

(** one step of the loop over the document: the element at the beginning of the text, and the rest *)
Theorem C65_block_verbatim : forall X cls low white other, let H := go_host X cls low white other in unicode_ok H ->
  forall header text v tail, piece (alnum cls) white header text v tail ->
  forall before s, p_errs s = false -> isDocumentHeaderAllowed (c_store s) = header -> (labeled v -> isWithinLiteralParagraph (c_store s) = false) ->
  exists n0 before' s', p_errs s' = false /\ forall n, n0 <= n -> next H n (Pos before text) s = Some (NextOk H (elem v) (Pos before' tail) s').
Proof.
  intros X cls low white other H U header text v tail Pc b s Es Hs Hp. pose proof (starts_elem _ _ _ _ _ _ Pc) as Ne.
  destruct (piece_ok X cls low white other U header text v tail b false (c_store s) (c_state s) Hs Hp Pc) as (b' & g' & O & _).
  destruct (O s) as (s' & (n1 & R) & Es'); [destruct s as [mp mt er0 gs0 ct0]; cbn in Es; subst er0; reflexivity|].
  assert (p_errs s' = false) as E1 by exact (f_equal (fun c => fst (fst c)) Es').
  exists n1, b', s'. split; [exact E1|]. intros n Ln. eapply (next_step H); eauto.
Qed.

(** every text that starts with the opening line of such a block is one: its lines end at the first
    closing line, or with the text *)
Theorem C65_every_block : forall al wh header kind x m n ws e body, In (kind, x, m) fences -> m <= n -> blanks ws -> (n = 3 -> no_tab ws) -> eol e body ->
  exists ls tail, lines_until (delimiter x n) body ls tail /\
    piece al wh header (repeat x n ++ ws ++ e ++ body) (DelimitedBlock kind [] (raw_lines ls)) tail.
Proof.
  intros al wh header kind x m n ws e body I L W T E. destruct (fences_plain _ _ _ I) as [P Lm].
  destruct (lines_total (delimiter x n)) with (text := body) as (ls & tail & Q).
  - intros l _. now apply delimiter_dec1.
  - intros l (w & _ & ->). destruct n; [lia|discriminate].
  - exists ls, tail. split; auto. eapply piece_fence; eauto.
Qed.
Theorem C65_every_open_block : forall al wh header ws e body, blanks ws -> eol e body ->
  exists ls tail, lines_until (delimiter 45%N 2) body ls tail /\
    piece al wh header (repeat 45%N 2 ++ ws ++ e ++ body) (DelimitedBlock "open" [] (raw_lines ls)) tail.
Proof.
  intros al wh header ws e body W E.
  destruct (lines_total (delimiter 45%N 2)) with (text := body) as (ls & tail & Q).
  - intros l _. apply delimiter_dec1. repeat split.
  - intros l (w & _ & ->). discriminate.
  - exists ls, tail. split; auto. now eapply piece_open; eauto.
Qed.
Theorem C65_every_comment_block : forall al wh n ws e body, 4 <= n -> blanks ws -> eol e body ->
  exists ls tail, lines_until comment_end body ls tail /\
    piece al wh false (repeat 47%N n ++ ws ++ e ++ body) (DelimitedBlock "comment" [] (raw_lines ls)) tail.
Proof.
  intros al wh n ws e body L W E.
  destruct (lines_total comment_end) with (text := body) as (ls & tail & Q).
  - intros l _. destruct (delimiter_dec 47%N 4 l) as [D|D]; [repeat split|now left|right]. intros (k & Lk & Dk). exact (D k Lk Dk).
  - intros l (k & Lk & w & _ & ->). destruct k; [lia|discriminate].
  - exists ls, tail. split; auto. eapply piece_comment; eauto. discriminate.
Qed.
Theorem C65_every_code_block : forall al wh header lang ws e body, language lang -> blanks ws -> no_tab ws -> eol e body ->
  exists ls tail, lines_until (delimiter 96%N 3) body ls tail /\
    piece al wh header (repeat 96%N 3 ++ lang ++ ws ++ e ++ body) (DelimitedBlock "listing" (code_attrs lang) (raw_lines ls)) tail.
Proof.
  intros al wh header lang ws e body Lg W T E.
  destruct (lines_total (delimiter 96%N 3)) with (text := body) as (ls & tail & Q).
  - intros l _. apply delimiter_dec1. repeat split.
  - intros l (w & _ & ->). discriminate.
  - exists ls, tail. split; auto. now eapply piece_code; eauto.
Qed.
(** no line of the block closes it *)
Theorem C65_lines_do_not_close : forall stop text ls tail, lines_until stop text ls tail -> Forall (fun l => ~ stop l) ls.
Proof. intros stop text ls tail Q. induction Q; constructor; auto. Qed.

(** a whole document: the loop ends normally and its elements are exactly those of the text *)
Theorem C66_documents_parsed : forall X cls low white other, let H := go_host X cls low white other in unicode_ok H ->
  forall header text vs, document (alnum cls) white header text vs ->
  forall g, isDocumentHeaderAllowed g = header -> isWithinLiteralParagraph g = false ->
  exists n0 (fs : list (fragment H)) q, map f_element fs = map elem vs /\ rest q = [] /\ forall n, n0 <= n -> parse_fragments H n text g = Some (fs, Finished, q).
Proof.
  intros X cls low white other H U header text vs D g Hg Hp.
  destruct (document_run X cls low white other U header text vs D [] (Soft [] [] false g (state0 H)) eq_refl Hg Hp) as (n0 & fs & q & F & M).
  exists n0, fs, q. split; [exact M|]. split.
  - change (go_host X cls low white other) with H in F. revert F. clear. generalize (Soft [] [] false g (state0 H)) as s. generalize (Pos [] text) as p. revert fs q.
    induction n0 as [|n0 IH]; intros fs q p s F; [discriminate|]. remember (S n0) as k eqn:Ek. rewrite Ek in F. cbn [fragments] in F. rewrite <- Ek in F.
    unfold next in F. destruct (at_eof p) eqn:Ea.
    { injection F as <- <-. destruct p as [b [|]]; [reflexivity|discriminate]. }
    destruct (eval H the_grammar k (ERef "DocumentFragment") p [] s) as [[v p' en s'| |]|]; try discriminate.
    destruct (p_errs s'); [discriminate|].
    destruct v; try discriminate; destruct (fragments H n0 p' s') as [[[fs' e'] q']|] eqn:Er; try discriminate; injection F as <- -> ->; eapply IH; exact Er.
  - intros n Ln. unfold parse_fragments. eapply fragments_mono; [exact Ln|exact F].
Qed.
(** a paragraph is one element with all its lines, up to the blank line, block or end that follows it *)
Theorem C66_paragraph_lines : forall X cls low white other, let H := go_host X cls low white other in unicode_ok H ->
  forall l e t ls tail, first_line (alnum cls) white l -> eol e t -> continued white t ls tail ->
  forall before s, p_errs s = false ->
  exists n0 before' s', p_errs s' = false /\ forall n, n0 <= n ->
    next H n (Pos before (l ++ e ++ t)) s = Some (NextOk H (elem (Paragraph [] (raw_lines (l :: ls)))) (Pos before' tail) s').
Proof. intros X cls low white other H U l e t ls tail F E C b s Es. eapply C65_block_verbatim; eauto; [now apply piece_para|intros (k & vs & Q); discriminate]. Qed.

(** * A document *)
Definition demo_cls (c : string) (r : rune) : bool := match known_class c r with Some b => b | None => false end.
Definition demo_low (r : rune) : rune := match known_lower r with Some b => b | None => r end.
Definition demo_white (r : rune) : bool := match known_white r with Some b => b | None => false end.
Definition demo_go : host := go_host Empty_set demo_cls demo_low demo_white (fun _ _ _ => None).
Lemma demo_go_unicode : unicode_ok demo_go.
Proof. unfold unicode_ok, demo_go, demo_cls, demo_low, demo_white. repeat split; cbn [in_class to_lower is_white go_host]; intros ? ?; intros; rewrite H; reflexivity. Qed.
Definition a_document : list rune := R "Hello, *world*
and (more)  
----
 one[]  
---
== two
----   

////
no
/////
x".
Definition its_elements : list val :=
  [ Paragraph [] [RawLine ("Hello, *world*" ++ LF); RawLine "and (more)"];
    DelimitedBlock "listing" [] [RawLine (" one[]" ++ LF); RawLine ("---" ++ LF); RawLine "== two"];
    BlankLine; DelimitedBlock "comment" [] [RawLine "no"]; Paragraph [] [RawLine "x"] ].
Ltac is_line := repeat constructor; discriminate.
Ltac is_blanks := repeat first [apply Forall_nil | apply Forall_cons; [first [now left|now right]|]].
Ltac lf := left; reflexivity.
Ltac no_start := let w := fresh in let I := fresh in let l := fresh in let E := fresh in
  intros w I [l E]; cbn [labels_of_admonitions In] in I; repeat destruct I as [<-|I]; try discriminate E; destruct I.
Fixpoint colonsb (l : list rune) : bool :=
  match l with [] => false | x :: r => (N.eqb x 58 && match r with y :: _ => N.eqb y 58 | [] => false end) || colonsb r end.
Lemma no_colons_dec : forall l, colonsb l = false -> no_colons l.
Proof.
  intros l E (a & b & ->). revert E. induction a as [|x a IH]; [discriminate|]. intros E. apply IH. cbn [app colonsb] in E.
  now apply orb_false_iff in E.
Qed.
Ltac not_delimiter := let w := fresh in let W := fresh in let E := fresh in
  intros (w & W & E); vm_compute in E; first [discriminate E | injection E as <-; inversion W as [|? ? [?|?] ?]; discriminate].
Theorem C66_documents_parsed_example : document (alnum demo_cls) demo_white true a_document its_elements.
Proof.
  refine (doc_cons _ _ true (R "Hello, *world*" ++ [10%N] ++ _) _ _ _ _ (piece_para _ _ _ _ _ _ [R "and (more)  "] _ _ _ _) _).
  - discriminate.
  - split; [is_line|]. split; [apply no_colons_dec; reflexivity|]. split; [no_start|].
    eexists _, _. split; [reflexivity|]. split; [reflexivity|]. split; [reflexivity|].
    intros (y & z & u & E & [->| ->] & _); discriminate E.
  - lf.
  - refine (cont_line _ (R "and (more)  ") [10%N] _ [] _ _ _ _).
    + split; [is_line|]. split; [exists 97%N; split; [now left|reflexivity]|].
      cbn. intros I. repeat destruct I as [I|I]; try discriminate I; exact I.
    + lf.
    + refine (cont_fence _ "listing" 45%N 4 4 [] [10%N] _ _ _ _ _ _); [right; cbn; tauto|lia|constructor|discriminate|lf].
  - refine (doc_cons _ _ false (repeat 45%N 4 ++ [] ++ [10%N] ++ R " one[]  
---
== two
----   

////
no
/////
x") _ _ _ _ (piece_fence _ _ _ "listing" 45%N 4 4 _ _ _ [R " one[]  "; R "---"; R "== two"] _ _ _ _ _ _ _) _); [discriminate|cbn; tauto|lia|constructor|discriminate|lf| |].
    + refine (until_line _ (R " one[]  ") [10%N] _ _ _ _ _ _ _ _); [is_line|discriminate|not_delimiter|lf|].
      refine (until_line _ (R "---") [10%N] _ _ _ _ _ _ _ _); [is_line|discriminate|not_delimiter|lf|].
      refine (until_line _ (R "== two") [10%N] _ _ _ _ _ _ _ _); [is_line|discriminate|not_delimiter|lf|].
      refine (until_stop _ (R "----   ") [10%N] (R "
////
no
/////
x") _ _ _ _); [is_line|discriminate| |lf]. exists (R "   "). split; [is_blanks|reflexivity].
    + refine (doc_cons _ _ false ([] ++ [10%N] ++ R "////
no
/////
x") _ _ _ _ (piece_blank _ _ _ _ _ _ _ _ _) _); [discriminate|constructor|discriminate|lf|].
      refine (doc_cons _ _ false (repeat 47%N 4 ++ [] ++ [10%N] ++ R "no
/////
x") _ _ _ _ (piece_comment _ _ _ 4 _ _ _ [R "no"] _ _ _ _ _ _) _); [discriminate|lia|constructor|lf| |discriminate|].
      * refine (until_line _ (R "no") [10%N] _ _ _ _ _ _ _ _); [is_line|discriminate| |lf|].
        { intros (k & L & w & _ & E). do 4 (destruct k as [|k]; [lia|]). discriminate E. }
        refine (until_stop _ (R "/////") [10%N] (R "x") _ _ _ _); [is_line|discriminate| |lf]. exists 5. split; [lia|]. exists []. split; [constructor|reflexivity].
      * refine (doc_cons _ _ false (R "x" ++ [] ++ []) _ _ _ _ (piece_para _ _ _ _ _ _ [] _ _ _ _) _); [discriminate| | |constructor|constructor].
        { split; [is_line|]. split; [apply no_colons_dec; reflexivity|]. split; [no_start|].
          eexists _, _. split; [reflexivity|]. split; [reflexivity|]. split; [reflexivity|].
          intros (y & z & u & E & _); discriminate E. }
        { right. right. right. auto. }
Qed.

Theorem C66_documents_parsed_run :
  match parse_fragments demo_go 90 a_document (GStore None (Some true) (Some true) None None None None None [] None) with
  | Some (fs, Finished, q) => flat_map (fun f : fragment demo_go => match (f_element f : value (hv Empty_set)) with Peg.VHost (HVal v) => [v] | _ => [] end) fs
  | _ => []
  end = its_elements.
Proof. vm_compute. reflexivity. Qed.

(** * PegHost.v knows every predicate and every state block of the grammar *)
Fixpoint codes (e : expr) : list string * list string :=
  let many := (fix go (l : list expr) := match l with [] => ([], []) | x :: r =>
                 let '(a, b) := codes x in let '(c, d) := go r in (a ++ c, b ++ d) end) in
  match e with
  | EPred (PHost c) => ([c], [])
  | EState c => ([], [c])
  | ESeq l | EAlt l => many l
  | EStar e | EPlus e | EOpt e | EAnd e | ENot e | EAct _ e | ELab _ e => codes e
  | _ => ([], [])
  end.
Lemma all_predicates_known :
  forallb (fun r => let '(ps, ss) := codes (snd r) in
             forallb (fun c => match assoc (known_preds demo_cls demo_white) c with Some _ => true | None => false end) ps
             && forallb (fun c => match assoc known_states c with Some _ => true | None => false end) ss) the_grammar = true.
Proof. vm_compute. reflexivity. Qed.

Print Assumptions C65_block_verbatim.
Print Assumptions C66_documents_parsed.
Print Assumptions C66_documents_parsed_example.
