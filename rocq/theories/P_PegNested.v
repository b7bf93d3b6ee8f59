(** The elements of a compound block (example, quote, sidebar, open): a second parsing of its lines. *)
From Coq Require Import List String NArith ZArith Bool Ascii Arith Lia.
From Verif Require Import GoBase Utf8 Types Attrs Elements Subs Peg PegGrammar PegDoc PegHost PegSym PegBlockSpec P_PegTerm P_PegParse P_PegRun P_PegLines P_PegBlocks P_PegFragment P_PegPara P_PegDocs.
Import ListNotations.
Local Open Scope list_scope.

Lemma until_incl : forall stop text ls tail, lines_until stop text ls tail -> incl tail text.
Proof.
  intros stop text ls tail Q. induction Q as [|l e tail L N S E|l e t ls tail L N S E Q IH]; [apply incl_refl| |].
  - apply incl_appr, incl_appr, incl_refl.
  - apply incl_appr, incl_appr. exact IH.
Qed.
Lemma continued_incl : forall white t ls tail, continued white t ls tail -> incl tail t.
Proof.
  intros white t ls tail Q. induction Q; try apply incl_refl. apply incl_appr, incl_appr. assumption.
Qed.
Lemma blank_lines_incl : forall t t', blank_lines t t' -> incl t' t.
Proof. intros t t' Q. induction Q; [apply incl_refl|]. apply incl_appr, incl_appr. assumption. Qed.
Lemma list_more_incl : forall white t ls items tail, list_more white t ls items tail -> incl tail t.
Proof.
  intros white t ls items tail M. induction M as [| | |l e t ls items tail Ll E M IH|t0 l k x e t ls items tail Bl Il E M IH]; try apply incl_refl.
  - apply incl_appr, incl_appr. exact IH.
  - apply blank_lines_incl in Bl. eapply incl_tran; [|exact Bl]. apply incl_appr, incl_appr. exact IH.
Qed.
Lemma piece_incl : forall al wh header text v tail, piece al wh header text v tail -> incl tail text.
Proof.
  intros al wh header text v tail P. destruct P as [ws e tail W Ne E|kind x m n ws e body ls tail I L W T E Q|ws e body ls tail W E Q|n ws e body ls tail L W E Q T|lang ws e body ls tail Lg W T E Q|l e t ls tail F E C|l k x e t ls items tail Il St E M|l e tail L N Nc E T|w ws e e' tail I W E E'|w k l e t ls tail I L Nc V E C].
  all: try (apply until_incl in Q); try (apply continued_incl in C); try (apply list_more_incl in M).
  all: repeat apply incl_appr; try assumption; try apply incl_refl.
Qed.

Section Nested.
  Variable X : Type.
  Variable cls : string -> rune -> bool.
  Variable low : rune -> rune.
  Variable white : rune -> bool.
  Variable other : string -> labels (hv X) -> soft gstore (option (list string)) -> option (value (hv X) * bool).
  Notation H := (go_host X cls low white other).
  Hypothesis U : unicode_ok H.
  Notation G := the_grammar.
  Notation Ok_ := (Ok_ H G).
  Notation No_ := (No_ H G).
  Notation Star_ := (Star_ H G).
  Notation alnum := (alnum cls).

  Definition nested_element : expr := EAlt [x_ElementPlaceHolder; ERef "DocumentFragment"].
  Lemma no_holder : forall x t b c, x <> 65533%N -> No_ x_ElementPlaceHolder (Pos b (x :: t)) [] c c.
  Proof. intros x t b c Ne. apply no_act. apply no_seq1_c. apply no_lit1. congruence. Qed.
  Lemma no_holder_end : forall b c, No_ x_ElementPlaceHolder (Pos b []) [] c c.
  Proof. intros b c s E. exists s. split; [exists 10; destruct s; reflexivity|exact E]. Qed.
  Lemma no_fragment_end : forall b c, No_ (ERef "DocumentFragment") (Pos b []) [] c c.
  Proof. intros b c s E. exists s. split; [exists 10; destruct s; reflexivity|exact E]. Qed.
  Lemma nested_end : forall b c, No_ nested_element (Pos b []) [] c c.
  Proof.
    intros b c. eapply no_alt_next; [apply no_holder_end|]. rewrite kback_id. eapply no_alt_next; [apply no_fragment_end|]. rewrite kback_id. apply no_alt_nil.
  Qed.
  Lemma nested_star : forall header text vs, document alnum white header text vs -> ~ In 65533%N text -> forall b er g st, isDocumentHeaderAllowed g = header -> isWithinLiteralParagraph g = false ->
    exists b' g', Star_ nested_element (Pos b text) (er, g, st) (map (@elem X) vs) (Pos b' []) (er, g', st).
  Proof.
    intros header text vs D. induction D as [header|header text v tail vs Ne P D IH]; intros Nf b er g st Hg Hp.
    - exists b, g. apply star_stop, nested_end.
    - destruct (piece_ok X cls low white other U header text v tail b er g st Hg (fun _ => Hp) P) as (b1 & g1 & O & H1 & _ & _ & Hp1). rewrite Hp in Hp1.
      pose proof (piece_incl _ _ _ _ _ _ P) as Inc.
      destruct (IH (fun I => Nf (Inc _ I)) b1 er g1 st H1 Hp1) as (b2 & g2 & S). exists b2, g2. cbn [map].
      destruct text as [|x text]; [congruence|].
      eapply star_more; [|exact S]. eapply ok_alt_next; [apply no_holder; intros ->; apply Nf; now left|]. rewrite kback_id. eapply ok_alt_here. exact O.
  Qed.
  Lemma nested_ok : forall text vs, document alnum white false text vs -> ~ In 65533%N text -> forall g, isWithinLiteralParagraph g = false ->
    exists n0 b' s', p_errs s' = false /\ forall n, n0 <= n ->
      parse H G n "DelimitedBlockElements" text g = Some (@ROk H (VList (map (@elem X) vs)) (Pos b' []) [] s').
  Proof.
    intros text vs D Nf g Hp.
    destruct (nested_star false text vs D Nf [] false (set_within g (Some true)) (state0 H)) as (b' & g' & S).
    { unfold isDocumentHeaderAllowed, isWithinDelimitedBlock. cbn. apply andb_false_r. }
    { exact Hp. }
    assert (Ok_ (ERef "DelimitedBlockElements") (Pos [] text) [] (false, g, state0 H) (VList (map (@elem X) vs)) (Pos b' []) [] (false, g', state0 H)) as O.
    { eapply ok_ref; [reflexivity|]. eapply ok_act with (c1 := (false, g', state0 H)) (en' := [("elements"%string, VList (map (@elem X) vs))]).
      - apply ok_seq. eapply seq_cons; [apply ok_state with (g' := set_within g (Some true)) (t' := state0 H)|].
        { intros s Es. apply core_store in Es. destruct Es as [<- <-]. reflexivity. }
        eapply seq_cons; [eapply ok_lab; apply ok_star; exact S|]. eapply seq_cons; [apply ok_EOF|apply seq_nil].
      - apply act_label. }
    destruct (O (Soft [] [] false g (state0 H)) eq_refl) as (s' & (n0 & R) & Es').
    exists n0, b', s'. split; [exact (f_equal (fun c => fst (fst c)) Es')|]. intros n L. unfold parse. eapply eval_mono; [exact L|exact R].
  Qed.
End Nested.
