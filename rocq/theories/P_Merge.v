(** Properties C27, C53: merging and splitting inline content. *)
From Verif Require Import GoBase GoLemmas Types Merge MergeSpec MergeLemmas.

(** ** C27: merging keeps text and elements in order, for content nested in any way; only spaces in front of
    the symbol " -- " may be dropped ([drops]) *)
Theorem C27_merge_keeps_content :
  forall l, drops (tokens_of l) (tokens_of (merge l)).
Proof. exact merge_tokens. Qed.
Print Assumptions C27_merge_keeps_content.

(** hence nothing at all changes in content without that symbol ... *)
Theorem C27_merge_keeps_all :
  forall l, ~ In dash (tokens_of l) -> tokens_of (merge l) = tokens_of l.
Proof. intros l N. symmetry. apply drops_no_dash; [apply merge_tokens|exact N]. Qed.
Print Assumptions C27_merge_keeps_all.

(** ... and the other elements, and the text apart from spaces, are the same in any case *)
Theorem C27_merge_keeps_elements :
  forall l, flat_map elem_of (tokens_of (merge l)) = flat_map elem_of (tokens_of l) /\
            filter nonspace (tokens_of (merge l)) = filter nonspace (tokens_of l).
Proof.
  intros l. split; symmetry; [apply drops_elems|apply drops_nonspace]; apply merge_tokens.
Qed.
Print Assumptions C27_merge_keeps_elements.

(** the same for the value stored by Reduce *)
Theorem C27_reduce_keeps_content :
  forall v, drops (tokens v) (tokens (Reduce v)).
Proof.
  intros v. destruct v; cbn [Reduce]; try apply drops_refl.
  - destruct (String.eqb_spec s "") as [->|]; apply drops_refl.
  - rewrite tokens_slice. pose proof (merge_tokens l) as H. destruct (merge l) as [|e r]; [exact H|].
    assert (G : drops (tokens_of l) (tokens (VSlice (e :: r)))) by (rewrite tokens_slice; exact H).
    destruct e; try exact G. destruct r; [|exact G].
    unfold tokens_of in H at 2. cbn [flat_map] in H. rewrite app_nil_r in H. exact H.
  - destruct (String.eqb_spec content "") as [->|]; apply drops_refl.
Qed.
Print Assumptions C27_reduce_keeps_content.

(** one space is dropped in front of " -- " *)
Theorem C27_dash_refuted :
  exists l, tokens_of (merge l) <> tokens_of l.
Proof. exists [VStr "a "; Symbol " -- "]. cbn. discriminate. Qed.
Print Assumptions C27_dash_refuted.

(** Two adjacent strings are left exactly when text directly follows the last slice that is nested in the content, and what is up to
    the end of that slice ends in text; so content without nested slices leaves none *)
Theorem C27_adjacent_text : forall l,
  ~ no_adjacent_text (merge l) <->
  exists pre x post, l = pre ++ x :: post /\ filled x /\ Forall (fun v => ~ filled v) post /\ ends_in_text (pre ++ [x]) /\ begins_with_text post.
Proof. exact merge_adjacent. Qed.
Print Assumptions C27_adjacent_text.

(** in particular merging a second time leaves none *)
Theorem C27_merge_twice :
  forall l, no_adjacent_text (merge (merge l)).
Proof.
  intros l. apply merge_no_adj. pose proof (atoms_merge l) as A. induction A as [|e r [O|[s ->]] A IH].
  - exact I.
  - destruct e; try discriminate; exact IH.
  - exact IH.
Qed.
Print Assumptions C27_merge_twice.

(** a nested slice of text followed by text does leave two adjacent strings *)
Theorem C27_no_adjacent_text_refuted :
  exists l, ~ no_adjacent_text (merge l).
Proof. exists [VSlice [VStr "a"]; VStr "b"]. cbn. intros [H _]. now specialize (H eq_refl). Qed.
Print Assumptions C27_no_adjacent_text_refuted.

Theorem C27_example :
  let l := [VStr "a"; VNil; VSlice [VStr "b"; VSlice [StringElement "c"; LineBreak]]; Symbol "(C)"; VStr "d"; VStr "e"] in
  ~ In dash (tokens_of l) /\
  merge l = [StringElement "abc"; LineBreak; Symbol "(C)"; StringElement "de"].
Proof. cbn. repeat split. intros H. repeat (destruct H as [H|H]; [discriminate|]). exact H. Qed.

(** ** C53: splitting into lines (source blocks with highlighted lines) *)
Fixpoint intercalate {A} (sep : list A) (l : list (list A)) : list A :=
  match l with [] => [] | [x] => x | x :: r => x ++ sep ++ intercalate sep r end.
Definition newline : token := Char (chr 10).

Lemma intercalate_cons {A} (sep x : list A) r : r <> [] -> intercalate sep (x :: r) = x ++ sep ++ intercalate sep r.
Proof. now destruct r. Qed.

Definition join_nl (parts : list string) : list token := intercalate [newline] (map chars parts).
Lemma chars_split c : chars c = join_nl (split_char (chr 10) c).
Proof.
  unfold join_nl. induction c as [|x c IH]; [reflexivity|]. cbn [split_char].
  destruct (Ascii.eqb_spec x (chr 10)) as [->|N].
  - cbn [map]. rewrite intercalate_cons.
    + cbn [chars app]. now rewrite <- IH.
    + intros H. apply map_eq_nil in H. now apply split_char_nonempty in H.
  - cbn [chars]. rewrite IH. destruct (split_char (chr 10) c) as [|p ps] eqn:E; [now apply split_char_nonempty in E|].
    cbn [map]. destruct ps as [|q qs]; [reflexivity|]. rewrite !intercalate_cons by discriminate. reflexivity.
Qed.

Definition add_part (line : list val) (s : string) : list val :=
  if String.eqb s "" then line else line ++ [StringElement s].
Lemma tokens_add_part line s : tokens_of (add_part line s) = tokens_of line ++ chars s.
Proof.
  unfold add_part. destruct (String.eqb_spec s "") as [->|].
  - cbn. now rewrite app_nil_r.
  - rewrite tokens_of_app. unfold tokens_of at 2. cbn [flat_map tokens]. now rewrite app_nil_r.
Qed.

Lemma split_parts_tokens parts : parts <> [] -> forall line,
  let (ls, line') := split_parts parts line in
  tokens_of line ++ join_nl parts = intercalate [newline] (map tokens_of (ls ++ [line'])).
Proof.
  induction parts as [|s parts IH]; [congruence|]. intros _ line.
  destruct parts as [|s2 parts].
  - cbn [split_parts app map intercalate]. change (if String.eqb s "" then line else line ++ [StringElement s]) with (add_part line s).
    rewrite tokens_add_part. reflexivity.
  - cbn [split_parts]. specialize (IH ltac:(discriminate) []). cbn [split_parts] in IH.
    destruct (match parts with [] => _ | _ => _ end) as [lines line'] eqn:E.
    change (if String.eqb s "" then line else line ++ [StringElement s]) with (add_part line s).
    cbn [app map]. rewrite intercalate_cons.
    2:{ rewrite map_app. destruct lines; discriminate. }
    rewrite <- IH, tokens_add_part. unfold join_nl. cbn [map]. rewrite intercalate_cons by discriminate.
    cbn [tokens_of flat_map app]. rewrite <- app_assoc. reflexivity.
Qed.

Lemma intercalate_app {A} (sep : list A) a x b : a <> [] ->
  intercalate sep (a ++ x :: b) = intercalate sep a ++ sep ++ intercalate sep (x :: b).
Proof.
  induction a as [|y a IH]; [congruence|]. intros _. destruct a as [|z a].
  - cbn [app]. rewrite intercalate_cons by discriminate. reflexivity.
  - cbn [app] in *. rewrite (intercalate_cons sep y (z :: (a ++ x :: b))) by discriminate.
    rewrite (intercalate_cons sep y (z :: a)) by discriminate. rewrite IH by discriminate.
    now rewrite !app_assoc.
Qed.

(** [line_tokens lines]: the lines joined by newlines; [open]: whether the text goes on after the last newline *)
Lemma split_lines_tokens es : Forall no_slice es -> forall line,
  exists tail, (tail = [] \/ tail = [newline]) /\
  tokens_of line ++ tokens_of es = intercalate [newline] (map tokens_of (split_lines_loop es line)) ++ tail.
Proof.
  induction 1 as [|e es NS F IH]; intros line.
  - exists []. split; [now left|]. cbn [split_lines_loop tokens_of flat_map]. rewrite !app_nil_r.
    destruct line as [|x line]; reflexivity.
  - destruct (val_cases e) as [->|[[s ->]|[[s ->]|[[x ->]|O]]]]; [| | |destruct NS|].
    + cbn [split_lines_loop]. destruct (IH (line ++ [VNil])) as (tail & T & E). exists tail. split; [exact T|].
      rewrite <- E, tokens_of_app. unfold tokens_of. cbn [flat_map tokens]. now rewrite !app_nil_r.
    + cbn [split_lines_loop]. destruct (IH (line ++ [VStr s])) as (tail & T & E). exists tail. split; [exact T|].
      rewrite <- E, tokens_of_app. unfold tokens_of. cbn [flat_map tokens]. now rewrite <- app_assoc, app_nil_r.
    + cbn [split_lines_loop].
      pose proof (split_parts_tokens (split_char (chr 10) s) (split_char_nonempty _ s) line) as P.
      destruct (split_parts (split_char (chr 10) s) line) as [ls line'].
      rewrite <- chars_split in P. destruct (IH line') as (tail & T & E).
      unfold tokens_of at 2. cbn [flat_map tokens]. fold (tokens_of es). rewrite app_assoc, P.
      destruct ls as [|l0 ls].
      * exists tail. split; [exact T|]. cbn [app map intercalate]. exact E.
      * rewrite map_app. cbn [map]. rewrite intercalate_app by discriminate. cbn [intercalate].
        rewrite <- !app_assoc, E.
        destruct (split_lines_loop es line') as [|l1 rest] eqn:R.
        -- cbn [map app intercalate] in *. rewrite app_nil_r. destruct T as [->| ->].
           ++ exists [newline]. split; [now right|reflexivity].
           ++ (* impossible: no line at all means no text *)
              exfalso. clear -R E F. revert line' R E. induction F as [|e es N F IHF]; intros line' R E.
              ** cbn in R. destruct line'; [discriminate E|discriminate R].
              ** destruct (val_cases e) as [->|[[s ->]|[[s ->]|[[x ->]|O]]]]; [| | |destruct N|].
                 --- cbn [split_lines_loop] in R. apply (IHF _ R). rewrite <- E, tokens_of_app.
                     unfold tokens_of. cbn [flat_map tokens]. now rewrite !app_nil_r.
                 --- cbn [split_lines_loop] in R. apply (IHF _ R). rewrite <- E, tokens_of_app.
                     unfold tokens_of. cbn [flat_map tokens]. now rewrite <- app_assoc, app_nil_r.
                 --- cbn [split_lines_loop] in R.
                     pose proof (split_parts_tokens (split_char (chr 10) s) (split_char_nonempty _ s) line') as P.
                     destruct (split_parts (split_char (chr 10) s) line') as [ls line2].
                     destruct ls; [|discriminate R]. apply (IHF _ R). rewrite <- E.
                     rewrite <- chars_split in P. cbn [app map intercalate] in P. rewrite <- P.
                     unfold tokens_of. cbn [flat_map tokens]. now rewrite <- app_assoc.
                 --- destruct e; try discriminate O; cbn [split_lines_loop] in R; apply (IHF _ R); rewrite <- E, tokens_of_app;
                     unfold tokens_of; cbn [flat_map tokens]; now rewrite <- app_assoc.
        -- exists tail. split; [exact T|]. rewrite map_app. cbn [map]. rewrite intercalate_app by discriminate.
           rewrite <- !app_assoc. reflexivity.
    + assert (X : split_lines_loop (e :: es) line = split_lines_loop es (line ++ [e]))
        by (destruct e; try discriminate O; reflexivity).
      rewrite X. destruct (IH (line ++ [e])) as (tail & T & E). exists tail. split; [exact T|].
      rewrite <- E, tokens_of_app. unfold tokens_of. cbn [flat_map]. now rewrite <- app_assoc, app_nil_r.
Qed.

(** joining the lines with newlines gives back the content, up to one trailing newline *)
Theorem C53_split_keeps_content :
  forall es, Forall no_slice es ->
  exists tail, (tail = [] \/ tail = [newline]) /\
  tokens_of es = intercalate [newline] (map tokens_of (SplitElementsPerLine es)) ++ tail.
Proof. intros es F. exact (split_lines_tokens es F []). Qed.
Print Assumptions C53_split_keeps_content.

(** and no line contains a newline *)
Definition clean (e : val) : Prop := match e with StringElement s => ~ In newline (chars s) | _ => True end.
Lemma split_char_clean c : Forall (fun s => ~ In newline (chars s)) (split_char (chr 10) c).
Proof.
  induction c as [|x c IH]; cbn [split_char].
  - constructor; [cbn; tauto|constructor].
  - destruct (Ascii.eqb_spec x (chr 10)) as [->|N].
    + constructor; [cbn; tauto|exact IH].
    + destruct (split_char (chr 10) c) as [|p ps].
      * constructor; [|constructor]. cbn [chars]. intros [H|[]]. apply N. now injection H.
      * inversion IH as [|? ? I1 I2]; subst. constructor; [|exact I2]. cbn [chars]. intros [H|H]; [|tauto].
        apply N. now injection H.
Qed.
Lemma clean_add_part line s : Forall clean line -> ~ In newline (chars s) -> Forall clean (add_part line s).
Proof.
  intros F N. unfold add_part. destruct (String.eqb s ""); [exact F|]. apply Forall_app. split; [exact F|].
  constructor; [exact N|constructor].
Qed.
Lemma split_parts_clean parts : Forall (fun s => ~ In newline (chars s)) parts -> forall line, Forall clean line ->
  Forall (Forall clean) (fst (split_parts parts line)) /\ Forall clean (snd (split_parts parts line)).
Proof.
  induction 1 as [|s parts N F IH]; intros line L; [split; [constructor|exact L]|].
  destruct parts as [|s2 parts].
  - cbn [split_parts fst snd]. split; [constructor|]. now apply clean_add_part.
  - cbn [split_parts]. destruct (IH [] (Forall_nil _)) as [I1 I2]. cbn [split_parts] in I1, I2.
    destruct (match parts with [] => _ | _ => _ end) as [lines line'] eqn:E. cbn [fst snd] in *.
    split; [|exact I2]. constructor; [|exact I1]. now apply clean_add_part.
Qed.
Theorem C53_lines_have_no_newline :
  forall es, Forall (Forall clean) (SplitElementsPerLine es).
Proof.
  intros es. unfold SplitElementsPerLine. assert (L : Forall clean []) by constructor. revert L.
  generalize ([] : list val) as line. induction es as [|e es IH]; intros line L; cbn [split_lines_loop].
  - destruct line; constructor; [exact L|constructor].
  - assert (G : (forall s, e <> StringElement s) -> Forall (Forall clean) (split_lines_loop es (line ++ [e]))).
    { intros NE. apply IH. apply Forall_app. split; [exact L|]. constructor; [|constructor].
      destruct e; try exact I. now specialize (NE content). }
    destruct e; try (apply G; intros ?; discriminate).
    destruct (split_parts_clean _ (split_char_clean content) line L) as [P1 P2].
    destruct (split_parts (split_char (chr 10) content) line) as [ls line']. cbn [fst snd] in *.
    apply Forall_app. split; [exact P1|]. now apply IH.
Qed.
Print Assumptions C53_lines_have_no_newline.

Theorem C53_example :
  SplitElementsPerLine [StringElement ("a" ++ LF ++ LF ++ "b"); Callout 1; StringElement LF; StringElement "c"]
  = [[StringElement "a"]; []; [StringElement "b"; Callout 1]; [StringElement "c"]].
Proof. reflexivity. Qed.

(** inserting at a valid index puts the element there and keeps the others *)
Theorem C53_insert_at :
  forall es e i, e <> VNil -> (0 <= i <= Z.of_nat (List.length es))%Z ->
  exists a b, es = a ++ b /\ Z.of_nat (List.length a) = i /\ InsertAt es e i = Ok (a ++ e :: b).
Proof.
  intros es e i N H. exists (firstn (Z.to_nat i) es), (skipn (Z.to_nat i) es).
  split; [now rewrite firstn_skipn|]. split; [rewrite firstn_length; lia|].
  unfold InsertAt. destruct (Z.ltb_spec i 0); [lia|]. destruct (Z.ltb_spec (Z.of_nat (List.length es)) i); [lia|].
  destruct e; try reflexivity. congruence.
Qed.
Print Assumptions C53_insert_at.
