(** Property C22: placeholders. *)
From Verif Require Import FootnotesSpec GoBase GoLemmas Types Utf8 Utf8Lemmas Elements Refs RefsSpec.

(** digits of a reference *)
Lemma digits_fuel_digits fuel : forall n acc rs, acc = encode_runes rs -> Forall (fun r => digit r = true) rs ->
  (rs <> [] \/ (0 < fuel)%nat) ->
  exists rs', digits_fuel fuel n acc = encode_runes rs' /\ Forall (fun r => digit r = true) rs' /\ rs' <> [].
Proof.
  induction fuel as [|f IH]; intros n acc rs E F N; cbn [digits_fuel].
  - exists rs. repeat split; auto. destruct N; [auto|lia].
  - assert (D : exists rs', String (digit_ascii (n mod 10)) acc = encode_runes rs' /\
                 Forall (fun r => digit r = true) rs' /\ rs' <> []).
    { assert (M : (n mod 10 < 10)%N) by (apply N.mod_lt; lia).
      exists ((48 + n mod 10)%N :: rs). split; [|split; [|discriminate]].
      - unfold encode_runes. cbn [map sconcat fold_right]. unfold encode_rune.
        destruct (N.ltb_spec (48 + n mod 10) 128); [|lia]. cbn [append]. unfold digit_ascii, chr.
        now rewrite E.
      - constructor; [|exact F]. unfold digit. lia. }
    destruct D as (rs' & E' & F' & N').
    destruct (n <? 10)%N.
    + exists rs'. auto.
    + apply (IH _ _ rs' E' F'). now left.
Qed.
Lemma itoaN_digits n : exists ds, itoaN n = encode_runes ds /\ Forall (fun r => digit r = true) ds /\ ds <> [].
Proof. unfold itoaN. apply digits_fuel_digits with (rs := []); [reflexivity|constructor|right; lia]. Qed.

Lemma digit_valid r : digit r = true -> valid_rune r = true.
Proof. unfold digit, valid_rune. lia. Qed.

Lemma span_app ds t : Forall (fun r => digit r = true) ds -> (match t with r :: _ => digit r = false | [] => True end) ->
  span_digits (ds ++ t) = (ds, t).
Proof.
  induction 1 as [|r ds D F IH]; intros T; cbn [app span_digits].
  - destruct t as [|r t]; [reflexivity|]. cbn [span_digits]. now rewrite T.
  - rewrite D, IH by exact T. reflexivity.
Qed.

Lemma scan_text_runes rs : Forall (fun r => r <> 65533%N) rs -> forall t,
  scan (List.length (rs ++ t)) (rs ++ t) = map Text rs ++ scan (List.length t) t.
Proof.
  induction 1 as [|r rs N F IH]; intros t; [reflexivity|]. cbn [app List.length scan map].
  destruct (N.eqb_spec r 65533); [contradiction|]. now rewrite IH.
Qed.
Lemma scan_more : forall n m rs, (List.length rs <= n)%nat -> (List.length rs <= m)%nat -> scan n rs = scan m rs.
Proof.
  induction n as [|n IH]; intros m rs H1 H2.
  - destruct rs; [|cbn in H1; lia]. now destruct m.
  - destruct m as [|m]; [destruct rs; [reflexivity|cbn in H2; lia]|].
    destruct rs as [|r t]; [reflexivity|]. cbn [scan List.length] in *.
    assert (S : forall ds u, span_digits t = (ds, u) -> (List.length u <= List.length t)%nat).
    { clear. induction t as [|x t IH]; intros ds u E; cbn in E.
      - injection E as <- <-. cbn. lia.
      - destruct (digit x).
        + destruct (span_digits t) as [d v] eqn:Q. injection E as <- <-. specialize (IH _ _ eq_refl). cbn. lia.
        + injection E as <- <-. cbn. lia. }
    destruct (r =? 65533)%N; [|f_equal; apply IH; lia].
    destruct (span_digits t) as [ds u] eqn:Q. specialize (S _ _ eq_refl).
    destruct ds as [|d ds]; [f_equal; apply IH; lia|].
    destruct u as [|x u]; [f_equal; apply IH; lia|].
    assert (G1 : scan n u = scan m u) by (apply IH; cbn in S; lia).
    assert (G2 : scan n t = scan m t) by (apply IH; lia).
    destruct x as [|p]; [now rewrite G2|]. rewrite G1, G2. reflexivity.
Qed.
Lemma scan_hole ds t : Forall (fun r => digit r = true) ds -> ds <> [] ->
  scan (List.length (65533%N :: ds ++ 65533%N :: t)) (65533%N :: ds ++ 65533%N :: t) =
  Hole (encode_runes ds) :: scan (List.length t) t.
Proof.
  intros D N. cbn [List.length scan]. change (65533 =? 65533)%N with true. cbv iota.
  rewrite span_app by (auto; reflexivity). destruct ds as [|d ds]; [congruence|].
  f_equal. apply scan_more; [|lia]. rewrite app_length. cbn [List.length]. lia.
Qed.

Lemma runes_FFFD t : runes (FFFD ++ t)%string = 65533%N :: runes t.
Proof. apply runes_cons. reflexivity. Qed.

(** the elements numbered from [seq]+1 *)
Lemma serialize_keys es : forall seq k v, In (k, v) (snd (serialize_loop seq es)) ->
  exists n, (seq < n)%N /\ k = itoaN n.
Proof.
  induction es as [|e es IH]; intros seq k v I; [destruct I|].
  assert (G : forall ph, ph = snd (serialize_loop seq es) \/ ph = (itoaN (seq + 1), e) :: snd (serialize_loop (seq + 1) es) ->
     In (k, v) ph -> exists n, (seq < n)%N /\ k = itoaN n).
  { intros ph [->| ->] J; [now apply (IH seq k v)|]. destruct J as [J|J].
    - injection J as <- _. exists (seq + 1)%N. split; [lia|reflexivity].
    - destruct (IH _ _ _ J) as (n & L & ->). exists n. split; [lia|reflexivity]. }
  apply (G (snd (serialize_loop seq (e :: es)))); [|exact I].
  cbn [serialize_loop]. destruct e; destruct (serialize_loop seq es), (serialize_loop (seq + 1) es); cbn; auto.
Qed.

Definition text_of (e : val) : option string :=
  match e with RawLine s | VStr s | StringElement s | SpecialCharacter s => Some s | _ => None end.
Lemma serialize_loop_eq seq e r : serialize_loop seq (e :: r) =
  match text_of e with
  | Some s => ((s ++ fst (serialize_loop seq r))%string, snd (serialize_loop seq r))
  | None => ((placeholder_string (itoaN (seq + 1)) ++ fst (serialize_loop (seq + 1) r))%string,
             (itoaN (seq + 1), e) :: snd (serialize_loop (seq + 1) r))
  end.
Proof.
  cbn [serialize_loop]. destruct e; cbn [text_of];
  destruct (serialize_loop seq r), (serialize_loop (seq + 1) r); reflexivity.
Qed.
Lemma pieces_cons e r : pieces (e :: r) =
  (match text_of e with Some s => map Text (runes s) | None => [Element e] end) ++ pieces r.
Proof. unfold pieces. cbn [flat_map]. f_equal. destruct e; reflexivity. Qed.

Definition fill (look : string -> val) (p : piece) : piece :=
  match p with Hole ref => Element (look ref) | _ => p end.
Definition lookup (ph : list (string * val)) (ref : string) : val :=
  match mget ph ref with Some v => v | None => VNil end.

Lemma scan_serialize es : Forall (fun e => match text_of e with Some s => clean_text s | None => True end) es ->
  forall seq ph,
  (forall k v, In (k, v) (snd (serialize_loop seq es)) -> lookup ph k = v) ->
  map (fill (lookup ph)) (scan_text (fst (serialize_loop seq es))) = pieces es.
Proof.
  induction 1 as [|e es C F IH]; intros seq ph L; [reflexivity|].
  rewrite serialize_loop_eq in *. rewrite pieces_cons. destruct (text_of e) as [s|]; cbn [fst snd] in *.
  - destruct C as (rs & -> & V).
    assert (V1 : Forall (fun r => valid_rune r = true) rs) by (eapply Forall_impl; [|exact V]; intros ? [? ?]; assumption).
    assert (V2 : Forall (fun r => r <> 65533%N) rs) by (eapply Forall_impl; [|exact V]; intros ? [? ?]; assumption).
    unfold scan_text. rewrite runes_encode by exact V1. rewrite scan_text_runes by exact V2.
    rewrite map_app, runes_encode_all by exact V1. f_equal.
    + clear. induction rs; cbn; congruence.
    + now apply IH.
  - destruct (itoaN_digits (seq + 1)) as (ds & E & D & N).
    assert (V1 : Forall (fun r => valid_rune r = true) ds) by (eapply Forall_impl; [|exact D]; intros; now apply digit_valid).
    unfold scan_text, placeholder_string. rewrite sapp_assoc, runes_FFFD, E, sapp_assoc.
    rewrite runes_encode by exact V1. rewrite runes_FFFD. rewrite scan_hole by assumption. cbn [map fill app].
    f_equal.
    + f_equal. apply L. left. now rewrite E.
    + apply (IH (seq + 1)%N ph). intros k v I. apply L. now right.
Qed.

(** the numbered elements are found again under their numbers *)
Lemma lookup_own es : forall seq k v, In (k, v) (snd (serialize_loop seq es)) ->
  lookup (snd (serialize_loop seq es)) k = v.
Proof.
  induction es as [|e es IH]; intros seq k v I; [destruct I|].
  rewrite serialize_loop_eq in *. destruct (text_of e); cbn [snd] in *; [now apply IH|].
  destruct I as [I|I].
  - injection I as <- <-. unfold lookup. cbn [mget]. now rewrite String.eqb_refl.
  - destruct (serialize_keys _ _ _ _ I) as (n & Ln & ->). unfold lookup. cbn [mget].
    destruct (String.eqb_spec (itoaN n) (itoaN (seq + 1))) as [E|E].
    + apply itoaN_inj in E. lia.
    + now apply IH.
Qed.

(** ** C22: content without the replacement character, serialised, read back as text and placeholders, and
    restored, shows the same pieces (text characters and elements) in the same places *)
Definition parsed_piece (p : piece) : val :=
  match p with Text r => StringElement (encode_rune r) | Hole ref => ElementPlaceHolder ref | Element v => v end.

Lemma mapM_ok {A B} (f : A -> result B) (g : A -> B) l :
  (forall x, In x l -> f x = Ok (g x)) -> mapM f l = Ok (map g l).
Proof.
  induction l as [|x l IH]; intros H; cbn [mapM map]; [reflexivity|].
  rewrite H by now left. cbn [bind]. rewrite IH; [reflexivity|]. intros y Hy. apply H. now right.
Qed.

Theorem C22_round_trip :
  forall es, Forall (fun e => match text_of e with Some s => clean_text s | None => True end) es ->
  exists text ph es', serialize (VSlice es) = Ok (text, ph) /\
    restore 2 ph (map parsed_piece (scan_text text)) = Ok es' /\ pieces es' = pieces es.
Proof.
  intros es F. exists (fst (serialize_loop 0 es)), (snd (serialize_loop 0 es)).
  set (ph := snd (serialize_loop 0 es)).
  assert (SC : map (fill (lookup ph)) (scan_text (fst (serialize_loop 0 es))) = pieces es).
  { apply scan_serialize; [exact F|]. intros k v I. now apply lookup_own. }
  set (ps := scan_text (fst (serialize_loop 0 es))) in *.
  assert (NE : Forall (fun p => match p with Element _ => False | Text r => valid_rune r = true | Hole _ => True end) ps).
  { apply Forall_forall. intros p Hp. 
    assert (H : In (fill (lookup ph) p) (pieces es)) by (rewrite <- SC; now apply in_map).
    destruct p as [r| |v]; [|exact I|].
    - cbn in H. clear -H F. induction F as [|e es C F IH]; [destruct H|]. rewrite pieces_cons in H.
      apply in_app_or in H. destruct H as [H|H]; [|auto]. destruct (text_of e) as [s|].
      + destruct C as (rs & -> & V). rewrite runes_encode_all in H.
        * apply in_map_iff in H. destruct H as (r' & [= ->] & I). rewrite Forall_forall in V. now apply V.
        * eapply Forall_impl; [|exact V]. intros ? [? ?]; assumption.
      + destruct H as [H|[]]. discriminate.
    - (* scan yields no Element *)
      clear -Hp. unfold ps, scan_text in Hp. revert Hp. generalize (runes (fst (serialize_loop 0 es))) at 2 as rs.
      generalize (List.length (runes (fst (serialize_loop 0 es)))) as n. induction n as [|n IH]; intros rs Hp.
      + destruct rs; destruct Hp.
      + destruct rs as [|r t]; [destruct Hp|]. cbn [scan] in Hp.
        destruct (r =? 65533)%N.
        * destruct (span_digits t) as [[|d ds] u]; [destruct Hp as [Hp|Hp]; [discriminate|eauto]|].
          destruct u as [|[|q] u]; try (destruct Hp as [Hp|Hp]; [discriminate|eauto]).
          repeat (destruct q as [q|q|]; try (destruct Hp as [Hp|Hp]; [discriminate|eauto])).
        * destruct Hp as [Hp|Hp]; [discriminate|eauto]. }
  exists (map (fun p => parsed_piece (fill (lookup ph) p)) ps).
  split; [cbn [serialize]; now destruct (serialize_loop 0 es)|]. split.
  - unfold restore at 1. rewrite (mapM_ok _ (fun v => match v with ElementPlaceHolder ref => lookup ph ref | _ => v end)).
    + f_equal. rewrite map_map. apply map_ext_in. intros p Hp. rewrite Forall_forall in NE. specialize (NE p Hp).
      destruct p; [reflexivity|reflexivity|destruct NE].
    + intros v Hv. apply in_map_iff in Hv. destruct Hv as (p & <- & Hp). rewrite Forall_forall in NE. specialize (NE p Hp).
      destruct p; [reflexivity|reflexivity|destruct NE].
  - rewrite <- SC.
    assert (ND : forall v, In (Element v) (pieces es) -> text_of v = None).
    { clear. induction es as [|e es IH]; intros v H; [destruct H|]. rewrite pieces_cons in H. apply in_app_or in H.
      destruct H as [H|H]; [|auto]. destruct (text_of e) eqn:E.
      - apply in_map_iff in H. destruct H as (x & H & _). discriminate.
      - destruct H as [H|[]]. injection H as <-. exact E. }
    rewrite <- SC in ND. clear SC. induction ps as [|p ps IH]; [reflexivity|].
    inversion NE as [|? ? N1 N2]; subst. cbn [map]. rewrite pieces_cons.
    rewrite IH; [|exact N2|intros v Hv; apply ND; now right].
    destruct p as [r|ref|v]; [| |destruct N1].
    + cbn [fill parsed_piece text_of].
      replace (runes (encode_rune r)) with [r].
      * reflexivity.
      * rewrite <- (sapp_nil_r (encode_rune r)), runes_cons by exact N1. reflexivity.
    + cbn [fill parsed_piece]. rewrite ND; [reflexivity|]. left. reflexivity.
Qed.
Print Assumptions C22_round_trip.

(** whatever the parser builds from text and placeholders with (nested) quoted text, every placeholder is
    replaced by its element *)
Inductive quoted_tree : val -> Prop :=
| qt_quoted k es a : Forall quoted_tree es -> quoted_tree (QuotedText k es a)
| qt_leaf v : getElements v = None -> quoted_tree v.
Lemma restore_fuel ph : forall fuel es, (sizes es < fuel)%nat -> Forall quoted_tree es ->
  restore fuel ph es = Ok (map (filled (lookup ph)) es).
Proof.
  induction fuel as [|f IH]; intros es H F; [lia|]. cbn [restore]. apply mapM_ok. intros e He.
  rewrite Forall_forall in F. specialize (F e He). apply in_sizes in He.
  inversion F as [k es' a Q|v G]; subst.
  - cbn [getElements]. rewrite IH.
    + cbn [bind setElements set_elements filled]. reflexivity.
    + cbn [vsize] in He. fold sizes asizes in He. lia.
    + exact Q.
  - destruct e; cbn [getElements] in *; try discriminate; reflexivity.
Qed.
Theorem C22_restored_at_every_depth :
  forall ph es, Forall quoted_tree es ->
  restore (S (sizes es)) ph es = Ok (map (filled (lookup ph)) es).
Proof. intros ph es F. apply restore_fuel; [lia|exact F]. Qed.
Print Assumptions C22_restored_at_every_depth.

(** user text that looks like a placeholder is taken for one *)
Theorem C22_collision_refuted :
  exists es text ph es', serialize (VSlice es) = Ok (text, ph) /\
    restore 2 ph (map parsed_piece (scan_text text)) = Ok es' /\ pieces es' <> pieces es.
Proof.
  exists [StringElement (placeholder_string "1"); LineBreak].
  eexists _, _, [LineBreak; LineBreak]. split; [reflexivity|]. split; [reflexivity|]. cbn. discriminate.
Qed.
Print Assumptions C22_collision_refuted.

(** what the parser puts elsewhere than in quoted text is not restored: in an index term (parser.peg:1291), in the quoted text of a
    footnote (parser.peg:1341-1352) *)
Theorem C22_index_term_refuted :
  (forall ph v, getElements v = None -> (forall r, v <> ElementPlaceHolder r) -> restore (S (sizes [v])) ph [v] = Ok [v]) /\
  Forall (fun v => getElements v = None /\ occurs (ElementPlaceHolder "1") v)
    [IndexTerm [ElementPlaceHolder "1"]; Footnote 0 (VStr "") [QuotedText "*" [ElementPlaceHolder "1"] []]].
Proof.
  split.
  - intros ph v G N. rewrite restore_fuel; [|lia|constructor; [now apply qt_leaf|constructor]].
    cbn [map]. destruct v; try reflexivity; try discriminate. now destruct (N ref).
  - repeat constructor.
    + eapply occurs_child; [now left|]. constructor.
    + eapply occurs_child; [cbn; right; left; reflexivity|]. eapply occurs_child; [cbn; left; reflexivity|]. constructor.
Qed.
Print Assumptions C22_index_term_refuted.

Theorem C22_example_hyp :
  let es := [StringElement "ab"; LineBreak; SpecialCharacter "<"; Callout 3; QuotedText "*" [StringElement "x"] []] in
  Forall (fun e => match text_of e with Some s => clean_text s | None => True end) es /\
  fst (serialize_loop 0 es) = ("ab" ++ FFFD ++ "1" ++ FFFD ++ "<" ++ FFFD ++ "2" ++ FFFD ++ FFFD ++ "3" ++ FFFD)%string.
Proof.
  cbn zeta. split; [|reflexivity]. repeat constructor; cbn.
  - exists [97%N; 98%N]. split; [reflexivity|]. repeat constructor; discriminate.
  - exists [60%N]. split; [reflexivity|]. repeat constructor; discriminate.
Qed.
