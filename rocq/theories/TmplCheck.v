(** A checker for templates: whatever the fields, the text produced by the template takes the machine of HtmlMachine from
    one state to another. *)
From Verif Require Import GoBase GoLemmas Attrs Tmpl HtmlSpec HtmlMachine HtmlOps.
Local Open Scope string_scope.

(** what is known of a field: markup, a string without quote and "<", an alignment *)
Inductive kind := KText | KAttr | KAlign.
Definition vok (k : kind) (v : fval) : Prop :=
  match k, v with
  | KText, FS s => bal s
  | KAttr, FS s => safe s
  | KAttr, FL l => Forall (Forall (fun p => safe (snd p))) l
  | KAlign, FS s => s = "<" \/ safe s
  | _, _ => True
  end.
(** the kinds of the fields: [KAttr] unless the table tells otherwise *)
Definition kd (t : list (string * kind)) (f : string) : kind := match mget t f with Some k => k | None => KAttr end.
Definition eok (t : list (string * kind)) (e : fields) : Prop := forall f v, mget e f = Some v -> vok (kd t f) v.
Definition eoks (t : list (string * kind)) (e : fields) : Prop := Forall (fun p => vok (kd t (fst p)) (snd p)) e.
Lemma eoks_eok t e : eoks t e -> eok t e.
Proof. intros H f v G. apply mget_In in G. unfold eoks in H. rewrite Forall_forall in H. exact (H _ G). Qed.

Fixpoint list_eqb (a b : list string) : bool :=
  match a, b with [], [] => true | x :: a, y :: b => String.eqb x y && list_eqb a b | _, _ => false end.
Lemma list_eqb_eq a : forall b, list_eqb a b = true -> a = b.
Proof.
  induction a as [|x a IH]; intros [|y b] H; try discriminate H; [reflexivity|]. cbn [list_eqb] in H. apply andb_true_iff in H as [H1 H2].
  apply String.eqb_eq in H1. subst y. f_equal. auto.
Qed.
Definition cond_eqb (a b : cond) : bool :=
  match a, b with
  | CField f, CField g => String.eqb f g
  | CNot f, CNot g => String.eqb f g
  | COr f, COr g => list_eqb f g
  | CNe f s, CNe g t => String.eqb f g && String.eqb s t
  | CEq f n, CEq g m => String.eqb f g && Z.eqb n m
  | CLen f n, CLen g m => String.eqb f g && Z.eqb n m
  | CLast f n, CLast g m => String.eqb f g && String.eqb n m
  | _, _ => false
  end.
Lemma cond_eqb_eq a b : cond_eqb a b = true -> a = b.
Proof.
  destruct a, b; cbn [cond_eqb]; try discriminate; intros H; try (apply andb_true_iff in H as [H1 H2]; apply String.eqb_eq in H1);
    try apply String.eqb_eq in H; try apply String.eqb_eq in H2; try apply Z.eqb_eq in H2; try apply list_eqb_eq in H; congruence.
Qed.
Definition mode_eqb (a b : mode) : bool :=
  match a, b with
  | MT, MT | ML, ML => true
  | MO n, MO m | MS n, MS m | MA n, MA m | ME n, ME m | MQ n, MQ m | MX n, MX m | MZ n, MZ m | MC n, MC m => String.eqb n m
  | _, _ => false
  end.
Definition state_eqb (a b : state) : bool := mode_eqb (fst a) (fst b) && list_eqb (snd a) (snd b).
Lemma state_eqb_eq a b : state_eqb a b = true -> a = b.
Proof.
  destruct a as [m s], b as [n t]. unfold state_eqb. cbn [fst snd]. intros H. apply andb_true_iff in H as [H1 H2]. apply list_eqb_eq in H2. subst t.
  f_equal. destruct m, n; cbn [mode_eqb] in H1; try discriminate; try reflexivity; apply String.eqb_eq in H1; congruence.
Qed.

(** what is assumed of the fields *)
Definition asm := list (cond * bool).
Definition holds (a : asm) (e : fields) : Prop := Forall (fun p => eval e (fst p) = Ok (snd p)) a.
Fixpoint known (a : asm) (c : cond) : option bool :=
  match a with [] => None | (d, b) :: r => if cond_eqb c d then Some b else known r c end.
Definition decide (a : asm) (c : cond) : option bool :=
  match c with CNot f => option_map negb (known a (CField f)) | _ => known a c end.
Definition assume (a : asm) (c : cond) (b : bool) : asm :=
  match c with CNot f => (CField f, negb b) :: a | _ => (c, b) :: a end.

Definition outs := list (state * asm).
Definition collapse (a : asm) (o : outs) : outs :=
  match o with
  | [] => []
  | (s, _) :: r => if forallb (fun p => state_eqb (fst p) s) r then [(s, a)] else o
  end.
Definition field_ok (k : kind) (m : mode) : bool :=
  match m, k with MT, (KText | KAttr) => true | MQ _, KAttr => true | _, _ => false end.
Definition fn_ok (fn : string) (k : kind) (m : mode) : bool :=
  if String.eqb fn "toLower" then (match k with KAttr => field_ok k m | _ => false end) else
  if String.eqb fn "halign" || String.eqb fn "valign" then (match k, m with (KAlign | KAttr), (MQ _ | MT) => true | _, _ => false end) else
  if String.eqb fn "trimLineFeedSuffix" then field_ok k m else false.

Section Check.
Variable t : list (string * kind).
Fixpoint ck_node (n : node) (a : asm) (s : state) {struct n} : option outs :=
  let fix ck_nodes (ns : list node) (a : asm) (s : state) : option outs :=
    match ns with
    | [] => Some [(s, a)]
    | n :: r =>
        match ck_node n a s with
        | Some os => (fix all (os : outs) : option outs :=
                        match os with
                        | [] => Some []
                        | (s', a') :: q => match ck_nodes r a' s', all q with Some x, Some y => Some (x ++ y)%list | _, _ => None end
                        end) os
        | None => None
        end
    end in
  match n with
  | NLit x => match run s x with Some s' => Some [(s', a)] | None => None end
  | NField f => if field_ok (kd t f) (fst s) then Some [(s, a)] else None
  | NFn fn f => if fn_ok fn (kd t f) (fst s) then Some [(s, a)] else None
  | NIndex f _ => if (match kd t f with KAttr => field_ok KAttr (fst s) | _ => false end) then Some [(s, a)] else None
  | NIf c x y =>
      match decide a c with
      | Some true => ck_nodes x a s
      | Some false => ck_nodes y a s
      | None => match ck_nodes x (assume a c true) s, ck_nodes y (assume a c false) s with
                | Some o1, Some o2 => Some (collapse a (o1 ++ o2)%list)
                | _, _ => None
                end
      end
  | NRange i v f body =>
      if (match kd t f with KAttr => true | _ => false end) && forallb (fun p => negb (has_prefix (fst p) v) && negb (String.eqb (fst p) i)) t then
        match ck_nodes body [] s with
        | Some os => if forallb (fun p => state_eqb (fst p) s) os then Some [(s, a)] else None
        | None => None
        end
      else None
  end.
Fixpoint ck_nodes (ns : list node) (a : asm) (s : state) : option outs :=
  match ns with
  | [] => Some [(s, a)]
  | n :: r =>
      match ck_node n a s with
      | Some os => (fix all (os : outs) : option outs :=
                      match os with
                      | [] => Some []
                      | (s', a') :: q => match ck_nodes r a' s', all q with Some x, Some y => Some (x ++ y)%list | _, _ => None end
                      end) os
      | None => None
      end
  end.
End Check.

(** the template [x], starting in state [s] under assumptions [a], ends in [s'] *)
Definition ck (t : list (string * kind)) (ns : list node) (a : asm) (s s' : state) : bool :=
  match ck_nodes t ns a s with Some os => forallb (fun p => state_eqb (fst p) s') os | None => false end.

(** ** soundness *)
Section NodeInd.
  Variable P : node -> Prop.
  Hypothesis HLit : forall s, P (NLit s).
  Hypothesis HField : forall f, P (NField f).
  Hypothesis HFn : forall fn f, P (NFn fn f).
  Hypothesis HIndex : forall f n, P (NIndex f n).
  Hypothesis HIf : forall c a b, Forall P a -> Forall P b -> P (NIf c a b).
  Hypothesis HRange : forall i v f b, Forall P b -> P (NRange i v f b).
  Fixpoint node_ind' (n : node) : P n :=
    let fix all (l : list node) : Forall P l := match l with [] => Forall_nil P | x :: r => Forall_cons x (node_ind' x) (all r) end in
    match n with
    | NLit s => HLit s | NField f => HField f | NFn fn f => HFn fn f | NIndex f k => HIndex f k
    | NIf c a b => HIf c a b (all a) (all b)
    | NRange i v f b => HRange i v f b (all b)
    end.
End NodeInd.

Section Sound.
Variable t : list (string * kind).
Variable tl : string -> string.
Hypothesis HL : forall x, safe x -> safe (tl x).

Lemma run_field_text s x : bal x -> fst s = MT -> run s x = Some s.
Proof. destruct s as [m st]. cbn [fst]. intros H ->. now apply bal_tt. Qed.
Lemma run_field_safe s x m : safe x -> fst s = m -> field_ok KAttr m = true -> run s x = Some s.
Proof.
  destruct s as [m' st]. cbn [fst]. intros H -> F. destruct m; try discriminate F; [now apply tt_text, safe_text|now apply run_safe_q].
Qed.
Lemma run_kind s x k : field_ok k (fst s) = true -> (k = KText -> bal x) -> (k = KAttr -> safe x) -> run s x = Some s.
Proof.
  intros F HT HA. destruct k.
  - apply run_field_text; [auto|]. destruct (fst s); (reflexivity || discriminate F).
  - eapply run_field_safe; eauto.
  - destruct (fst s); discriminate F.
Qed.
Lemma show_ok k v x : vok k v -> show v = Ok x -> (k = KText -> bal x) /\ (k = KAttr -> safe x).
Proof.
  intros V S. destruct v as [s|n|b|l]; cbn [show] in S; try discriminate S; injection S as <-.
  - split; intros ->; exact V.
  - split; intros ->; [apply bal_text, safe_text|]; apply safe_itoa.
  - split; intros ->; destruct b; reflexivity.
Qed.
Lemma run_align s x : safe x -> match fst s with MQ _ | MT => true | _ => false end = true -> run s x = Some s.
Proof.
  destruct s as [m st]. cbn [fst]. intros H F. destruct m; try discriminate F; [now apply tt_text, safe_text|now apply run_safe_q].
Qed.

Lemma known_holds a e c b : holds a e -> known a c = Some b -> eval e c = Ok b.
Proof.
  unfold holds. induction 1 as [|[d b'] a H Ha IH]; cbn [known]; [discriminate|]. destruct (cond_eqb c d) eqn:E; [|exact IH].
  apply cond_eqb_eq in E. subst d. intros [= ->]. exact H.
Qed.
Lemma not_field e f : eval e (CNot f) = (do b <- eval e (CField f); Ok (negb b)).
Proof. cbn [eval]. destruct (field e f); reflexivity. Qed.
Lemma decide_holds a e c b : holds a e -> decide a c = Some b -> eval e c = Ok b.
Proof.
  intros H D. destruct c; cbn [decide] in D; try (now apply (known_holds a)).
  destruct (known a (CField f)) as [b'|] eqn:K; [|discriminate D]. injection D as <-. apply (known_holds a e) in K; [|exact H].
  rewrite not_field, K. reflexivity.
Qed.
Lemma assume_holds a e c b : holds a e -> eval e c = Ok b -> holds (assume a c b) e.
Proof.
  intros H D. destruct c; cbn [assume]; try (constructor; [exact D|exact H]). constructor; [|exact H]. cbn [fst snd].
  rewrite not_field in D. destruct (eval e (CField f)); [|discriminate D..]. injection D as <-. now rewrite negb_involutive.
Qed.
Lemma collapse_in a (e : fields) o s' a' : In (s', a') o -> holds a e -> holds a' e -> exists a'', In (s', a'') (collapse a o) /\ holds a'' e.
Proof.
  intros I H H'. destruct o as [|[s0 a0] r]; [destruct I|]. cbn [collapse].
  destruct (forallb (fun p => state_eqb (fst p) s0) r) eqn:F; [|exists a'; auto]. exists a. split; [|exact H]. left. f_equal.
  destruct I as [I|I]; [now injection I|]. rewrite forallb_forall in F. apply F in I. cbn [fst] in I. apply state_eqb_eq in I. now subst.
Qed.

Lemma field_get e f v : field e f = Ok v -> mget e f = Some v.
Proof. unfold field. destruct (mget e f); [intros [= ->]; reflexivity|discriminate]. Qed.

Definition sound_nodes (ns : list node) : Prop := forall e a s os x, eok t e -> holds a e -> ck_nodes t ns a s = Some os ->
  exec_nodes tl ns e = Ok x -> exists s' a', In (s', a') os /\ run s x = Some s' /\ holds a' e.
Definition sound_node (n : node) : Prop := forall e a s os x, eok t e -> holds a e -> ck_node t n a s = Some os ->
  exec_node tl n e = Ok x -> exists s' a', In (s', a') os /\ run s x = Some s' /\ holds a' e.

Lemma nodes_of_node ns : Forall sound_node ns -> sound_nodes ns.
Proof.
  induction 1 as [|n ns H Hs IH]; intros e a s os x He Ha C X.
  - cbn [ck_nodes] in C. injection C as <-. cbn [exec_nodes] in X. injection X as <-. exists s, a. split; [now left|]. now split.
  - cbn [exec_nodes] in X. destruct (exec_node tl n e) as [x1| |] eqn:X1; [|discriminate X..]. cbn [bind] in X.
    destruct (exec_nodes tl ns e) as [x2| |] eqn:X2; [|discriminate X..]. cbn [bind] in X. injection X as <-.
    cbn [ck_nodes] in C. destruct (ck_node t n a s) as [o1|] eqn:C1; [|discriminate C].
    destruct (H e a s o1 x1 He Ha C1 X1) as (s1 & a1 & I1 & R1 & Ha1).
    assert (G : exists o2, ck_nodes t ns a1 s1 = Some o2 /\ incl o2 os).
    { clear - C I1. revert os C. induction o1 as [|[s' a'] q IHq]; [destruct I1|]. intros os C.
      destruct (ck_nodes t ns a' s') as [y|] eqn:Y; [|discriminate C].
      match type of C with context [?g q] => destruct (g q) as [z|] eqn:Z; [|discriminate C] end. injection C as <-.
      destruct I1 as [I1|I1]; [injection I1 as -> ->; exists y; split; [exact Y|apply incl_appl, incl_refl]|].
      destruct (IHq I1 z eq_refl) as (o2 & O & I). exists o2. split; [exact O|]. now apply incl_appr. }
    destruct G as (o2 & C2 & I2). destruct (IH e a1 s1 o2 x2 He Ha1 C2 X2) as (s2 & a2 & J & R2 & Ha2).
    exists s2, a2. split; [now apply I2|]. split; [now apply (run_app_ok s s1 s2)|exact Ha2].
Qed.

Lemma mget_app_some {A} (l m : list (string * A)) f v : mget (l ++ m)%list f = Some v -> mget l f = Some v \/ (mget l f = None /\ mget m f = Some v).
Proof. induction l as [|[k w] l IH]; cbn [app mget]; [auto|]. destruct (String.eqb f k); [auto|exact IH]. Qed.
Lemma eok_bind e i v n elt : eok t e -> Forall (fun p => safe (snd p)) elt ->
  forallb (fun p => negb (has_prefix (fst p) v) && negb (String.eqb (fst p) i)) t = true -> eok t (bind_elt i v n elt e).
Proof.
  intros He Hs Ht f x G. rewrite forallb_forall in Ht. unfold bind_elt in G. apply mget_app_some in G as [G|[_ G]].
  - apply mget_In in G. apply in_map_iff in G as ([k y] & [= <- <-] & I). rewrite Forall_forall in Hs. apply Hs in I. cbn [fst snd] in *.
    assert (K : kd t (v ++ k) = KAttr).
    { unfold kd. destruct (mget t (v ++ k)) as [k'|] eqn:M; [|reflexivity]. apply mget_In in M. apply Ht in M. cbn [fst] in M.
      apply andb_true_iff in M as [M _]. assert (P : has_prefix (v ++ k) v = true) by (apply has_prefix_iff; eauto). rewrite P in M. discriminate M. }
    rewrite K. exact I.
  - cbn [mget] in G. destruct (String.eqb_spec f i) as [->|N].
    + injection G as <-. assert (K : kd t i = KAttr).
      { unfold kd. destruct (mget t i) as [k'|] eqn:M; [|reflexivity]. apply mget_In in M. apply Ht in M. cbn [fst] in M.
        apply andb_true_iff in M as [_ M]. rewrite String.eqb_refl in M. discriminate M. }
      rewrite K. exact I.
    + now apply He.
Qed.

Lemma sound_all n : sound_node n.
Proof.
  induction n as [y|f|fn f|f n|c A B HA HB|i v f b Hb] using node_ind'; intros e a s os x He Ha C X.
  - cbn [ck_node] in C. cbn [exec_node] in X. injection X as <-. destruct (run s y) as [s'|] eqn:R; [|discriminate C]. injection C as <-.
    exists s', a. split; [now left|]. auto.
  - cbn [ck_node] in C. destruct (field_ok (kd t f) (fst s)) eqn:F; [|discriminate C]. injection C as <-. exists s, a. split; [now left|]. split; [|exact Ha].
    cbn [exec_node] in X. destruct (field e f) as [w| |] eqn:W; [|discriminate X..]. cbn [bind] in X. apply field_get, He in W.
    destruct (show_ok _ _ _ W X). eapply run_kind; eauto.
  - cbn [ck_node] in C. destruct (fn_ok fn (kd t f) (fst s)) eqn:F; [|discriminate C]. injection C as <-. exists s, a. split; [now left|]. split; [|exact Ha].
    cbn [exec_node] in X. destruct (field e f) as [w| |] eqn:W; [|discriminate X..]. cbn [bind] in X. apply field_get, He in W.
    unfold call in X. destruct w as [w| | |]; try discriminate X. unfold fn_ok in F.
    destruct (String.eqb fn "toLower").
    { injection X as <-. destruct (kd t f); try discriminate F. eapply run_kind; [exact F|discriminate|intros _; apply HL; exact W]. }
    assert (SA : (w = "<" \/ safe w) -> safe (halign w) /\ safe (valign w)).
    { intros S. unfold halign, valign. destruct (String.eqb_spec w "<"); [split; reflexivity|]. destruct (String.eqb w "^"); [split; reflexivity|].
      destruct (String.eqb w ">"); [split; reflexivity|]. destruct S; [congruence|auto]. }
    destruct (String.eqb fn "halign"); [|destruct (String.eqb fn "valign")]; cbn [orb] in F.
    1,2: injection X as <-; apply run_align; [apply SA; destruct (kd t f); cbn [vok] in W; auto; discriminate F|
         destruct (kd t f); try discriminate F; destruct (fst s); auto].
    destruct (String.eqb fn "trimLineFeedSuffix"); [|discriminate X]. injection X as <-. eapply run_kind; [exact F| |].
    + intros K. rewrite K in W. apply (tt_trim_suffix LF [] []); [reflexivity|exact W].
    + intros K. rewrite K in W. now apply all_trim_suffix.
  - cbn [ck_node] in C. destruct (kd t f) eqn:K; try discriminate C. destruct (field_ok KAttr (fst s)) eqn:F; [|discriminate C]. injection C as <-.
    exists s, a. split; [now left|]. split; [|exact Ha].
    cbn [exec_node] in X. destruct (field e f) as [w| |] eqn:W; [|discriminate X..]. cbn [bind] in X. apply field_get, He in W. rewrite K in W.
    destruct w as [| | |l]; try discriminate X. destruct (nth_error l n) as [elt|] eqn:N; [|discriminate X].
    destruct (mget elt "") as [y|] eqn:M; [|discriminate X]. injection X as <-. apply nth_error_In in N. cbn [vok] in W. rewrite Forall_forall in W.
    apply W in N. rewrite Forall_forall in N. apply mget_In in M. apply N in M. eapply run_kind; [exact F|discriminate|auto].
  - apply nodes_of_node in HA, HB.
    change (ck_node t (NIf c A B) a s) with
      (match decide a c with
       | Some true => ck_nodes t A a s | Some false => ck_nodes t B a s
       | None => match ck_nodes t A (assume a c true) s, ck_nodes t B (assume a c false) s with
                 | Some o1, Some o2 => Some (collapse a (o1 ++ o2)%list) | _, _ => None end
       end) in C.
    change (exec_node tl (NIf c A B) e) with (do t <- eval e c; if t then exec_nodes tl A e else exec_nodes tl B e) in X.
    destruct (decide a c) as [b|] eqn:D.
    { rewrite (decide_holds a e c b Ha D) in X. cbn [bind] in X. destruct b; [eapply HA|eapply HB]; eauto. }
    destruct (eval e c) as [b| |] eqn:Ev; [|discriminate X..]. cbn [bind] in X.
    destruct (ck_nodes t A (assume a c true) s) as [o1|] eqn:C1; [|discriminate C].
    destruct (ck_nodes t B (assume a c false) s) as [o2|] eqn:C2; [|discriminate C]. injection C as <-.
    destruct b.
    + destruct (HA e _ s o1 x He (assume_holds a e c true Ha Ev) C1 X) as (s' & a' & I' & R & Ha').
      destruct (collapse_in a e (o1 ++ o2)%list s' a') as (a'' & I'' & Ha''); auto; [apply in_or_app; now left|]. exists s', a''. auto.
    + destruct (HB e _ s o2 x He (assume_holds a e c false Ha Ev) C2 X) as (s' & a' & I' & R & Ha').
      destruct (collapse_in a e (o1 ++ o2)%list s' a') as (a'' & I'' & Ha''); auto; [apply in_or_app; now right|]. exists s', a''. auto.
  - apply nodes_of_node in Hb.
    change (ck_node t (NRange i v f b) a s) with
      (if (match kd t f with KAttr => true | _ => false end) && forallb (fun p => negb (has_prefix (fst p) v) && negb (String.eqb (fst p) i)) t then
         match ck_nodes t b [] s with
         | Some os => if forallb (fun p => state_eqb (fst p) s) os then Some [(s, a)] else None | None => None end
       else None) in C.
    destruct ((match kd t f with KAttr => true | _ => false end) && forallb (fun p => negb (has_prefix (fst p) v) && negb (String.eqb (fst p) i)) t) eqn:B; [|discriminate C].
    apply andb_true_iff in B as [B1 B2]. destruct (kd t f) eqn:K; try discriminate B1.
    destruct (ck_nodes t b [] s) as [o1|] eqn:C1; [|discriminate C]. destruct (forallb (fun p => state_eqb (fst p) s) o1) eqn:F; [|discriminate C]. injection C as <-.
    exists s, a. split; [now left|]. split; [|exact Ha].
    cbn [exec_node] in X. destruct (field e f) as [w| |] eqn:W; [|discriminate X..]. cbn [bind] in X. apply field_get, He in W. rewrite K in W.
    destruct w as [| | |l]; try discriminate X. cbn [vok] in W.
    match type of X with ?g l 0 = _ => assert (G : forall l k, g l k = exec_range tl i v b e l k) by
      (clear; induction l as [|elt l IH]; intros k; [reflexivity|]; cbn [exec_range]; rewrite <- IH; reflexivity); rewrite G in X; clear G end.
    revert X. generalize 0 as k. revert x. induction W as [|elt l We Wl IHl]; intros x k X; cbn [exec_range] in X.
    { injection X as <-. reflexivity. }
    destruct (exec_nodes tl b (bind_elt i v k elt e)) as [x1| |] eqn:X1; [|discriminate X..]. cbn [bind] in X.
    destruct (exec_range tl i v b e l (S k)) as [x2| |] eqn:X2; [|discriminate X..]. cbn [bind] in X. injection X as <-.
    destruct (Hb _ [] s o1 x1 (eok_bind e i v k elt He We B2) (Forall_nil _) C1 X1) as (s' & a' & I' & R & _).
    rewrite forallb_forall in F. apply F in I'. cbn [fst] in I'. apply state_eqb_eq in I'. subst s'. eapply run_app_ok; [exact R|]. eauto.
Qed.

Theorem ck_sound ns e a s s' x : ck t ns a s s' = true -> eok t e -> holds a e -> exec_nodes tl ns e = Ok x -> run s x = Some s'.
Proof.
  intros C He Ha X. unfold ck in C. destruct (ck_nodes t ns a s) as [os|] eqn:O; [|discriminate C].
  destruct (nodes_of_node ns (proj2 (Forall_forall _ _) (fun n _ => sound_all n)) e a s os x He Ha O X) as (s1 & a1 & I1 & R & _).
  rewrite forallb_forall in C. apply C in I1. cbn [fst] in I1. apply state_eqb_eq in I1. now subst.
Qed.
End Sound.
