(** Which fields of a template are always shown, in which order. *)
From Verif Require Import GoBase GoLemmas Attrs Templates Tmpl HtmlTmpl TextSpec.

Lemma appear_ctx l : forall x out, appear l out -> appear l (x ++ out)%string.
Proof. destruct l as [|s l]; intros x out H; [exact I|]. destruct H as (a & b & -> & H). exists (x ++ a)%string, b. split; [now rewrite sapp_assoc|exact H]. Qed.
Lemma appear_after l : forall out y, appear l out -> appear l (out ++ y)%string.
Proof.
  induction l as [|s l IH]; intros out y H; [exact I|]. destruct H as (a & b & -> & H). exists a, (b ++ y)%string. split; [now rewrite !sapp_assoc|now apply IH].
Qed.
Lemma appear_app l : forall l' a b, appear l a -> appear l' b -> appear (l ++ l') (a ++ b)%string.
Proof.
  induction l as [|s l IH]; intros l' a b H H'; [now apply appear_ctx|]. destruct H as (u & v & -> & H). cbn [app appear].
  exists u, (v ++ b)%string. split; [now rewrite !sapp_assoc|now apply IH].
Qed.
Lemma appear_prefix l l' out : appear (l ++ l') out -> appear l out.
Proof. revert out. induction l as [|s l IH]; intros out H; [exact I|]. destruct H as (a & b & -> & H). exists a, b. split; [reflexivity|eauto]. Qed.
Lemma appear_suffix l l' out : appear (l ++ l') out -> appear l' out.
Proof. revert out. induction l as [|s l IH]; intros out H; [exact H|]. destruct H as (a & b & -> & H). rewrite <- sapp_assoc. apply appear_ctx. eauto. Qed.
Lemma appear_one s : appear [s] s.
Proof. exists "", "". split; [now rewrite sapp_nil_r|exact I]. Qed.
(** pieces of pieces *)
Lemma appear_in ll : forall l out, Forall2 appear ll l -> appear l out -> appear (List.concat ll) out.
Proof.
  induction ll as [|p ll IH]; intros l out F H; inversion F as [|? ? ? ? P F']; subst; [exact I|]. destruct H as (a & b & -> & H). cbn [List.concat].
  apply appear_ctx, appear_app; [exact P|eauto].
Qed.
Lemma appear_empty l out : appear l out -> appear ("" :: l) out.
Proof. intros H. exists "", out. split; [reflexivity|exact H]. Qed.

(** ** the checker *)
Definition skip (f : string) (fs : list string) : list string :=
  match fs with g :: r => if String.eqb f g then r else fs | [] => [] end.
Definition skips (l fs : list string) : list string := fold_left (fun fs f => skip f fs) l fs.
Definition longer (a b : list string) : list string := if (List.length a <=? List.length b)%nat then b else a.
(** the fields that are left to be shown after the nodes; when a condition says that a field is empty, it needs not be shown *)
Section Checker.
(** the fields known to be true (not empty) *)
Variable ne : list string.
Fixpoint left_after (n : node) (fs : list string) {struct n} : list string :=
  let fix go (ns : list node) (fs : list string) : list string := match ns with [] => fs | n :: r => go r (left_after n fs) end in
  match n with
  | NField f => skip f fs
  | NIf (CField f) a b => if existsb (String.eqb f) ne then go a fs else longer (go a fs) (go b (skip f fs))
  | NIf (CNot f) a b => longer (go a (skip f fs)) (go b fs)
  | NIf (COr l) a b => longer (go a fs) (go b (skips l fs))
  | NIf _ a b => longer (go a fs) (go b fs)
  | _ => fs
  end.
Fixpoint left_all (ns : list node) (fs : list string) : list string := match ns with [] => fs | n :: r => left_all r (left_after n fs) end.
End Checker.

Section Sound.
Variable toLower : string -> string.
Variable e : fields.
Variable ne : list string.
Notation left_after := (left_after ne).
Notation left_all := (left_all ne).
Hypothesis known : forall f, In f ne -> exists v, mget e f = Some v /\ truth v = true.
Definition svalue (f : string) : string := match mget e f with Some (FS s) => s | _ => "" end.
Notation values := (map svalue).

(** [shows fs r out]: [r] is what is left of [fs] after the pieces that appear in [out] *)
Definition shows (fs r : list string) (out : string) : Prop := exists pre, fs = pre ++ r /\ appear (values pre) out.
Lemma shows_refl fs out : shows fs fs out.
Proof. exists []. split; [reflexivity|exact I]. Qed.
Lemma shows_app fs r q a b : shows fs r a -> shows r q b -> shows fs q (a ++ b)%string.
Proof. intros (p & -> & A) (p' & -> & B). exists (p ++ p'). split; [now rewrite app_assoc|]. rewrite map_app. now apply appear_app. Qed.
Lemma shows_skip f fs out : svalue f = "" -> shows fs (skip f fs) out.
Proof.
  intros N. destruct fs as [|g r]; [apply shows_refl|]. cbn. destruct (String.eqb_spec f g) as [<-|]; [|apply shows_refl].
  exists [f]. split; [reflexivity|]. cbn [map]. rewrite N. now apply appear_empty.
Qed.
Lemma shows_skips l : forall fs out, (forall f, In f l -> svalue f = "") -> shows fs (skips l fs) out.
Proof.
  induction l as [|f l IH]; intros fs out N; [apply shows_refl|]. cbn [skips fold_left]. fold (skips l (skip f fs)).
  change out with ("" ++ out)%string. eapply shows_app; [apply shows_skip; apply N; now left|]. apply IH. intros g G. apply N. now right.
Qed.
Lemma shows_pre fs r q out : shows fs r "" -> shows r q out -> shows fs q out.
Proof. intros A B. change out with ("" ++ out)%string. eapply shows_app; eauto. Qed.
Lemma suffix_compare (fs p q r s : list string) : fs = p ++ r -> fs = q ++ s -> (List.length r <= List.length s)%nat -> exists m, r = skipn (List.length s - List.length r) s /\ p = q ++ m.
Proof.
  revert q fs. induction p as [|x p IH]; intros q fs A B L.
  - destruct q as [|y q]; [|subst fs; apply (f_equal (@List.length string)) in B; cbn in *; rewrite app_length in B; lia].
    cbn in A, B. exists []. split; [|reflexivity]. subst. subst. now rewrite Nat.sub_diag.
  - destruct q as [|y q].
    + cbn in B. subst fs. exists (x :: p). split; [|reflexivity]. subst s. cbn [app List.length]. rewrite app_length.
      replace (S (List.length p + List.length r) - List.length r)%nat with (S (List.length p)) by lia. cbn [skipn app]. now rewrite skipn_app, skipn_all, Nat.sub_diag.
    + subst fs. cbn in B. injection B as -> B. destruct (IH q _ eq_refl B L) as (m & E1 & ->). exists m. auto.
Qed.
Lemma shows_weaken fs r s q out : shows fs r out -> fs = q ++ s -> (List.length r <= List.length s)%nat -> shows fs s out.
Proof.
  intros (p & A & H) B L. destruct (suffix_compare fs p q r s A B L) as (m & _ & ->). exists q. split; [exact B|].
  rewrite map_app in H. now apply appear_prefix in H.
Qed.
Lemma longer_l fs a b out x : shows fs a out -> shows fs b x -> shows fs (longer a b) out.
Proof.
  intros H (q & B & _). unfold longer. destruct (Nat.leb_spec (List.length a) (List.length b)); [|exact H]. eapply shows_weaken; eauto.
Qed.
Lemma longer_r fs a b out x : shows fs b out -> shows fs a x -> shows fs (longer a b) out.
Proof.
  intros H (q & B & _). unfold longer. destruct (Nat.leb_spec (List.length a) (List.length b)); [exact H|]. eapply shows_weaken; eauto. lia.
Qed.

(** [left] is always a tail, whatever is shown *)
Definition tail_of (fs r : list string) : Prop := exists p, fs = p ++ r.
Lemma tail_refl fs : tail_of fs fs. Proof. now exists []. Qed.
Lemma tail_trans a b c : tail_of a b -> tail_of b c -> tail_of a c.
Proof. intros (p & ->) (q & ->). exists (p ++ q). now rewrite app_assoc. Qed.
Lemma tail_skip f fs : tail_of fs (skip f fs).
Proof. destruct fs as [|g r]; [apply tail_refl|]. cbn. destruct (String.eqb f g); [now exists [g]|apply tail_refl]. Qed.
Lemma tail_skips l : forall fs, tail_of fs (skips l fs).
Proof. induction l as [|f l IH]; intros fs; [apply tail_refl|]. cbn. eapply tail_trans; [apply tail_skip|apply IH]. Qed.
Lemma tail_longer fs a b : tail_of fs a -> tail_of fs b -> tail_of fs (longer a b).
Proof. unfold longer. intros. now destruct (List.length a <=? List.length b)%nat. Qed.

Fixpoint nsize (n : node) : nat :=
  let fix go (l : list node) : nat := match l with [] => 0 | n :: r => nsize n + go r end in
  match n with NIf _ a b => S (go a + go b) | NRange _ _ _ b => S (go b) | _ => 1 end.
Fixpoint nsizes (l : list node) : nat := match l with [] => 0 | n :: r => nsize n + nsizes r end.
Lemma nsize_if c a b : nsize (NIf c a b) = S (nsizes a + nsizes b).
Proof.
  reflexivity.
Qed.
Lemma left_if c a b fs : left_after (NIf c a b) fs =
  match c with
  | CField f => if existsb (String.eqb f) ne then left_all a fs else longer (left_all a fs) (left_all b (skip f fs))
  | CNot f => longer (left_all a (skip f fs)) (left_all b fs)
  | COr l => longer (left_all a fs) (left_all b (skips l fs))
  | _ => longer (left_all a fs) (left_all b fs)
  end.
Proof. destruct c; reflexivity. Qed.
Lemma nsize_pos n : (0 < nsize n)%nat.
Proof. destruct n; cbn; lia. Qed.
Lemma tail_left k : forall ns fs, (nsizes ns < k)%nat -> tail_of fs (left_all ns fs).
Proof.
  induction k as [|k IH]; intros ns fs L; [lia|]. destruct ns as [|n r]; [apply tail_refl|]. cbn [nsizes left_all] in *.
  pose proof (nsize_pos n) as NP. eapply tail_trans; [|apply IH; lia].
  destruct n; try apply tail_refl; [apply tail_skip|]. rewrite left_if. rewrite nsize_if in L.
  destruct c; try match goal with |- context [if existsb ?a ?b then _ else _] => destruct (existsb a b); [apply IH; lia|] end; apply tail_longer; try (eapply tail_trans; [|apply IH; lia]); auto using tail_refl, tail_skip, tail_skips.
Qed.

Lemma truth_empty f v : mget e f = Some v -> truth v = false -> svalue f = "".
Proof. unfold svalue. intros -> T. destruct v; auto. cbn in T. destruct (String.eqb_spec s ""); auto. discriminate. Qed.
Lemma any_empty l : any_truth e l = Ok false -> forall f, In f l -> svalue f = "".
Proof.
  induction l as [|g l IH]; intros H f I; [destruct I|]. cbn in H. unfold field in H. destruct (mget e g) as [v|] eqn:G; [|discriminate]. cbn in H.
  destruct (truth v) eqn:T; [discriminate|]. destruct I as [<-|I]; [eapply truth_empty; eauto|auto].
Qed.

Lemma exec_shows k : forall ns fs out, (nsizes ns < k)%nat -> exec_nodes toLower ns e = Ok out -> shows fs (left_all ns fs) out.
Proof.
  induction k as [|k IH]; intros ns fs out L H; [lia|]. destruct ns as [|n r]; [apply shows_refl|]. cbn [nsizes left_all exec_nodes] in *.
  pose proof (nsize_pos n) as NP.
  destruct (exec_node toLower n e) as [s|?|?] eqn:N; try discriminate. cbn [bind] in H.
  destruct (exec_nodes toLower r e) as [t|?|?] eqn:R; try discriminate. cbn [bind] in H. injection H as <-.
  eapply shows_app; [|apply IH; [lia|exact R]]. clear R t.
  destruct n; try apply shows_refl.
  - (* field *) cbn [exec_node left_after] in *. unfold field in N. destruct (mget e f) as [v|] eqn:G; [|discriminate]. cbn [bind] in N.
    destruct fs as [|g fs]; [apply shows_refl|]. cbn [skip]. destruct (String.eqb_spec f g) as [<-|]; [|apply shows_refl].
    exists [f]. split; [reflexivity|]. cbn [map]. unfold svalue. rewrite G. destruct v; try (apply appear_empty; exact I).
    cbn in N. injection N as <-. apply appear_one.
  - (* if *) rewrite left_if. rewrite nsize_if in L.
    assert (X : exists t, eval e c = Ok t /\ exec_nodes toLower (if t then a else b) e = Ok s).
    { cbn [exec_node] in N. destruct (eval e c) as [t|?|?]; try discriminate. cbn [bind] in N. exists t. split; [reflexivity|]. destruct t; exact N. }
    clear N. destruct X as (t & EV & X).
    assert (TA : forall gs, tail_of gs (left_all a gs)) by (intros gs; apply (tail_left (S (nsizes a))); lia).
    assert (TB : forall gs, tail_of gs (left_all b gs)) by (intros gs; apply (tail_left (S (nsizes b))); lia).
    assert (GEN : forall fa fb, tail_of fs fa -> tail_of fs fb ->
       (if t then shows fs fa "" else shows fs fb "") -> shows fs (longer (left_all a fa) (left_all b fb)) s).
    { intros fa fb (pa & A) (pb & B) P. destruct (TA fa) as (qa & QA). destruct (TB fb) as (qb & QB). unfold longer.
      destruct t.
      - assert (S1 : shows fs (left_all a fa) s) by (eapply shows_pre; [exact P|]; apply IH; [lia|exact X]).
        destruct (Nat.leb_spec (List.length (left_all a fa)) (List.length (left_all b fb))); [|exact S1].
        eapply (shows_weaken fs _ _ (pb ++ qb)); [exact S1| |assumption]. rewrite <- app_assoc, <- QB. exact B.
      - assert (S1 : shows fs (left_all b fb) s) by (eapply shows_pre; [exact P|]; apply IH; [lia|exact X]).
        destruct (Nat.leb_spec (List.length (left_all a fa)) (List.length (left_all b fb))); [exact S1|].
        eapply (shows_weaken fs _ _ (pa ++ qa)); [exact S1| |lia]. rewrite <- app_assoc, <- QA. exact A. }
    destruct c; try (apply GEN; try apply tail_refl; destruct t; apply shows_refl).
    + destruct (existsb (String.eqb f) ne) eqn:KN.
      { apply existsb_exists in KN. destruct KN as (g & G & EQ). apply String.eqb_eq in EQ. subst g.
        destruct (known f G) as (v & V & T). cbn in EV. unfold field in EV. rewrite V in EV. cbn in EV. rewrite T in EV. injection EV as <-. apply IH; [lia|exact X]. }
      apply GEN; [apply tail_refl|apply tail_skip|]. destruct t; [apply shows_refl|]. apply shows_skip. cbn in EV. unfold field in EV.
      destruct (mget e f) as [v|] eqn:G; [|discriminate]. cbn in EV. injection EV as EV. eapply truth_empty; eauto.
    + apply GEN; [apply tail_skip|apply tail_refl|]. destruct t; [|apply shows_refl]. apply shows_skip. cbn in EV. unfold field in EV.
      destruct (mget e f) as [v|] eqn:G; [|discriminate]. cbn in EV. injection EV as EV. eapply truth_empty; eauto. now destruct (truth v).
    + apply GEN; [apply tail_refl|apply tail_skips|]. destruct t; [apply shows_refl|]. apply shows_skips. exact (any_empty _ EV).
Qed.
End Sound.

(** the fields shown by the templates *)
Definition shows_if (ne fs : list string) (t : tname) : bool :=
  match left_all ne (nodes false t) fs, left_all ne (nodes true t) fs with [], [] => true | _, _ => false end.
Theorem template_shows_if toLower (x : bool) t ne fs e out : shows_if ne fs t = true ->
  (forall f, In f ne -> exists v, mget e f = Some v /\ truth v = true) ->
  execute toLower (if x then xhtml5 t else html5 t) e = Ok out -> appear (map (svalue e) fs) out.
Proof.
  intros SA K H. unfold execute in H. destruct (String.eqb _ ""); [discriminate|].
  destruct (parse (if x then xhtml5 t else html5 t)) as [ns|] eqn:P; [|discriminate].
  assert (N : nodes x t = ns) by (unfold nodes; now rewrite P).
  destruct (exec_shows toLower e ne K (S (nsizes ns)) ns fs out ltac:(lia) H) as (pre & E & A).
  assert (L : left_all ne ns fs = []).
  { rewrite <- N. unfold shows_if in SA. destruct (left_all ne (nodes false t) fs) eqn:F; [|discriminate]. destruct (left_all ne (nodes true t) fs) eqn:T; [|discriminate]. now destruct x. }
  rewrite L, app_nil_r in E. now subst.
Qed.
Definition shows_all (fs : list string) (t : tname) : bool := shows_if [] fs t.
Theorem template_shows toLower (x : bool) t fs e out : shows_all fs t = true ->
  execute toLower (if x then xhtml5 t else html5 t) e = Ok out -> appear (map (svalue e) fs) out.
Proof. intros SA. apply (template_shows_if toLower x t []); [exact SA|intros f []]. Qed.
