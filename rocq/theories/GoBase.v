(** Shared vocabulary of the models: Go results, Go maps and the functions of the Go
    standard packages [strings] and [strconv] that the modelled code calls.
    Nothing in this file is specific to libasciidoc.  Go strings are byte sequences
    and are represented by Coq [string]s (a [string] is a list of 8-bit [ascii]). *)
From Coq Require Export List Arith NArith ZArith Lia Bool String Ascii Permutation.
Export ListNotations.
Open Scope string_scope.
Open Scope list_scope.

(** Outcome of a Go call: a value, a returned [error], or a run-time panic. *)
Inductive result (A : Type) : Type :=
| Ok (a : A)
| Err (msg : string)
| Panic (msg : string).
Arguments Ok {A} a.
Arguments Err {A} msg.
Arguments Panic {A} msg.

Definition bind {A B : Type} (r : result A) (f : A -> result B) : result B :=
  match r with
  | Ok a => f a
  | Err m => Err m
  | Panic m => Panic m
  end.
Notation "'do' x <- r ; k" := (bind r (fun x => k))
  (at level 200, x pattern, r at level 100, k at level 200).

Fixpoint mapM {A B : Type} (f : A -> result B) (l : list A) : result (list B) :=
  match l with
  | [] => Ok []
  | x :: r => do y <- f x; do ys <- mapM f r; Ok (y :: ys)
  end.

(** Go maps [map[string]V] as association lists: the first binding of a key counts.
    [mset] replaces in place or adds at the end, [mdel] removes all bindings. *)
Section GoMap.
  Context {V : Type}.
  Definition gomap := list (string * V).

  Fixpoint mget (m : gomap) (k : string) : option V :=
    match m with
    | [] => None
    | (k', v) :: r => if String.eqb k k' then Some v else mget r k
    end.

  Fixpoint mset (m : gomap) (k : string) (v : V) : gomap :=
    match m with
    | [] => [(k, v)]
    | (k', v') :: r => if String.eqb k k' then (k, v) :: r else (k', v') :: mset r k v
    end.

  Fixpoint mdel (m : gomap) (k : string) : gomap :=
    match m with
    | [] => []
    | (k', v') :: r => if String.eqb k k' then mdel r k else (k', v') :: mdel r k
    end.

  Definition mhas (m : gomap) (k : string) : bool :=
    match mget m k with Some _ => true | None => false end.

  Definition mkeys (m : gomap) : list string := map fst m.

  Lemma mget_mset_eq m k v : mget (mset m k v) k = Some v.
  Proof.
    induction m as [|[k' v'] m IH]; cbn.
    - now rewrite String.eqb_refl.
    - destruct (String.eqb k k') eqn:E; cbn; rewrite ?String.eqb_refl, ?E; auto.
  Qed.

  Lemma mget_mset_neq m k k' v : k <> k' -> mget (mset m k v) k' = mget m k'.
  Proof.
    intros H; induction m as [|[k2 v2] m IH]; cbn.
    - destruct (String.eqb_spec k' k); congruence.
    - destruct (String.eqb_spec k k2) as [->|N]; cbn.
      + destruct (String.eqb_spec k' k2); congruence.
      + destruct (String.eqb k' k2); auto.
  Qed.

  Lemma mget_mset m k k' v :
    mget (mset m k v) k' = if String.eqb k k' then Some v else mget m k'.
  Proof.
    destruct (String.eqb_spec k k') as [->|N]; auto using mget_mset_eq, mget_mset_neq.
  Qed.

  Lemma mget_mdel m k k' :
    mget (mdel m k) k' = if String.eqb k k' then None else mget m k'.
  Proof.
    induction m as [|[k2 v2] m IH]; cbn.
    - now destruct (String.eqb k k').
    - destruct (String.eqb_spec k k2) as [->|N].
      + rewrite IH. destruct (String.eqb_spec k2 k') as [->|N']; auto.
        destruct (String.eqb_spec k' k2); congruence.
      + cbn. destruct (String.eqb_spec k' k2) as [->|N'].
        * destruct (String.eqb_spec k k2); congruence.
        * apply IH.
  Qed.

  Lemma mget_In m k v : mget m k = Some v -> In (k, v) m.
  Proof.
    induction m as [|[k' v'] m IH]; cbn; [discriminate|].
    destruct (String.eqb_spec k k') as [->|N].
    - intros [= ->]; auto.
    - auto.
  Qed.

  Lemma mget_None m k : mget m k = None <-> ~ In k (mkeys m).
  Proof.
    induction m as [|[k' v'] m IH]; cbn; [tauto|].
    destruct (String.eqb_spec k k') as [->|N].
    - split; [discriminate|intros H; exfalso; apply H; auto].
    - rewrite IH. split; [intros H [E|E]; [congruence|tauto]|tauto].
  Qed.

  Lemma In_mget m k v : NoDup (mkeys m) -> In (k, v) m -> mget m k = Some v.
  Proof.
    induction m as [|[k' v'] m IH]; cbn; [tauto|].
    intros ND [E|E].
    - injection E as -> ->. now rewrite String.eqb_refl.
    - inversion ND as [|? ? HN ND']; subst.
      destruct (String.eqb_spec k k') as [->|N].
      + exfalso; apply HN. apply in_map_iff. exists (k', v); auto.
      + auto.
  Qed.

  Lemma mget_perm m m' k :
    NoDup (mkeys m) -> Permutation m m' -> mget m k = mget m' k.
  Proof.
    intros ND P.
    assert (ND' : NoDup (mkeys m')).
    { eapply Permutation_NoDup; [|exact ND]. unfold mkeys. now apply Permutation_map. }
    destruct (mget m k) as [v|] eqn:E.
    - symmetry. apply In_mget; auto. eapply Permutation_in; eauto. now apply mget_In.
    - symmetry. apply mget_None. apply mget_None in E. intros HI; apply E.
      unfold mkeys in *. eapply Permutation_in; [|exact HI]. apply Permutation_map.
      now apply Permutation_sym.
  Qed.

  Lemma mkeys_mset m k v : incl (mkeys (mset m k v)) (k :: mkeys m).
  Proof.
    induction m as [|[k' v'] m IH]; cbn.
    - apply incl_refl.
    - destruct (String.eqb_spec k k') as [->|N]; cbn.
      + intros x [->|Hx]; cbn; auto.
      + intros x [->|Hx]; cbn; auto. apply IH in Hx. cbn in Hx. tauto.
  Qed.

  Lemma NoDup_mset m k v : NoDup (mkeys m) -> NoDup (mkeys (mset m k v)).
  Proof.
    induction m as [|[k' v'] m IH]; cbn; intros ND.
    - repeat constructor; auto.
    - inversion ND as [|? ? HN ND']; subst.
      destruct (String.eqb_spec k k') as [->|N]; cbn.
      + now constructor.
      + constructor; auto. intros HI. apply mkeys_mset in HI. cbn in HI.
        destruct HI; [congruence|auto].
  Qed.
End GoMap.
Arguments gomap V : clear implicits.

(** *** package strings *)

(** strings.HasPrefix *)
Fixpoint has_prefix (s p : string) {struct p} : bool :=
  match p with
  | EmptyString => true
  | String c p' => match s with
                   | EmptyString => false
                   | String d s' => if Ascii.eqb d c then has_prefix s' p' else false
                   end
  end.

(** [s[n:]] for n <= len(s) *)
Fixpoint sdrop (n : nat) (s : string) : string :=
  match n, s with
  | O, _ => s
  | _, EmptyString => EmptyString
  | S m, String _ s' => sdrop m s'
  end.

(** [s[:n]] *)
Fixpoint stake (n : nat) (s : string) : string :=
  match n, s with
  | O, _ => EmptyString
  | _, EmptyString => EmptyString
  | S m, String c s' => String c (stake m s')
  end.

Fixpoint srev_app (s acc : string) : string :=
  match s with
  | EmptyString => acc
  | String c r => srev_app r (String c acc)
  end.
Definition srev (s : string) : string := srev_app s EmptyString.

(** strings.HasSuffix: [len(s) >= len(suffix) && s[len(s)-len(suffix):] == suffix] *)
Definition has_suffix (s x : string) : bool :=
  (String.length x <=? String.length s)%nat
  && String.eqb (sdrop (String.length s - String.length x) s) x.

(** strings.TrimSuffix *)
Definition trim_suffix (s x : string) : string :=
  if has_suffix s x then stake (String.length s - String.length x) s else s.

(** strings.TrimPrefix *)
Definition trim_prefix (s p : string) : string :=
  if has_prefix s p then sdrop (String.length p) s else s.

(** strings.Contains *)
Fixpoint contains (s x : string) : bool :=
  has_prefix s x ||
  match s with
  | EmptyString => false
  | String _ s' => contains s' x
  end.

(** strings.TrimLeft(s, " ") *)
Fixpoint trim_left_char (c : ascii) (s : string) : string :=
  match s with
  | EmptyString => EmptyString
  | String d s' => if Ascii.eqb d c then trim_left_char c s' else s
  end.

(** strings.TrimRight(s, " ") *)
Fixpoint trim_right_char (c : ascii) (s : string) : string :=
  match s with
  | EmptyString => EmptyString
  | String d s' =>
      match trim_right_char c s' with
      | EmptyString => if Ascii.eqb d c then EmptyString else String d EmptyString
      | r => String d r
      end
  end.

(** strings.Repeat for a non-negative count *)
Fixpoint srepeat (s : string) (n : nat) : string :=
  match n with
  | O => EmptyString
  | S m => s ++ srepeat s m
  end%string.

(** strings.ReplaceAll(s, old, new) for a non-empty [old]: leftmost, non overlapping.
    [skip] is the number of bytes of the current match still to be dropped. *)
Fixpoint replace_all_from (skip : nat) (s old new : string) : string :=
  match s with
  | EmptyString => EmptyString
  | String c s' =>
      match skip with
      | S k => replace_all_from k s' old new
      | O => if has_prefix s old
             then (new ++ replace_all_from (String.length old - 1) s' old new)%string
             else String c (replace_all_from O s' old new)
      end
  end.
Definition replace_all (s old new : string) : string := replace_all_from O s old new.

(** strings.Split(s, sep) for a separator of one byte *)
Fixpoint split_char (sep : ascii) (s : string) : list string :=
  match s with
  | EmptyString => [EmptyString]
  | String c r =>
      if Ascii.eqb c sep then EmptyString :: split_char sep r
      else match split_char sep r with
           | [] => [String c EmptyString]   (* unreachable: never empty *)
           | x :: xs => String c x :: xs
           end
  end.

(** strings.Join *)
Fixpoint join (sep : string) (l : list string) : string :=
  match l with
  | [] => EmptyString
  | [x] => x
  | x :: r => (x ++ sep ++ join sep r)%string
  end.

(** strings.Builder / concatenation *)
Definition sconcat (l : list string) : string := fold_right append EmptyString l.

(** *** package strconv *)
Definition digit_ascii (d : N) : ascii := ascii_of_N (48 + d).

(** decimal digits, most significant first; the fuel bounds the number of digits *)
Fixpoint digits_fuel (fuel : nat) (n : N) (acc : string) : string :=
  match fuel with
  | O => acc
  | S f => let acc' := String (digit_ascii (N.modulo n 10)) acc in
           if (n <? 10)%N then acc' else digits_fuel f (N.div n 10) acc'
  end.
(** strconv.Itoa on a non-negative int (N.size_nat n >= number of decimal digits) *)
Definition itoaN (n : N) : string := digits_fuel (S (N.size_nat n)) n EmptyString.
Definition itoa (z : Z) : string :=
  match z with
  | Zneg p => String "-" (itoaN (Npos p))
  | _ => itoaN (Z.to_N z)
  end.

Definition chr (n : N) : ascii := ascii_of_N n.
Definition LF : string := String (chr 10) EmptyString.
