(** Specification vocabulary for C21, C22, C49. *)
From Verif Require Import GoBase Types Utf8.

(** *** C21: uses of counters, `{counter:name:start}` and `{counter2:name:start}` *)
Inductive start := FromNumber (n : Z) | FromLetter (c : ascii).
Record use := mkUse { u_name : string; u_hidden : bool; u_start : option start }.

(** what counter [x] shows after the history [h] (latest use first): its latest start value, moved on by the
    number of uses since then; without start value it counts the uses *)
Fixpoint since_start (h : list use) (x : string) : option start * nat :=
  match h with
  | [] => (None, 0%nat)
  | u :: r =>
      if String.eqb (u_name u) x then
        match u_start u with
        | Some s => (Some s, 0%nat)
        | None => let (s, n) := since_start r x in (s, S n)
        end
      else since_start r x
  end.
Definition shown (sn : option start * nat) : string :=
  match sn with
  | (None, n) => itoa (Z.of_nat n)
  | (Some (FromNumber z), n) => itoa (z + Z.of_nat n)
  | (Some (FromLetter c), n) => encode_rune (N_of_ascii c + N.of_nat n)
  end.
(** the texts the uses are replaced by; [h]: the uses before, latest first *)
Fixpoint outputs (h us : list use) : list string :=
  match us with
  | [] => []
  | u :: r => (if u_hidden u then "" else shown (since_start (u :: h) (u_name u))) :: outputs (u :: h) r
  end.

(** *** C49 *)
(** the text a reference stands for *)
Definition ref_text (look : string -> option string) (n : string) : string :=
  match look n with Some s => s | None => ("{" ++ n ++ "}")%string end.
(** the use a counter element stands for *)
Definition use_of (name : string) (hidden : bool) (v : val) : use :=
  mkUse name hidden (match v with
                     | VInt z => Some (FromNumber z)
                     | VRune r => Some (FromLetter (ascii_of_N r))
                     | _ => None end).
Definition use_text (h : list use) (u : use) : string := if u_hidden u then "" else shown (since_start (u :: h) (u_name u)).
Section Resolve.
  Variable look : string -> option string.
  (** what the content of an element becomes after a reference in it was replaced ([None]: it is left alone) *)
  Variable again : option (list val -> list val).

  (** texts of attributes: references and text make one string; no text is no value *)
  Definition part_text (v : val) : string :=
    match v with StringElement s | VStr s => s | AttributeReference n => ref_text look n | _ => "" end.
  Definition text_value (s : string) : val := if String.eqb s "" then VNil else VStr s.
  Definition resolve_value1 (v : val) : val := match v with VSlice l => text_value (sconcat (map part_text l)) | _ => v end.
  Definition resolve_value (v : val) : val :=
    match v with
    | VRoles l => VRoles (map resolve_value1 l)
    | VOptions l => VOptions (map resolve_value1 l)
    | _ => resolve_value1 v
    end.
  Definition resolve_attrs (a : attributes) : attributes := map (fun kv => (fst kv, resolve_value (snd kv))) a.
  (** the path of a link or an image *)
  Fixpoint resolve_path (h : list use) (p : list val) : list use * string :=
    match p with
    | [] => (h, "")
    | CounterSubstitution n hid v :: r =>
        let u := use_of n hid v in let (h', t) := resolve_path (u :: h) r in (h', (use_text h u ++ t)%string)
    | x :: r => let (h', t) := resolve_path h r in (h', (part_text x ++ t)%string)
    end.
  Definition resolve_location (h : list use) (l : val) : list use * val :=
    match l with
    | Location s (VSlice p) => let (h', t) := resolve_path h p in (h', Location s (text_value t))
    | _ => (h, l)
    end.
  Definition set_reference (v : val) : bool :=
    match v with AttributeReference n => match look n with Some _ => true | None => false end | _ => false end.
  Definition reread (es es' : list val) : list val :=
    match again with Some f => if existsb set_reference es then f es' else es' | None => es' end.
  (** inline content with its references and counters replaced in reading order, at every depth of quoted text and in the attributes
      and locations of links and images.  [h]: the uses of counters so far, latest first *)
  Fixpoint resolve (h : list use) (v : val) {struct v} : list use * val :=
    match v with
    | AttributeReference n => (h, StringElement (ref_text look n))
    | CounterSubstitution n hid x => let u := use_of n hid x in (u :: h, StringElement (use_text h u))
    | QuotedText k es a =>
        let (h', es') := (fix all (h : list use) (l : list val) : list use * list val :=
                            match l with
                            | [] => (h, [])
                            | x :: r => let (h1, x') := resolve h x in let (h2, r') := all h1 r in (h2, x' :: r')
                            end) h es in
        (h', QuotedText k (reread es es') (resolve_attrs a))
    | InlineLink a l => let (h', l') := resolve_location h l in (h', InlineLink (resolve_attrs a) l')
    | InlineImage l a => let (h', l') := resolve_location h l in (h', InlineImage l' (resolve_attrs a))
    | ExternalCrossReference l a => let (h', l') := resolve_location h l in (h', ExternalCrossReference l' (resolve_attrs a))
    | _ => (h, v)
    end.
  Fixpoint resolve_all (h : list use) (l : list val) : list use * list val :=
    match l with
    | [] => (h, [])
    | x :: r => let (h1, x') := resolve h x in let (h2, r') := resolve_all h1 r in (h2, x' :: r')
    end.
  Definition resolved (h : list use) (es : list val) : list use * list val :=
    let (h', es') := resolve_all h es in (h', reread es es').
End Resolve.

(** *** C22: how a parser without any substitution enabled reads text with placeholders
    (parser.peg:1196-1200): U+FFFD digits U+FFFD is a placeholder, every other character is text *)
Inductive piece := Text (r : N) | Hole (ref : string) | Element (v : val).
Definition digit (r : N) : bool := ((48 <=? r) && (r <=? 57))%N.
Fixpoint span_digits (rs : list N) : list N * list N :=
  match rs with
  | [] => ([], [])
  | r :: t => if digit r then let (d, u) := span_digits t in (r :: d, u) else ([], rs)
  end.
Fixpoint scan (fuel : nat) (rs : list N) : list piece :=
  match fuel, rs with
  | S f, r :: t =>
      if (r =? 65533)%N then
        match span_digits t with
        | ((_ :: _) as ds, 65533%N :: u) => Hole (encode_runes ds) :: scan f u
        | _ => Text r :: scan f t
        end
      else Text r :: scan f t
  | _, _ => []
  end.
Definition scan_text (s : string) : list piece := scan (List.length (runes s)) (runes s).
(** the visible pieces of inline content *)
Definition pieces (es : list val) : list piece :=
  flat_map (fun e => match e with
                     | RawLine s | VStr s | StringElement s | SpecialCharacter s => map Text (runes s)
                     | v => [Element v] end) es.
(** text of valid UTF-8 without the replacement character *)
Definition clean_text (s : string) : Prop :=
  exists rs, s = encode_runes rs /\ Forall (fun r => valid_rune r = true /\ r <> 65533%N) rs.
(** the placeholders replaced at every depth of quoted text *)
Fixpoint filled (look : string -> val) (v : val) : val :=
  match v with
  | ElementPlaceHolder ref => look ref
  | QuotedText k es a =>
      QuotedText k ((fix all l := match l with [] => [] | x :: r => filled look x :: all r end) es) a
  | _ => v
  end.
