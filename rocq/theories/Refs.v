(** Model of the attribute reference, counter and placeholder part of
    pkg/parser/document_processing_apply_substitutions.go. *)
From Verif Require Import GoBase Types Attrs Context Utf8 Merge Elements Subs.

(** *** counters *)
(** ctx.counters: map[string]interface{} holding [VInt] or [VRune] *)
Definition counters := list (string * val).

(** 64-bit and 32-bit wrap around of counter++ *)
Definition wrap64 (z : Z) : Z := ((z + 9223372036854775808) mod 18446744073709551616 - 9223372036854775808)%Z.
Definition wrap32 (n : N) : N := (n mod 4294967296)%N.

(** document_processing_apply_substitutions.go:567-602 valueForCounter.
    A rune is an int32, here taken modulo 2^32; string(rune) of a negative one gives U+FFFD as does one
    above the Unicode range. *)
Definition valueForCounter (cs : counters) (name : string) (hidden : bool) (value : val)
  : result (counters * string) :=
  let counter := match mget cs name with Some VNil | None => VInt 0 | Some v => v end in
  let '(cs1, counter1, increment) :=
    match value with
    | VNil => (cs, counter, true)
    | _ => (mset cs name value, value, false)
    end in
  match counter1 with
  | VInt z =>
      let z' := if increment then wrap64 (z + 1) else z in
      Ok (mset cs1 name (VInt z'), if hidden then "" else itoa z')
  | VRune r =>
      let r' := if increment then wrap32 (r + 1) else r in
      Ok (mset cs1 name (VRune r'), if hidden then "" else encode_rune r')
  | _ => Err "unexpected type of counter value"
  end.

(** types.go:696-706 NewCounterSubstitution: a letter is turned into its rune *)
Definition newCounterSubstitution (name : string) (hidden : bool) (v : val) : val :=
  CounterSubstitution name hidden
    (match v with VStr (String c _) => VRune (N_of_ascii c) | _ => v end).
(** parser.peg:658-672 CounterSubstitution1 / CounterSubstitution2; [start] is the value of CounterStart
    (nil, a one-letter string or an int).  `{counter2:..}` passes nil whatever the start value. *)
Definition counterSubstitution1 (name : string) (start : val) : val := newCounterSubstitution name false start.
Definition counterSubstitution2 (name : string) (start : val) : val := newCounterSubstitution name true VNil.

(** *** attribute references *)
Section Refs.
(** sgml.RenderPlainText, render_plain_text.go (arbitrary here) *)
Variable plain : list val -> result string.
(** parseWithSubstitutions (arbitrary here) *)
Variable parse : list val -> list string -> result (list val).
(** fmt / other typed values: DocumentAuthorFullName is not stored in attributes by the modelled code
    (Expand stores strings), see Authors *)
Variable ctx : ctxattrs.

(** document_processing_apply_substitutions.go:550-565 valueForAttributeRef *)
Definition valueForAttributeRef (name : string) : result (val * bool) :=
  match cget ctx name with
  | None => Ok (VStr ("{" ++ name ++ "}"), false)
  | Some (VSlice l) => do s <- plain l; Ok (VStr s, true)
  | Some v => Ok (v, true)
  end.

(** the `switch v := v.(type)` of the callers: strings become elements *)
Definition as_element (v : val) : val := match v with VStr s => StringElement s | _ => v end.

(** document_processing_apply_substitutions.go:379-405 replaceAttributeRefsInSlicedValue, one element.
    The loop is a fixpoint on values because slices nest. *)
Fixpoint refs_sliced (e : val) : result val :=
  match e with
  | StringElement c => Ok (VStr c)
  | AttributeReference n => do vr <- valueForAttributeRef n; Ok (fst vr)
  | VSlice l =>
      do l' <- (fix loop (l : list val) : result (list val) :=
                  match l with
                  | [] => Ok []
                  | x :: r => do y <- refs_sliced x; do ys <- loop r; Ok (y :: ys)
                  end) l;
      Ok (Reduce (VSlice l'))
  | _ => Ok e
  end.
(** document_processing_apply_substitutions.go:355-377 replaceAttributeRefsInValue *)
Fixpoint refs_value (v : val) : result val :=
  match v with
  | VSlice l => refs_sliced (VSlice l)
  | VRoles l =>
      do l' <- (fix loop (l : list val) : result (list val) :=
                  match l with
                  | [] => Ok []
                  | x :: r => do y <- refs_value x; do ys <- loop r; Ok (y :: ys)
                  end) l;
      Ok (VRoles l')
  | VOptions l =>
      do l' <- (fix loop (l : list val) : result (list val) :=
                  match l with
                  | [] => Ok []
                  | x :: r => do y <- refs_value x; do ys <- loop r; Ok (y :: ys)
                  end) l;
      Ok (VOptions l')
  | _ => Ok v
  end.
(** document_processing_apply_substitutions.go:345-353 replaceAttributeRefsInAttributeValues *)
Definition refs_attrs (a : attributes) : result attributes :=
  mapM (fun kv => do v <- refs_value (snd kv); Ok (fst kv, v)) a.

(** document_processing_apply_substitutions.go:519-548 replaceAttributeRefsInElements *)
Fixpoint refs_flat (cs : counters) (es : list val) : result (counters * list val) :=
  match es with
  | [] => Ok (cs, [])
  | e :: r =>
      do ce <- match e with
               | AttributeReference n => do vr <- valueForAttributeRef n; Ok (cs, as_element (fst vr))
               | CounterSubstitution n h v => do cv <- valueForCounter cs n h v;
                                              Ok (fst cv, StringElement (snd cv))
               | _ => Ok (cs, e)
               end;
      do cr <- refs_flat (fst ce) r;
      Ok (fst cr, snd ce :: snd cr)
  end.

(** GetLocation of a types.WithLocation *)
Definition getLocation (v : val) : option val :=
  match v with
  | InlineLink _ l | ExternalCrossReference l _ | InlineImage l _ | ImageBlock l _ => Some l
  | _ => None
  end.
Definition withLoc (v l : val) : val :=
  match v with
  | InlineLink a _ => InlineLink a l
  | ExternalCrossReference _ a => ExternalCrossReference l a
  | InlineImage _ a => InlineImage l a
  | ImageBlock _ a => ImageBlock l a
  | _ => v
  end.

(** document_processing_apply_substitutions.go:453-517 replaceAttributeRefsInElementsAndReparse;
    [subs]: the substitutions of the second phase, [None] if nil.
    [fuel] bounds the nesting of elements; [refs_fuel] below is enough.
    First the body of the loop (457-504); [rec]: the recursive call on the elements of an element *)
Definition refs_elem (rec : counters -> list val -> result (counters * list val)) (cs : counters) (e : val)
  : result (counters * val * bool) :=
  match e with
  | AttributeReference n =>
      do vr <- valueForAttributeRef n; Ok (cs, as_element (fst vr), snd vr)
  | CounterSubstitution n h v =>
      do cv <- valueForCounter cs n h v; Ok (fst cv, StringElement (snd cv), false)
  | _ =>
      match getElements e with
      | Some es' =>
          do a' <- refs_attrs (getAttributes e);
          do ces <- rec cs es';
          do e' <- setElements (withAttrs e a') (snd ces);
          Ok (fst ces, e', false)
      | None =>
          match getLocation e with
          | Some loc =>
              do a' <- refs_attrs (getAttributes e);
              match loc with
              | Location scheme (VSlice p) =>
                  do cp <- refs_flat cs p;
                  Ok (fst cp, withLoc (withAttrs e a') (Location scheme (Reduce (VSlice (snd cp)))), false)
              | _ => Ok (cs, withAttrs e a', false)
              end
          | None => Ok (cs, e, false)
          end
      end
  end.
Fixpoint refs_loop (rec : counters -> list val -> result (counters * list val)) (cs : counters) (es : list val)
  : result (counters * list val * bool) :=
  match es with
  | [] => Ok (cs, [], false)
  | e :: r =>
    do ce <- refs_elem rec cs e;
    let '(cs1, e', r1) := ce in
    do rest <- refs_loop rec cs1 r;
    let '(cs2, es2, r2) := rest in
    Ok (cs2, e' :: es2, r1 || r2)
  end.
Fixpoint refs_reparse (fuel : nat) (subs : option (list string)) (cs : counters) (es : list val)
  : result (counters * list val) :=
  match fuel with
  | O => Panic "model: out of fuel"
  | S f =>
    do st <- refs_loop (refs_reparse f subs) cs es;
    let '(cs', es', replaced) := st in
    match subs with
    | Some sub => if replaced then do parsed <- parse es' sub; Ok (cs', parsed) else Ok (cs', es')
    | None => Ok (cs', es')
    end
  end.
Definition refs_fuel (es : list val) : nat := S (sizes es).
Definition replaceRefs (subs : option (list string)) (cs : counters) (es : list val) :=
  refs_reparse (refs_fuel es) subs cs es.

End Refs.

(** *** placeholders *)
(** types.go:3705-3707 ElementPlaceHolder.String: U+FFFD, the reference, U+FFFD *)
Definition FFFD : string := encode_rune 65533.
Definition placeholder_string (ref : string) : string := (FFFD ++ ref ++ FFFD)%string.

(** document_processing_apply_substitutions.go:654-687 serialize, the loop over a slice;
    [seq]: placeholders.seq, the result also lists placeholders.elements *)
Fixpoint serialize_loop (seq : N) (es : list val) : string * list (string * val) :=
  match es with
  | [] => ("", [])
  | e :: r =>
      match e with
      | RawLine s | VStr s | StringElement s | SpecialCharacter s =>
          let (t, ph) := serialize_loop seq r in ((s ++ t)%string, ph)
      | _ =>
          let ref := itoaN (seq + 1) in
          let (t, ph) := serialize_loop (seq + 1) r in
          ((placeholder_string ref ++ t)%string, (ref, e) :: ph)
      end
  end.
(** document_processing_apply_substitutions.go:654-687 serialize *)
Definition serialize (content : val) : result (string * list (string * val)) :=
  match content with
  | VStr s => Ok (s, [])
  | VSlice l => Ok (serialize_loop 0 l)
  | _ => Err "unexpected type of content to serialize"
  end.

(** document_processing_apply_substitutions.go:753-769 restore.
    A reference without element gives nil (a map look-up of Go). *)
Fixpoint restore (fuel : nat) (ph : list (string * val)) (es : list val) : result (list val) :=
  match fuel with
  | O => Panic "model: out of fuel"
  | S f =>
      mapM (fun e => match e with
                     | ElementPlaceHolder ref => Ok (match mget ph ref with Some v => v | None => VNil end)
                     | _ => match getElements e with
                            | Some es' => do es2 <- restore f ph es'; setElements e es2
                            | None => Ok e
                            end
                     end) es
  end.
