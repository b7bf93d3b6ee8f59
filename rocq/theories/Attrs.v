(** Model of pkg/types/attributes.go: element and document attributes. *)
From Verif Require Import GoBase Types.

(** attributes.go:16-175, the keys used by the models *)
Definition AttrDocType := "doctype".
Definition AttrID := "id".
Definition AttrIDPrefix := "idprefix".
Definition DefaultIDPrefix := "_".
Definition AttrIDSeparator := "idseparator".
Definition DefaultIDSeparator := "_".
Definition AttrNumbered := "numbered".
Definition AttrSectionNumbering := "sectnums".
Definition AttrTableOfContentsLevels := "toclevels".
Definition AttrTitle := "title".
Definition AttrRole := "role".
Definition AttrRoles := "roles".
Definition AttrOption := "option".
Definition AttrOptions := "options".
Definition AttrOpts := "opts".
Definition AttrImageAlt := "alt".
Definition AttrStyle := "style".
Definition AttrPositionalIndex := "@positional-".
Definition AttrPositional1 := "@positional-1".
Definition AttrPositional2 := "@positional-2".
Definition AttrPositional3 := "@positional-3".

(** [opt == key] on interfaces, right-hand side a string (Go: equal dynamic types and values) *)
Definition eq_str (v : val) (s : string) : bool :=
  match v with VStr x => String.eqb x s | _ => false end.

(** attributes.go:391-440 Attributes.Set.
    A Go [a[k]] on a missing key gives nil: here [mget] gives [None].
    The in-place growth of slices by [append] is modelled as list concatenation
    (aliasing of backing arrays is not modelled). *)
Definition aset (a : attributes) (key : string) (value : val) : attributes :=
  if String.eqb key AttrRole then
    match mget a AttrRoles with
    | Some (VRoles rs) => mset a AttrRoles (VRoles (rs ++ [value]))
    | _ => mset a AttrRoles (VRoles [value])
    end
  else if String.eqb key AttrRoles then
    match value with
    | VRoles r =>
        match mget a AttrRoles with
        | Some (VRoles rs) => mset a AttrRoles (VRoles (rs ++ r))
        | _ => mset a AttrRoles (VRoles r)
        end
    | _ => a
    end
  else if String.eqb key AttrOption then
    match mget a AttrOptions with
    | Some (VOptions os) => mset a AttrOptions (VOptions (os ++ [value]))
    | _ => mset a AttrOptions (VOptions [value])
    end
  else if String.eqb key AttrOptions then
    match value with
    | VOptions v => mset a AttrOptions (VOptions v)
    | VStr s => mset a AttrOptions (VOptions (map VStr (split_char ","%char s)))
    | _ => mset a AttrOptions (VOptions [value])
    end
  else mset a key value.

(** attributes.go:442-444 Attributes.Unset *)
Definition aunset (a : attributes) (key : string) : attributes := mdel a key.

(** attributes.go:235-246 Attributes.AddAll.  [others] is given in the order in which the Go
    runtime happens to iterate over the map. *)
Definition aaddall (a others : attributes) : attributes :=
  fold_left (fun acc kv => aset acc (fst kv) (snd kv)) others a.

(** attributes.go:188-207 NewAttributes: positional attributes get the keys
    "@positional-1", "@positional-2", ... in order of appearance (see
    attributes.go:340-342 PositionalAttribute.Key). *)
Fixpoint newAttributes_loop (l : list val) (idx : N) (acc : attributes) : result attributes :=
  match l with
  | [] => Ok acc
  | PositionalAttribute _ v :: r =>
      let idx' := (idx + 1)%N in
      newAttributes_loop r idx' (aset acc (AttrPositionalIndex ++ itoaN idx') v)
  | Attribute k v :: r => newAttributes_loop r idx (aset acc k v)
  | _ :: _ => Err "unexpected type of attribute"
  end.
Definition newAttributes (l : list val) : result attributes := newAttributes_loop l 0 [].

(** attributes.go:216-232 MergeAttributes *)
Fixpoint mergeAttributes_loop (l : list val) (acc : attributes) : result attributes :=
  match l with
  | [] => Ok acc
  | Attribute k v :: r => mergeAttributes_loop r (aset acc k v)
  | VAttributes a :: r => mergeAttributes_loop r (aaddall acc a)
  | _ :: _ => Err "unexpected type of attribute"
  end.
Definition mergeAttributes (l : list val) : result attributes := mergeAttributes_loop l [].

(** attributes.go:248-281 toAttributesWithMapping, one entry of the mapping *)
Definition map_one (attrs : attributes) (st : string * string) : attributes :=
  let '(source, target) := st in
  match mget attrs source with
  | None => attrs
  | Some v =>
      let attrs1 :=
        match v with
        | VNil => attrs
        | _ =>
            if eq_str v "" then attrs
            else
              let v' := if String.eqb source AttrPositional1 && String.eqb target AttrRoles
                        then VRoles [v] else v in
              match mget attrs target with
              | Some _ => attrs
              | None => mset attrs target (if eq_str v' target then VBool true else v')
              end
        end in
      mdel attrs1 source
  end.
(** attributes.go:248-281 toAttributesWithMapping; [mapping] is given in iteration order of the Go map *)
Definition toAttributesWithMapping (attrs : attributes) (mapping : list (string * string))
  : attributes := fold_left map_one mapping attrs.

(** attributes.go:474-477 Has *)
Definition ahas (a : attributes) (key : string) : bool := mhas a key.

(** attributes.go:480-494 HasOption *)
Definition hasOption (a : attributes) (key : string) : bool :=
  (match mget a AttrOptions with
   | Some (VOptions os) => existsb (fun o => eq_str o key) os
   | _ => false
   end) || ahas a key.

(** attributes.go:498-504 GetAsString *)
Definition getAsString (a : attributes) (k : string) : option string :=
  match mget a k with Some (VStr s) => Some s | _ => None end.

(** strconv.Atoi on decimal literals (sign allowed, int64 range checked) *)
Definition is_digit (c : ascii) : bool :=
  let n := N_of_ascii c in (48 <=? n)%N && (n <=? 57)%N.
Fixpoint atoi_digits (s : string) (acc : Z) : option Z :=
  match s with
  | EmptyString => Some acc
  | String c r => if is_digit c
                  then atoi_digits r (10 * acc + Z.of_N (N_of_ascii c - 48))
                  else None
  end.
Definition int64_ok (z : Z) : bool :=
  (-9223372036854775808 <=? z)%Z && (z <=? 9223372036854775807)%Z.
Definition atoi (s : string) : option Z :=
  let chk o := match o with Some z => if int64_ok z then Some z else None | None => None end in
  match s with
  | EmptyString => None
  | String c r =>
      if Ascii.eqb c "-" then
        match r with
        | EmptyString => None
        | _ => chk (option_map Z.opp (atoi_digits r 0))
        end
      else if Ascii.eqb c "+" then
        match r with
        | EmptyString => None
        | _ => chk (atoi_digits r 0)
        end
      else chk (atoi_digits s 0)
  end.

(** attributes.go:508-518 GetAsIntWithDefault *)
Definition getAsInt (a : attributes) (k : string) (d : Z) : Z :=
  match mget a k with
  | Some (VInt z) => z
  | Some (VStr s) => match atoi s with Some z => z | None => d end
  | _ => d
  end.

(** strconv.ParseBool *)
Definition parseBool (s : string) : option bool :=
  if existsb (String.eqb s) ["1"; "t"; "T"; "TRUE"; "true"; "True"] then Some true
  else if existsb (String.eqb s) ["0"; "f"; "F"; "FALSE"; "false"; "False"] then Some false
  else None.

(** attributes.go:522-532 GetAsBoolWithDefault *)
Definition getAsBool (a : attributes) (k : string) (d : bool) : bool :=
  match mget a k with
  | Some (VBool b) => b
  | Some (VStr s) => match parseBool s with Some b => b | None => d end
  | _ => d
  end.

(** attributes.go:536-548 GetAsStringWithDefault.  [fmtv] stands for fmt.Sprintf("%v", _) of a
    value that is neither nil nor a string (it may print addresses); theorems hold for
    every [fmtv]. *)
Definition getAsStringD (fmtv : val -> string) (a : attributes) (k d : string) : string :=
  match mget a k with
  | Some VNil => ""
  | Some (VStr s) => s
  | Some v => fmtv v
  | None => d
  end.
