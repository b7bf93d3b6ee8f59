(** What merging attributes means. *)
From Verif Require Import GoBase Types.

(** a series of assignments key = value, in order *)
Definition pairs := list (string * val).
(** the roles that a series gives: each "role" one, each "roles" a list of them (a value of "roles" that is not a list is ignored) *)
Definition roles_given (ps : pairs) : list val :=
  flat_map (fun kv => if String.eqb (fst kv) "role" then [snd kv]
                      else if String.eqb (fst kv) "roles" then match snd kv with VRoles l => l | _ => [] end else []) ps.
(** the options after a series: "option" adds one, "options" replaces all *)
Fixpoint options_given (ps : pairs) (sofar : list val) : list val :=
  match ps with
  | [] => sofar
  | (k, v) :: r =>
      options_given r (if String.eqb k "option" then sofar ++ [v]
                       else if String.eqb k "options" then
                         match v with VOptions l => l | VStr s => map VStr (split_char ","%char s) | v => [v] end
                       else sofar)
  end.
(** the last value given for a key *)
Fixpoint last_given (k : string) (ps : pairs) (before : option val) : option val :=
  match ps with [] => before | (k', v) :: r => last_given k r (if String.eqb k k' then Some v else before) end.
(** the value of "roles" (of "options"): a list, or no entry if there was never one *)
Definition some_roles (b : option val) (l : list val) : Prop := b = Some (VRoles l) \/ (b = None /\ l = []).
Definition some_options (b : option val) (l : list val) : Prop := b = Some (VOptions l) \/ (b = None /\ l = []).
(** the four names that are treated specially *)
Definition special (k : string) : Prop := k = "role" \/ k = "roles" \/ k = "option" \/ k = "options".

(** positional values get the keys "@positional-1", "@positional-2", ... in order of appearance *)
Definition positional_key (n : nat) : string := ("@positional-" ++ itoaN (N.of_nat n))%string.
Fixpoint number_positions (l : list val) (n : nat) : pairs :=
  match l with
  | [] => []
  | PositionalAttribute _ v :: r => (positional_key (S n), v) :: number_positions r (S n)
  | Attribute k v :: r => (k, v) :: number_positions r n
  | _ :: r => number_positions r n
  end.
Definition is_attribute (v : val) : bool := match v with Attribute _ _ | PositionalAttribute _ _ => true | _ => false end.
(** the assignments of a series of attributes and attribute sets *)
Fixpoint flatten_sets (l : list val) : pairs :=
  match l with
  | [] => []
  | Attribute k v :: r => (k, v) :: flatten_sets r
  | VAttributes a :: r => a ++ flatten_sets r
  | _ :: r => flatten_sets r
  end.
Definition is_set (v : val) : bool := match v with Attribute _ _ | VAttributes _ => true | _ => false end.

(** the value that goes from the positional key [s] to the name [t]: nothing for nil and empty values *)
Definition moved (s t : string) (v : option val) : option val :=
  match v with
  | None | Some VNil | Some (VStr "") => None
  | Some v => if String.eqb s "@positional-1" && String.eqb t "roles" then Some (VRoles [v])
              else match v with VStr x => if String.eqb x t then Some (VBool true) else Some v | _ => Some v end
  end.
