(** Specification vocabulary for C19 and C20, independent of the model. *)
From Verif Require Import GoBase.

(** the substitutions a name of the [subs] attribute stands for (AsciiDoc language documentation) *)
Definition members (name : string) : option (list string) :=
  match name with
  | "normal" => Some ["inline_passthrough"; "attributes"; "specialchars"; "quotes"; "replacements";
                      "macros"; "post_replacements"]
  | "verbatim" => Some ["callouts"; "specialchars"]
  | "none" => Some []
  | "attributes" | "macros" | "quotes" | "replacements" | "post_replacements" | "callouts"
  | "specialchars" => Some [name]
  | _ => None
  end.

(** the entries of the attribute *)
Inductive entry :=
| Plain (name : string)      (* x  *)
| Append (name : string)     (* +x *)
| Prepend (name : string)    (* x+ *)
| Remove (name : string).    (* -x *)
Definition entry_name (e : entry) : string :=
  match e with Plain n | Append n | Prepend n | Remove n => n end.
Definition print_entry (e : entry) : string :=
  match e with
  | Plain n => n | Append n => "+" ++ n | Prepend n => n ++ "+" | Remove n => "-" ++ n
  end%string.
Definition incremental (e : entry) : bool := match e with Plain _ => false | _ => true end.

Definition members0 (n : string) : list string := match members n with Some l => l | None => [] end.
(** [k] is removed by one of the entries *)
Definition removed (later : list entry) (k : string) : bool :=
  existsb (fun e => match e with Remove n => existsb (String.eqb k) (members0 n) | _ => false end) later.
Definition keep (later : list entry) (l : list string) : list string :=
  filter (fun k => negb (removed later k)) l.
(** what the entries put in front and behind, a later removal counting *)
Fixpoint in_front (es : list entry) : list string :=
  match es with
  | [] => []
  | Prepend n :: r => in_front r ++ keep r (members0 n)
  | _ :: r => in_front r
  end.
Fixpoint behind (es : list entry) : list string :=
  match es with
  | [] => []
  | Append n :: r | Plain n :: r => keep r (members0 n) ++ behind r
  | _ :: r => behind r
  end.
Definition meaning (es : list entry) (default : list string) : list string :=
  in_front es ++ keep es (if forallb incremental es then default else []) ++ behind es.
