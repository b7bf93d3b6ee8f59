(** What the settings of a configuration mean: each sets something, and the last one that sets it wins. *)
From Verif Require Import GoBase Types Config.

(** the last element of a list for which [f] says something *)
Fixpoint last_said {A B} (f : A -> option B) (l : list A) (d : B) : B :=
  match l with [] => d | x :: r => last_said f r (match f x with Some b => b | None => d end) end.

Definition sets_filename (s : setting) := match s with WithFilename f => Some f | _ => None end.
Definition sets_updated (s : setting) := match s with WithLastUpdated t => Some t | _ => None end.
Definition sets_wrap (s : setting) := match s with WithHeaderFooter b => Some b | _ => None end.
Definition sets_css (s : setting) := match s with WithCSS l => Some l | _ => None end.
Definition sets_backend (s : setting) := match s with WithBackEnd b => Some b | _ => None end.
Definition sets_macro (n : string) (s : setting) :=
  match s with WithMacroTemplate n' t => if String.eqb n n' then Some (Some t) else None | _ => None end.
(** the attribute [k]: set to a value, removed, or left alone.  A whole set of attributes decides about all of them *)
Definition sets_attr (k : string) (s : setting) : option (option val) :=
  match s with
  | WithAttributes (Some m) => Some (mget m k)
  | WithAttributes None => Some None
  | WithAttribute k' v => if String.eqb k k' then Some (Some v) else None
  | WithFigureCaption c => if String.eqb k "figure-caption" then Some (Some (VStr c)) else None
  | WithBackEnd b => if String.eqb k "backend" then Some (Some (VStr b))
                     else if String.eqb k "basebackend-html"
                          then Some (if existsb (String.eqb b) ["html"; "html5"; "xhtml"; "xhtml5"] then Some (VBool true) else None)
                          else None
  | _ => None
  end.
Definition default_attr (k : string) : option val :=
  if String.eqb k "backend" then Some (VStr "html5") else if String.eqb k "basebackend-html" then Some (VBool true) else None.

(** no setting replaces the attributes by a nil map *)
Definition no_nil (ss : list setting) : Prop := forall a, In (WithAttributes a) ss -> a <> None.

Definition attr_of (c : config) (k : string) : option val := match c_attrs c with Some a => mget a k | None => None end.
(** two configurations that cannot be told apart *)
Definition same_config (c d : config) : Prop :=
  c_filename c = c_filename d /\ c_updated c = c_updated d /\ c_wrap c = c_wrap d /\ c_css c = c_css d /\ c_backend c = c_backend d /\
  (forall k, attr_of c k = attr_of d k) /\ (forall n, mget (c_macros c) n = mget (c_macros d) n).

(** what a setting is about *)
Inductive topic := TFilename | TUpdated | TWrap | TCss | TBackend | TAttr (k : string) | TMacro (n : string).
Definition about (s : setting) (t : topic) : Prop :=
  match s, t with
  | WithFilename _, TFilename | WithLastUpdated _, TUpdated | WithHeaderFooter _, TWrap | WithCSS _, TCss | WithBackEnd _, TBackend => True
  | WithMacroTemplate n _, TMacro n' => n = n'
  | WithAttributes _, TAttr _ => True
  | WithAttribute k _, TAttr k' => k = k'
  | WithFigureCaption _, TAttr k => k = "figure-caption"
  | WithBackEnd _, TAttr k => k = "backend" \/ k = "basebackend-html"
  | _, _ => False
  end.
