(** Specification for C31: the value of a document attribute at a place of the document. *)
From Verif Require Import GoBase Types Attrs.

(** the value of the attribute [name] after an element, [cur] being its value before: declarations and resets, at top level or in the
    header, and the front matter *)
Definition after_decl (name : string) (cur : option val) (e : val) : option val :=
  match e with
  | AttributeDeclaration n v => if String.eqb n name then Some v else cur
  | AttributeReset n => if String.eqb n name then None else cur
  | _ => cur
  end.
Definition after_element (name : string) (cur : option val) (e : val) : option val :=
  match e with
  | FrontMatter a => fold_left (fun acc kv => if String.eqb (fst kv) name then Some (snd kv) else acc) a cur
  | DocumentHeader _ _ els => fold_left (after_decl name) els cur
  | _ => after_decl name cur e
  end.
(** the value after the elements [els] of a document; an attribute given by the caller ([given]) wins *)
Definition in_force (given : attributes) (els : list val) (name : string) : option val :=
  match mget given name with Some v => Some v | None => fold_left (after_element name) els None end.
(** the text of an attribute value *)
Definition text_or (fmtv : val -> string) (v : option val) (default : string) : string :=
  match v with
  | Some VNil => ""
  | Some (VStr s) => s
  | Some v => fmtv v
  | None => default
  end.
(** the prefix and the separator of generated ids, after the elements [els]; both are "_" by default *)
Definition id_setting (fmtv : val -> string) (given : attributes) (els : list val) (name : string) : string :=
  text_or fmtv (in_force given els name) "_".
