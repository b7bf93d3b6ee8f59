(** Model of pkg/parser/context.go: the attributes of a parsing context.
    The mutex only serialises accesses and is not modelled. *)
From Verif Require Import GoBase Types Attrs.

(** context.go:62-66 contextAttributes *)
Record ctxattrs := mkCtx { immutableAttrs : attributes; docAttrs : attributes }.

(** context.go:68-74 newContextAttributes *)
Definition newContextAttributes (attrs : attributes) : ctxattrs := mkCtx attrs [].

(** attributes.go:209-215 Attributes.Clone, as a copy made in iteration order *)
Definition aclone (a : attributes) : attributes :=
  fold_left (fun acc kv => mset acc (fst kv) (snd kv)) a [].

(** context.go:76-84 contextAttributes.clone *)
Definition cclone (c : ctxattrs) : ctxattrs :=
  mkCtx (aclone (immutableAttrs c)) (aclone (docAttrs c)).

(** context.go:86-96 contextAttributes.allAttributes: document attributes, then the immutable ones
    on top *)
Definition callAttributes (c : ctxattrs) : attributes :=
  fold_left (fun acc kv => mset acc (fst kv) (snd kv)) (immutableAttrs c)
    (fold_left (fun acc kv => mset acc (fst kv) (snd kv)) (docAttrs c) []).

(** context.go:98-104 contextAttributes.get *)
Definition cget (c : ctxattrs) (k : string) : option val :=
  match mget (immutableAttrs c) k with
  | Some v => Some v
  | None => mget (docAttrs c) k
  end.

(** context.go:106-111 contextAttributes.getAsIntWithDefault *)
Definition cgetAsInt (c : ctxattrs) (k : string) (d : Z) : Z :=
  if ahas (immutableAttrs c) k then getAsInt (immutableAttrs c) k d
  else getAsInt (docAttrs c) k d.

(** context.go:113-120 contextAttributes.set *)
Definition cset (c : ctxattrs) (k : string) (v : val) : ctxattrs :=
  mkCtx (immutableAttrs c) (mset (docAttrs c) k v).

(** context.go:122-126 contextAttributes.unset *)
Definition cunset (c : ctxattrs) (k : string) : ctxattrs :=
  mkCtx (immutableAttrs c) (mdel (docAttrs c) k).

(** context.go:128-134 contextAttributes.setAll *)
Definition csetAll (c : ctxattrs) (attrs : attributes) : ctxattrs :=
  mkCtx (immutableAttrs c)
        (fold_left (fun acc kv => mset acc (fst kv) (snd kv)) attrs (docAttrs c)).
