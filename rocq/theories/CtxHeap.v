(** Parsing contexts with their Go sharing: attribute maps are references to a heap.
    Models pkg/parser/context.go. *)
From Verif Require Import GoBase Types Attrs.

(** the heap: maps addressed by their index *)
Definition heap := list attributes.
Definition hmap (h : heap) (a : nat) : attributes := nth a h [].
Fixpoint hupd (h : heap) (a : nat) (m : attributes) : heap :=
  match h, a with
  | [], _ => []
  | _ :: r, O => m :: r
  | x :: r, S b => x :: hupd r b m
  end.

(** context.go:62-66 contextAttributes: two references *)
Record hctx := mkH { h_imm : nat; h_doc : nat }.

(** context.go:68-74 newContextAttributes: the map of the configuration is shared, not copied *)
Definition hnew (h : heap) (cfg : nat) : heap * hctx := (h ++ [[]], mkH cfg (List.length h)).
(** attributes.go:209-215 Attributes.Clone: a copy made in iteration order *)
Definition hcopy (m : attributes) : attributes :=
  fold_left (fun acc kv => mset acc (fst kv) (snd kv)) m [].
(** context.go:76-84 contextAttributes.clone *)
Definition hclone (h : heap) (c : hctx) : heap * hctx :=
  (h ++ [hcopy (hmap h (h_imm c)); hcopy (hmap h (h_doc c))], mkH (List.length h) (S (List.length h))).
(** context.go:98-104 contextAttributes.get *)
Definition hget (h : heap) (c : hctx) (k : string) : option val :=
  match mget (hmap h (h_imm c)) k with
  | Some v => Some v
  | None => mget (hmap h (h_doc c)) k
  end.
(** context.go:86-96 contextAttributes.allAttributes *)
Definition hall (h : heap) (c : hctx) : attributes :=
  fold_left (fun acc kv => mset acc (fst kv) (snd kv)) (hmap h (h_imm c))
    (fold_left (fun acc kv => mset acc (fst kv) (snd kv)) (hmap h (h_doc c)) []).
(** context.go:113-120 contextAttributes.set *)
Definition hset (h : heap) (c : hctx) (k : string) (v : val) : heap :=
  hupd h (h_doc c) (mset (hmap h (h_doc c)) k v).
(** context.go:122-126 contextAttributes.unset *)
Definition hunset (h : heap) (c : hctx) (k : string) : heap :=
  hupd h (h_doc c) (mdel (hmap h (h_doc c)) k).
(** context.go:128-134 contextAttributes.setAll *)
Definition hsetAll (h : heap) (c : hctx) (attrs : attributes) : heap :=
  hupd h (h_doc c) (fold_left (fun acc kv => mset acc (fst kv) (snd kv)) attrs (hmap h (h_doc c))).

(** what a program can do with contexts, numbered in the order in which they are created *)
Inductive ctxop :=
| ONew (* NewParseContext(config) *)
| OClone (i : nat)
| OSet (i : nat) (k : string) (v : val)
| OUnset (i : nat) (k : string)
| OSetAll (i : nat) (attrs : attributes).

(** the configuration's map is at address 0 *)
Definition cstate := (heap * list hctx)%type.
Definition cstep (s : cstate) (o : ctxop) : cstate :=
  let (h, cs) := s in
  match o with
  | ONew => let (h', c) := hnew h 0 in (h', cs ++ [c])
  | OClone i => match nth_error cs i with
                | Some c => let (h', c') := hclone h c in (h', cs ++ [c'])
                | None => s
                end
  | OSet i k v => match nth_error cs i with Some c => (hset h c k v, cs) | None => s end
  | OUnset i k => match nth_error cs i with Some c => (hunset h c k, cs) | None => s end
  | OSetAll i a => match nth_error cs i with Some c => (hsetAll h c a, cs) | None => s end
  end.
Definition crun (config : attributes) (ops : list ctxop) : cstate := fold_left cstep ops ([config], []).
