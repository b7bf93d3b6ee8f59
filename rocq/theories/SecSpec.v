(** Specification vocabulary for sections, their ids and the table of contents.
    Uses only the data types, none of the model's functions. *)
From Verif Require Import GoBase Types Attrs Toc.

(** [base], [base_2], [base_3], ... *)
Definition suffixed (base : string) (k : N) : string :=
  if (k =? 1)%N then base else (base ++ "_" ++ itoaN k)%string.

(** [id] is the first of base, base_2, base_3, ... that is not in [taken] *)
Definition first_free (base : string) (taken : list string) (id : string) : Prop :=
  exists k, (1 <= k)%N /\ id = suffixed base k /\ ~ In id taken /\
            forall j, (1 <= j < k)%N -> In (suffixed base j) taken.

Definition is_section (v : val) : bool :=
  match v with Section _ _ _ _ => true | _ => false end.

(** the sections and blocks of a tree in document order; sections are listed without contents *)
Fixpoint flat (v : val) : list val :=
  match v with
  | Section l a t els => Section l a t [] :: flat_map flat els
  | _ => [v]
  end.

(** levels of the section children among a list of elements *)
Fixpoint child_levels (els : list val) : list Z :=
  match els with
  | [] => []
  | Section l _ _ _ :: r => l :: child_levels r
  | _ :: r => child_levels r
  end.

(** no block after a section *)
Fixpoint blocks_first (els : list val) : Prop :=
  match els with
  | [] => True
  | e :: r => (is_section e = true -> Forall (fun x => is_section x = true) r) /\ blocks_first r
  end.

Fixpoint nonincreasing (l : list Z) : Prop :=
  match l with
  | [] => True
  | x :: r => match r with [] => True | y :: _ => (y <= x)%Z end /\ nonincreasing r
  end.

(** the contents of one node of the section tree: blocks come first, each section child is
    deeper than the node, and a section is not deeper than its previous sibling (otherwise it
    would belong inside it) *)
Definition node_ok (parent : option Z) (els : list val) : Prop :=
  blocks_first els /\
  (match parent with Some p => Forall (fun l => (p < l)%Z) (child_levels els) | None => True end) /\
  nonincreasing (child_levels els).

Inductive tree_ok : val -> Prop :=
| tree_block v : is_section v = false -> tree_ok v
| tree_section l a t els :
    node_ok (Some l) els -> Forall tree_ok els -> tree_ok (Section l a t els).

(** the section tree of a document *)
Definition document_ok (els : list val) : Prop := node_ok None els /\ Forall tree_ok els.

(** [e'] is [e], except that the "id" attribute of a section may have been set *)
Definition same_but_id (e e' : val) : Prop :=
  (is_section e = false /\ e' = e) \/
  (exists l a t els id, e = Section l a t els /\ e' = Section l (mset a "id" (VStr id)) t els).

(** (id, level) of the ToC entries in preorder *)
Fixpoint toc_entries (t : tocsec) : list (string * Z) :=
  match t with TocSec id l sub => (id, l) :: flat_map toc_entries sub end.

(** every entry is nested exactly one level below its parent, down from [l] *)
Inductive toc_levels : Z -> tocsec -> Prop :=
| toc_levels_intro l id sub :
    Forall (toc_levels (l + 1)) sub -> toc_levels l (TocSec id l sub).

(** every child entry is deeper than its parent *)
Inductive toc_deeper : tocsec -> Prop :=
| toc_deeper_intro l id sub :
    Forall (fun c => (l < toc_level c)%Z /\ toc_deeper c) sub -> toc_deeper (TocSec id l sub).

(** ids of the sections that have a title, in document order (from a flattened document) *)
Definition titled_id (v : val) : list string :=
  match v with
  | Section _ a (Some _) _ =>
      match mget a "id" with
      | Some (VStr id) => if String.eqb id "" then [] else [id]
      | _ => []
      end
  | _ => []
  end.

(** (id, level) of all sections, in document order *)
Definition section_entry (v : val) : list (string * Z) :=
  match v with
  | Section l a _ _ => match mget a "id" with Some (VStr id) => [(id, l)] | _ => [] end
  | _ => []
  end.

(** the parser hands over sections without contents *)
Definition shallow (v : val) : Prop :=
  match v with Section _ _ _ els => els = [] | _ => True end.

(** an attribute declaration for [name], at top level or in the document header *)
Definition declares (name : string) (v : val) : bool :=
  let decl x := match x with AttributeDeclaration n _ => String.eqb n name | _ => false end in
  match v with
  | DocumentHeader _ _ els => existsb decl els
  | _ => decl v
  end.

(** forget the target of cross references (the only thing aggregation changes in blocks) *)
Fixpoint forget_xrefs (e : val) : val :=
  match e with
  | InternalCrossReference _ label => InternalCrossReference VNil label
  | DocumentHeader t a els => DocumentHeader t a (map forget_xrefs els)
  | ListBlock k a els => ListBlock k a (map forget_xrefs els)
  | ListElements els => ListElements (map forget_xrefs els)
  | CalloutListElement r a els => CalloutListElement r a (map forget_xrefs els)
  | OrderedListElement s a els => OrderedListElement s a (map forget_xrefs els)
  | UnorderedListElement b c a els => UnorderedListElement b c a (map forget_xrefs els)
  | LabeledListElement s t a els => LabeledListElement s t a (map forget_xrefs els)
  | Paragraph a els => Paragraph a (map forget_xrefs els)
  | DelimitedBlock k a els => DelimitedBlock k a (map forget_xrefs els)
  | Section l a t els => Section l a t (map forget_xrefs els)
  | QuotedText k els a => QuotedText k (map forget_xrefs els) a
  | Table a h rows f => Table a h (map forget_xrefs rows) f
  | TableRow cells => TableRow (map forget_xrefs cells)
  | TableCell f els => TableCell f (map forget_xrefs els)
  | _ => e
  end.


(** what a "toclevels" declaration amounts to: an integer, or 2 when it is not one *)
Definition toclevels_value (v : val) : Z :=
  match v with
  | VInt z => z
  | VStr s => match atoi s with Some z => z | None => 2%Z end
  | _ => 2%Z
  end.

(** the depth limit in force after an element; [fixed] is the value given through the API, which
    wins over the declarations in the document *)
Definition toclevels_decl (fixed : option val) (depth : Z) (v : val) : Z :=
  match v with
  | AttributeDeclaration n x =>
      if String.eqb n "toclevels"
      then toclevels_value (match fixed with Some f => f | None => x end)
      else depth
  | _ => depth
  end.
Definition toclevels_after (fixed : option val) (depth : Z) (v : val) : Z :=
  match v with
  | DocumentHeader _ _ els => fold_left (toclevels_decl fixed) els depth
  | _ => toclevels_decl fixed depth v
  end.

(** the entries the table of contents must have for the given elements: all sections whose
    level does not exceed the limit in force *)
Fixpoint toc_expected (fixed : option val) (depth : Z) (els : list val) : list (string * Z) :=
  match els with
  | [] => []
  | e :: r => filter (fun x => (snd x <=? depth)%Z) (section_entry e) ++
              toc_expected fixed (toclevels_after fixed depth e) r
  end.

(** a regular sequence of section levels: a section is at most one level below the previous
    one, and never above the first one *)
Fixpoint no_skip (first prev : Z) (l : list Z) : Prop :=
  match l with
  | [] => True
  | x :: r => (first <= x <= prev + 1)%Z /\ no_skip first x r
  end.


(** [front] (front matter), header, the content up to the first section, the first section and
    what follows *)
Definition front_matter_only (front : list val) : Prop :=
  front = [] \/ exists a, front = [FrontMatter a].
Definition before_section (v : val) : bool :=
  match v with
  | Section _ _ _ _ | DocumentHeader _ _ _ | FrontMatter _ => false
  | _ => true
  end.
Definition substantial (v : val) : bool :=
  match v with
  | BlankLine | AttributeDeclaration _ _ | AttributeReset _ => false
  | _ => true
  end.

(** does the element set or reset the document attribute [name]? *)
Definition touches (name : string) (v : val) : Prop :=
  let t x := match x with
             | AttributeDeclaration n _ | AttributeReset n => n = name
             | _ => False
             end in
  match v with
  | FrontMatter a => In name (mkeys a)
  | DocumentHeader _ _ els => Exists t els
  | _ => t v
  end.

(** the targets of the internal cross references in an element, in order *)
Fixpoint xref_ids (e : val) : list val :=
  match e with
  | InternalCrossReference id _ => [id]
  | DocumentHeader _ _ els | ListBlock _ _ els | ListElements els | CalloutListElement _ _ els
  | OrderedListElement _ _ els | UnorderedListElement _ _ _ els | LabeledListElement _ _ _ els
  | Paragraph _ els | DelimitedBlock _ _ els | Section _ _ _ els | QuotedText _ els _
  | Table _ _ els _ | TableRow els | TableCell _ els => flat_map xref_ids els
  | _ => []
  end.

(** a sequence of levels that goes back up only to the level of a section that is still open: each level is deeper than the one
    before it, or it was reached before and everything since then is deeper *)
Definition returning (levels : list Z) : Prop :=
  forall pre prev x post, levels = pre ++ prev :: x :: post ->
    (prev < x)%Z \/ exists a b, pre ++ [prev] = a ++ x :: b /\ Forall (fun y => (x < y)%Z) b.

(** position (in preorder, from [n] on) of the parent of each entry; [p] is the parent of the roots *)
Fixpoint toc_size (t : tocsec) : nat := match t with TocSec _ _ sub => S (list_sum (map toc_size sub)) end.
Fixpoint toc_parents (p : option nat) (n : nat) (t : tocsec) : list (option nat) :=
  match t with
  | TocSec _ _ sub =>
      p :: (fix go (n' : nat) (l : list tocsec) : list (option nat) :=
              match l with [] => [] | x :: r => toc_parents (Some n) n' x ++ go (n' + toc_size x) r end) (S n) sub
  end.
Fixpoint forest_parents (p : option nat) (n : nat) (l : list tocsec) : list (option nat) :=
  match l with [] => [] | x :: r => toc_parents p n x ++ forest_parents p (n + toc_size x) r end.

(** [p] is the position of the closest entry before position [j] that has a smaller level ([None]: there is none) *)
Definition closest_smaller (levels : list Z) (j : nat) (p : option nat) : Prop :=
  exists x, nth_error levels j = Some x /\
  match p with
  | Some i => (i < j)%nat /\ (exists y, nth_error levels i = Some y /\ (y < x)%Z) /\
              forall k y, (i < k < j)%nat -> nth_error levels k = Some y -> (x <= y)%Z
  | None => forall k y, (k < j)%nat -> nth_error levels k = Some y -> (x <= y)%Z
  end.
