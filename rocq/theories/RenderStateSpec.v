(** What a document may change in the attributes of the configuration (C17, C18). *)
From Verif Require Import GoBase Types Attrs Authors AuthorsSpec Aggregate RenderKit Render.

(** the names of the captions *)
Definition label_names : list string := ["figure-caption"; "example-caption"; "table-caption"; "version-label"].

(** [x] declares or resets the attribute [k] *)
Definition declares (x : val) (k : string) : Prop :=
  match x with
  | AttributeDeclaration n _ | AttributeReset n => n = k
  | FrontMatter a => In k (mkeys a) \/ (k = "roles" /\ In "role" (mkeys a)) \/ (k = "options" /\ In "option" (mkeys a))
  | _ => False
  end.

(** the names that the authors and the revision of a header give rise to *)
Definition author_name (k : string) : Prop := k = "authors" \/ exists b n, In b bases /\ (0 < n)%nat /\ k = numbered b n.
Definition revision_name (k : string) : Prop := In k ["revision"; "revnumber"; "revdate"; "revremark"].

(** [x] is somewhere in what is rendered: the document, its footnotes, the titles that cross references show, and the title
    of the table of contents given by the caller *)
Definition somewhere (E : renv) (d : rdoc) (attrs : attributes) (x : val) : Prop :=
  exists v, occurs x v /\
    (In v (rd_elements d) \/ In v (rd_notes d) \/ (exists id, mget (e_refs E) id = Some v) \/ mget attrs "toc-title" = Some v).

(** the document may change the attribute [k] *)
Definition may_change (E : renv) (d : rdoc) (attrs : attributes) (k : string) : Prop :=
  In k label_names \/
  ((exists x n, somewhere E d attrs x /\ In n ["authors"; "author"; "email"] /\ declares x n) /\ author_name k) \/
  ((exists x, somewhere E d attrs x /\ declares x "revision") /\ revision_name k) \/
  (exists x, somewhere E d attrs x /\ declares x k).
