(** Model of what happens to the attributes of the configuration when rendering begins: newContext
    (pkg/renderer/sgml/context.go) and the first part of Render (pkg/renderer/sgml/sgml.go).  The rendering context uses the
    map of the configuration itself: what is computed here is what the configuration contains afterwards. *)
From Verif Require Import GoBase Types Attrs Aggregate Authors.

(** context.go:36-39: the captions *)
Definition labels (a : attributes) : attributes :=
  mset (mset (mset (mset a "figure-caption" (VStr "Figure")) "example-caption" (VStr "Example")) "table-caption" (VStr "Table"))
       "version-label" (VStr "version").
(** context.go:41-50 *)
Definition expandHeader (els : list val) (a : attributes) : result attributes :=
  match docHeader els with
  | Some (DocumentHeader _ _ hes, _) =>
      do au <- headerAuthors hes;
      do a <- (match au with Some l => do x <- expandAuthors l; Ok (aaddall a x) | None => Ok a end);
      Ok (match headerRevision hes with Some r => aaddall a (expandRevision r) | None => a end)
  | _ => Ok a
  end.
(** context.go:22-48 newContext, the attributes.  [None]: the map is nil *)
Definition newContextAttrs (els : list val) (a : option attributes) : result attributes :=
  match a with
  | None => Panic "assignment to entry in nil map"
  | Some a => expandHeader els (labels a)
  end.

(** one element of sgml.go:52-60 or 62-73; other elements do nothing *)
Definition declare (a : attributes) (e : val) : attributes :=
  match e with
  | AttributeDeclaration n v => mset a n v
  | AttributeReset n => mdel a n
  | _ => a
  end.
(** sgml.go:52-60 *)
Definition headerDecls (els : list val) (a : attributes) : attributes :=
  match docHeader els with
  | Some (DocumentHeader _ _ hes, _) => fold_left declare hes a
  | _ => a
  end.
(** sgml.go:61-73: the declarations before any other element *)
Fixpoint leadingDecls (els : list val) (a : attributes) : attributes :=
  match els with
  | (AttributeDeclaration _ _ | AttributeReset _) as e :: r => leadingDecls r (declare a e)
  | _ => a
  end.
(** sgml.go:34-73: the attributes when the rendering of the content begins *)
Definition renderAttrs (els : list val) (a : option attributes) : result attributes :=
  do a <- newContextAttrs els a;
  Ok (leadingDecls els (headerDecls els a)).
