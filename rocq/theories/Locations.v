(** Model of types.Location (pkg/types/types.go) and of getImageSrc (pkg/renderer/sgml/image.go). *)
From Verif Require Import GoBase Types Attrs Merge Ids.

Section Loc.
  Variable fmtv : val -> string.
  (** url.Parse(s) of the Go standard library: [None] if it fails, otherwise whether the URL is absolute (has a scheme) *)
  Variable urlIsAbs : string -> option bool.

  (** types.go:3525-3537 NewLocation *)
  Definition newLocation (scheme : val) (path : list val) : val :=
    Location (match scheme with VStr s => s | _ => "" end) (Reduce (VSlice path)).
  (** types.go:3595-3603 ToString *)
  Definition toString (l : val) : string :=
    match l with Location scheme path => (scheme ++ stringify fmtv path)%string | _ => "" end.
  (** types.go:3549-3568 SetPathPrefix, with 3539-3545 SetPath *)
  Definition setPathPrefix (p : string) (l : val) : val :=
    match l with
    | Location scheme path =>
        if String.eqb p "" then l else
        let p := if has_suffix p "/" then p else (p ++ "/")%string in
        if String.eqb scheme "" && negb (has_prefix (toString l) "/") then
          match urlIsAbs (toString l) with
          | Some false => Location scheme (Reduce (VSlice (merge [VStr p; path])))
          | _ => l
          end
        else l
    | _ => l
    end.
  (** image.go:112-132 getImageSrc, without data-uri: the location after the call, and the source *)
  Definition getImageSrc (attrs : attributes) (l : val) : val * string :=
    let l := match getAsString attrs "imagesdir" with Some d => setPathPrefix d l | None => l end in
    (l, toString l).
End Loc.
