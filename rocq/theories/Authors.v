(** Model of the authors and revision of a document: DocumentHeader.Authors, DocumentAuthors.Expand, DocumentRevision.Expand
    (pkg/types/types.go:319-560) and of their rendering (pkg/renderer/sgml/document_details.go, sgml.go:292-304). *)
From Verif Require Import GoBase Types Attrs.

Definition AttrAuthors := "authors".
Definition AttrAuthor := "author".
Definition AttrEmail := "email".
Definition AttrRevision := "revision".

(** types.go:319-354 Authors.  The loop: [acc] is the result so far ([None]: nil slice).  Setting the first name of an author
    without name part is a nil pointer dereference *)
Fixpoint authors_loop (es : list val) (acc : option (list author)) : result (option (list author)) :=
  match es with
  | [] => Ok acc
  | AttributeDeclaration n v :: r =>
      if String.eqb n AttrAuthors then
        match v with VAuthors l => Ok (Some l) | _ => authors_loop r acc end
      else if String.eqb n AttrEmail then
        match v with
        | VStr e =>
            match acc with
            | None => authors_loop r (Some [mkAuthor None e])
            | Some [] => Panic "index out of range [0]"
            | Some (a :: l) => authors_loop r (Some (mkAuthor (au_name a) e :: l))
            end
        | _ => authors_loop r acc
        end
      else if String.eqb n AttrAuthor then
        match v with
        | VStr s =>
            match acc with
            | None => authors_loop r (Some [mkAuthor (Some (mkFullName s "" "")) ""])
            | Some [] => Panic "index out of range [0]"
            | Some (a :: l) =>
                match au_name a with
                | None => Panic "nil pointer dereference"
                | Some f => authors_loop r (Some (mkAuthor (Some (mkFullName s (fn_middle f) (fn_last f))) (au_email a) :: l))
                end
            end
        | _ => authors_loop r acc
        end
      else authors_loop r acc
  | _ :: r => authors_loop r acc
  end.
Definition headerAuthors (elements : list val) : result (option (list author)) := authors_loop elements None.

(** types.go:356-365 Revision *)
Fixpoint headerRevision (elements : list val) : option revision :=
  match elements with
  | [] => None
  | AttributeDeclaration n (VRevision rv) :: r => if String.eqb n AttrRevision then Some rv else headerRevision r
  | _ :: r => headerRevision r
  end.

(** types.go:471-476 key *)
Definition key (k : string) (i : nat) : string :=
  match i with O => k | S _ => (k ++ "_" ++ itoaN (N.of_nat (S i)))%string end.
(** types.go:478-483 initial: one byte *)
Definition initial (s : string) : string := stake 1 s.
(** types.go:527-539 FullName *)
Definition fullName (n : fullname) : string :=
  (fn_first n ++ (if String.eqb (fn_middle n) "" then "" else " " ++ fn_middle n)
              ++ (if String.eqb (fn_last n) "" then "" else " " ++ fn_last n))%string.
(** types.go:541-547 Initials *)
Definition initials (n : fullname) : string := (initial (fn_first n) ++ initial (fn_middle n) ++ initial (fn_last n))%string.

Definition set_nonempty (m : attributes) (k s : string) : attributes := if String.eqb s "" then m else mset m k (VStr s).
(** types.go:447-469 Expand *)
Fixpoint expand_loop (authors : list author) (i : nat) (m : attributes) : result attributes :=
  match authors with
  | [] => Ok m
  | a :: r =>
      match au_name a with
      | None => Panic "nil pointer dereference"
      | Some n =>
          let m := mset m (key "author" i) (VStr (fullName n)) in
          let m := mset m (key "authorinitials" i) (VStr (initials n)) in
          let m := mset m (key "firstname" i) (VStr (fn_first n)) in
          let m := set_nonempty m (key "middlename" i) (fn_middle n) in
          let m := set_nonempty m (key "lastname" i) (fn_last n) in
          let m := set_nonempty m (key "email" i) (au_email a) in
          expand_loop r (S i) m
      end
  end.
Definition expandAuthors (authors : list author) : result attributes := expand_loop authors 0 [(AttrAuthors, VAuthors authors)].

(** types.go:599-613 Expand of a revision *)
Definition expandRevision (r : revision) : attributes :=
  let m := [(AttrRevision, VRevision r)] in
  let m := set_nonempty m "revnumber" (rev_number r) in
  let m := set_nonempty m "revdate" (rev_date r) in
  set_nonempty m "revremark" (rev_remark r).

(** document_details.go:49-93 renderDocumentAuthorsDetails: the arguments (index, name, email) given to the template, one per
    author.  The Go loop has no bound; [fuel] bounds it here *)
Fixpoint details_loop (fuel : nat) (attrs : attributes) (i : nat) : list (string * string * string) :=
  match fuel with
  | O => []
  | S f =>
      let index := match i with 1%nat => "" | _ => itoaN (N.of_nat i) end in
      let authorKey := match i with 1%nat => "author" | _ => ("author_" ++ index)%string end in
      let emailKey := match i with 1%nat => "email" | _ => ("email_" ++ index)%string end in
      match getAsString attrs authorKey with
      | Some name => (index, name, match getAsString attrs emailKey with Some e => e | None => "" end) :: details_loop f attrs (S i)
      | None => []
      end
  end.
Definition authorsDetails (attrs : attributes) : list (string * string * string) := details_loop (S (List.length attrs)) attrs 1.

(** sgml.go:292-304 renderAuthors: the content of the "author" meta tag *)
Fixpoint fullNames (authors : list author) : result (list string) :=
  match authors with
  | [] => Ok []
  | a :: r => match au_name a with
              | None => Panic "nil pointer dereference"
              | Some n => do l <- fullNames r; Ok (fullName n :: l)
              end
  end.
Definition renderAuthors (header : list val) : result string :=
  do a <- headerAuthors header;
  match a with Some l => do names <- fullNames l; Ok (join "; " names) | None => Ok "" end.
