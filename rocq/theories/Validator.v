(** Model of pkg/validator/validator.go, of its use in Convert (libasciidoc.go) and of the part of the rendering of a manpage
    that depends on it (pkg/renderer/sgml/sgml.go). *)
From Verif Require Import GoBase Types Attrs Aggregate Config RenderAttrs.

Section Validator.
  (** strings.ToLower, left abstract *)
  Variable toLower : string -> string.
  Variable fmtv : val -> string.

  (** validator.go:96-104 withTitle *)
  Definition withTitle (t : string) (title : option (list val)) : bool :=
    match title with Some [StringElement c] => String.eqb (toLower c) t | _ => false end.
  (** validator.go:82-92 isSection with the two assertions of its callers *)
  Definition isSection (t : string) (e : val) : option (list val) :=
    match e with
    | Section lvl _ title els => if Z.eqb lvl 1 && withTitle t title then Some els else None
    | _ => None
    end.
  (** validator.go:42-69 validateManpage: the messages *)
  Definition validateManpage (els : list val) : result (list string) :=
    let p0 := match docHeader els with None => ["manpage document is missing a header"] | Some _ => [] end in
    let body := bodyElements els in
    match body with
    | [] => Panic "index out of range [0]"
    | e0 :: _ =>
        match isSection "name" e0 with
        | None => Ok (p0 ++ ["manpage document is missing the 'Name' section"])
        | Some nels =>
            if negb (List.length nels =? 1)%nat then Ok (p0 ++ ["'Name' section should contain a single paragraph"])
            else match nth_error body 1 with
                 | None => Panic "index out of range [1]"
                 | Some e1 => match isSection "synopsis" e1 with
                              | None => Ok (p0 ++ ["manpage document is missing the 'Synopsis' section"])
                              | Some _ => Ok p0
                              end
                 end
        end
    end.
  (** validator.go:11-16 Validate *)
  Definition validate (els : list val) (doctype : string) : result (list string) :=
    if String.eqb doctype "manpage" then validateManpage els else Ok [].

  (** libasciidoc.go:73-94: validation and its effect on the configuration *)
  Definition attrs_of (c : config) : attributes := match c_attrs c with Some a => a | None => [] end.
  Definition validateInto (els : list val) (c : config) : result config :=
    do ps <- validate els (getAsStringD fmtv (attrs_of c) AttrDocType "article");
    match ps with [] => Ok c | _ => put_attr c AttrDocType (VStr "article") end.

  (** sgml.go:216-223 splitAndRender: the doctype used for rendering, from the attributes at that time *)
  Definition renderDoctype (els : list val) (c : config) : result string :=
    do c <- validateInto els c;
    do a <- renderAttrs els (c_attrs c);
    Ok (getAsStringD fmtv a AttrDocType "article").

  (** sgml.go:244-273 splitAndRenderForManpage and 350-363 of renderManpageHeader: title of the first section, its paragraph and
      the remaining elements *)
  Definition splitManpage (els : list val) : result (option (list val) * val * list val) :=
    match bodyElements els with
    | [] => Panic "index out of range [0]"
    | Section _ _ title nels :: rest =>
        match nels with
        | [] => Panic "index out of range [0]"
        | Paragraph a es :: _ => Ok (title, Paragraph (aset a AttrStyle (VStr "manpage")) es, rest)
        | _ => Panic "interface conversion"
        end
    | _ => Panic "interface conversion"
    end.
End Validator.
