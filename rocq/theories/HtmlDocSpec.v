(** Specification for C55: the documents whose rendering is shown to be well-formed. *)
From Verif Require Import GoBase Types Attrs Toc Escape Ids Render RenderKit HtmlSpec.
Local Open Scope string_scope.

(** the first element of the description of a term produces some text whatever it contains *)
Definition solid (v : val) : Prop :=
  match v with Paragraph _ _ | ListBlock _ _ _ | DelimitedBlock _ _ _ => True | _ => False end.
Definition icons_ok (v : val) : Prop := v = VStr "font" \/ v = VStr "text".

(** The conditions on every part of the document, at any depth (attributes included).
    - text has no "<" (the parser makes it a SpecialCharacter), and values of attributes no "<", quote or line feed;
    - the rest excludes the constructs for which the renderer does produce malformed markup (see P_Html.v): roles that contain
      markup, the attribute "lt", a title with markup on an inline image, roles on a literal block, a horizontal labeled list
      whose last term has no description, icons shown as images, a menu or a button without text. *)
Definition local (fmtv : val -> string) (v : val) : Prop :=
  match v with
  | StringElement s => text s
  | VStr s => safe s
  | VRoles l => forall r, In r l -> exists s, r = VStr s
  | VAuthors l => Forall (fun a => safe (au_email a) /\ match au_name a with
                                                      | Some n => safe (fn_first n) /\ safe (fn_middle n) /\ safe (fn_last n)
                                                      | None => True end) l
  | VRevision r => safe (rev_number r) /\ safe (rev_date r) /\ safe (rev_remark r)
  | PredefinedAttribute n => n <> "lt"
  | Symbol n => mget symbols n <> None
  | Location scheme path => safe scheme /\ safe (stringify fmtv path)
  | Icon class _ => safe class
  | InlineMenu path => path <> [] /\ Forall safe path
  | InlineButton a => exists l, mget a "label" = Some l /\ l <> VNil
  | InlineImage _ a => forall l, mget a "title" <> Some (VSlice l)
  | DelimitedBlock kind a _ => kind = "literal" -> mget a "roles" = None
  | Paragraph a _ => mget a "style" = Some (VStr "literal") \/ mget a "style" = Some (VStr "literal_paragraph") -> mget a "roles" = None
  | ListBlock kind a es => kind = "labeled_list" -> mget a "style" = Some (VStr "horizontal") ->
      forall items s t la body, es = (items ++ [LabeledListElement s t la body])%list -> exists x r, body = x :: r /\ solid x
  | OrderedListElement style _ _ => safe style
  | AttributeDeclaration n x => n = "icons" -> icons_ok x
  | FrontMatter a => (forall x, In ("icons", x) a -> icons_ok x) /\ (forall x, In ("role", x) a -> exists s, x = VStr s)
  | _ => True
  end.
Definition benign (fmtv : val -> string) (v : val) : Prop := forall x, occurs x v -> local fmtv x.

(** the attributes of the configuration *)
Definition attrs_ok (fmtv : val -> string) (a : attributes) : Prop :=
  (forall v, In v (map snd a) -> benign fmtv v) /\ (forall v, mget a "icons" = Some v -> icons_ok v).

(** what the other packages compute *)
Record sane (E : renv) : Prop := {
  sn_lower : forall s, safe s -> safe (e_toLower E s);
  sn_fmtv : forall v, benign (e_fmtv E) v -> safe (e_fmtv E v);
  sn_columns : forall v cols, benign (e_fmtv E) v -> e_columns E v = Ok cols ->
    Forall (fun c => (rc_halign c = "<" \/ safe (rc_halign c)) /\ (rc_valign c = "<" \/ safe (rc_valign c)) /\ safe (rc_width c)) cols;
  sn_src : forall a v, attrs_ok (e_fmtv E) a -> benign (e_fmtv E) v -> safe (e_src E a v);
  sn_alt : forall s r, safe s -> e_alt E s = Ok r -> safe r;
  sn_iconpath : forall a s, attrs_ok (e_fmtv E) a -> safe s -> safe (e_iconpath E a s);
  sn_macro : forall v r, benign (e_fmtv E) v -> e_macro E v = Some (Ok r) -> wf r;
  sn_raw : forall v, benign (e_fmtv E) v -> text (e_raw E v);
  sn_highlight : forall ctx a i s r, e_highlight E ctx a i s = Ok r -> wf r;
  sn_refs : forall id v, mget (e_refs E) id = Some v -> benign (e_fmtv E) v
}.

Fixpoint toc_idents (t : tocsec) : list string := match t with TocSec id _ sub => id :: flat_map toc_idents sub end.
Record doc_ok (E : renv) (c : rconf) (d : rdoc) : Prop := {
  dk_elements : Forall (benign (e_fmtv E)) (rd_elements d);
  dk_notes : Forall (benign (e_fmtv E)) (rd_notes d);
  dk_toc : forall l, rd_toc d = Some l -> Forall (fun t => Forall safe (toc_idents t)) l;
  dk_updated : safe (rc_updated c);
  dk_css : Forall safe (rc_css c)
}.
