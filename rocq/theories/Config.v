(** Model of pkg/configuration/configuration.go and of the parsing of -a arguments (cmd/libasciidoc/root_cmd.go). *)
From Verif Require Import GoBase Types Attrs.

(** configuration.go:33-41 Configuration.  [c_attrs = None]: the map is nil.  Times and macro templates are opaque strings.
    Maps are values: that WithAttributes keeps a reference to the map of the caller is not modelled here *)
Record config := mkConfig { c_filename : string; c_attrs : option attributes; c_updated : string; c_wrap : bool;
                            c_css : list string; c_backend : string; c_macros : gomap string }.

(** configuration.go:53-137: the settings *)
Inductive setting :=
| WithFigureCaption (caption : string)
| WithLastUpdated (t : string)
| WithAttributes (a : option attributes)
| WithAttribute (k : string) (v : val)
| WithHeaderFooter (b : bool)
| WithCSS (l : list string)
| WithBackEnd (b : string)
| WithFilename (f : string)
| WithMacroTemplate (name t : string).

Definition with_attrs (c : config) (a : option attributes) : config :=
  mkConfig (c_filename c) a (c_updated c) (c_wrap c) (c_css c) (c_backend c) (c_macros c).
(** an assignment config.Attributes[k] = v *)
Definition put_attr (c : config) (k : string) (v : val) : result config :=
  match c_attrs c with
  | None => Panic "assignment to entry in nil map"
  | Some a => Ok (with_attrs c (Some (mset a k v)))
  end.
Definition is_html (b : string) : bool := existsb (String.eqb b) ["html"; "html5"; "xhtml"; "xhtml5"].
(** configuration.go:94-111 WithBackEnd *)
Definition with_backend (b : string) (c : config) : result config :=
  match c_attrs c with
  | None => Panic "assignment to entry in nil map"
  | Some a =>
      let base a := if is_html b then aset a "basebackend-html" (VBool true) else aunset a "basebackend-html" in
      let a := aset a "backend" (VStr b) in
      let a := base a in
      Ok (mkConfig (c_filename c) (Some (base a)) (c_updated c) (c_wrap c) (c_css c) b (c_macros c))
  end.
(** configuration.go:52-137 *)
Definition apply_setting (s : setting) (c : config) : result config :=
  match s with
  | WithFigureCaption cap => put_attr c "figure-caption" (VStr cap)
  | WithLastUpdated t => Ok (mkConfig (c_filename c) (c_attrs c) t (c_wrap c) (c_css c) (c_backend c) (c_macros c))
  | WithAttributes a => Ok (with_attrs c a)
  | WithAttribute k v => put_attr c k v
  | WithHeaderFooter b => Ok (mkConfig (c_filename c) (c_attrs c) (c_updated c) b (c_css c) (c_backend c) (c_macros c))
  | WithCSS l => Ok (mkConfig (c_filename c) (c_attrs c) (c_updated c) (c_wrap c) l (c_backend c) (c_macros c))
  | WithBackEnd b => with_backend b c
  | WithFilename f => Ok (mkConfig f (c_attrs c) (c_updated c) (c_wrap c) (c_css c) (c_backend c) (c_macros c))
  | WithMacroTemplate n t => Ok (mkConfig (c_filename c) (c_attrs c) (c_updated c) (c_wrap c) (c_css c) (c_backend c) (mset (c_macros c) n t))
  end.
Fixpoint apply_settings (ss : list setting) (c : config) : result config :=
  match ss with [] => Ok c | s :: r => do c <- apply_setting s c; apply_settings r c end.
(** configuration.go:12-30 NewConfiguration ([now]: the zero time) *)
Definition newConfiguration (now : string) (ss : list setting) : result config :=
  do c <- with_backend "html5" (mkConfig "" (Some [("basebackend-html", VBool true)]) now false [] "html5" []);
  apply_settings ss c.

(** root_cmd.go:126-137 parseAttributes *)
Definition parse_one (m : attributes) (attr : string) : attributes :=
  match split_char "="%char attr with
  | name :: value :: _ => mset m name (VStr value)
  | [name] => mset m name (VStr "")
  | [] => m
  end.
Definition parseAttributes (args : list string) : attributes := fold_left parse_one args [].
