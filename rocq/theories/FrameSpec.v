(** C76: the frame of a block in the HTML, and where its id, roles and title are written.  Nothing here depends on the renderer's templates. *)
From Coq Require Import List String Ascii Bool NArith.
From Verif Require Import GoBase Types Render.
From Verif Require ConvertSpec.
Import ListNotations.
Local Open Scope string_scope.

(** a value between quotes: the five characters of HTML are escaped, and a NUL character is replaced *)
Definition escaped_char (c : ascii) : string :=
  if Ascii.eqb c (chr 38) then "&amp;" else if Ascii.eqb c (chr 39) then "&#39;" else if Ascii.eqb c (chr 34) then "&#34;" else
  if Ascii.eqb c (chr 60) then "&lt;" else if Ascii.eqb c (chr 62) then "&gt;" else
  if Ascii.eqb c (chr 0) then String (chr 239) (String (chr 191) (String (chr 189) "")) else String c "".
Fixpoint escaped (s : string) : string := match s with "" => "" | String c s' => (escaped_char c ++ escaped s')%string end.

(** [<div id="..." class="base role role">], without id when it is empty *)
Definition opening (id base : string) (roles : list string) : string :=
  "<div " ++ (if String.eqb id "" then "" else "id=""" ++ escaped id ++ """ ") ++ "class=""" ++ String.concat " " (base :: roles) ++ """>" ++ LF.
Definition frame (id base : string) (roles : list string) (inner : string) : string := opening id base roles ++ inner ++ "</div>" ++ LF.
(** nothing when there is no title *)
Definition title_line (label title : string) : string := if String.eqb title "" then "" else "<div class=""title"">" ++ label ++ title ++ "</div>" ++ LF.
(** who is quoted, and where *)
Definition attribution (xhtml : bool) (author from : string) : string :=
  if String.eqb author "" then "" else
  "<div class=""attribution"">" ++ LF ++ "&#8212; " ++ author ++
  (if String.eqb from "" then "" else (if xhtml then "<br/>" else "<br>") ++ LF ++ "<cite>" ++ from ++ "</cite>") ++ LF ++ "</div>" ++ LF.
Definition content (h : string) : string := "<div class=""content"">" ++ LF ++ h ++ "</div>" ++ LF.

(** the HTML of a block of each kind: its id, roles, title, label, author, source and content *)
Definition block_html (xhtml : bool) (kind id : string) (roles : list string) (title label author from c : string) : option string :=
  let by_kind := [
    ("listing", ("listingblock", title_line "" title ++ content ("<pre>" ++ c ++ "</pre>" ++ LF)));
    ("fenced", ("listingblock", title_line "" title ++ content ("<pre class=""highlight""><code>" ++ c ++ "</code></pre>" ++ LF)));
    ("open", ("openblock", title_line "" title ++ content c));
    ("sidebar", ("sidebarblock", content (title_line "" title ++ c)));
    ("example", ("exampleblock", title_line label title ++ content c));
    ("quote", ("quoteblock", title_line "" title ++ "<blockquote>" ++ LF ++ c ++ "</blockquote>" ++ LF ++ attribution xhtml author from));
    ("markdown-quote", ("quoteblock", title_line "" title ++ "<blockquote>" ++ LF ++
       (if String.eqb c "" then "" else "<div class=""paragraph"">" ++ LF ++ "<p>" ++ c ++ "</p>" ++ LF ++ "</div>" ++ LF) ++ "</blockquote>" ++ LF ++
       attribution false author from));
    ("verse", ("verseblock", title_line "" title ++ "<pre class=""content"">" ++ c ++ "</pre>" ++ LF ++ attribution xhtml author from))] in
  match find (fun e => String.eqb (fst e) kind) by_kind with Some (_, (base, inner)) => Some (frame id base roles inner) | None => None end.
(** in these the line feeds around the content are dropped, and its paragraphs are written without frame *)
Definition strips (kind : string) : bool := existsb (String.eqb kind) ["listing"; "fenced"; "verse"; "markdown-quote"].
Definition inside (kind : string) : bool := existsb (String.eqb kind) ["listing"; "fenced"; "verse"].
Definition kept_content (kind raw c : string) : Prop := if strips kind then ConvertSpec.trimmed raw c else raw = c.
Definition within (st : rst) : rst := mkRst (r_attrs st) (r_counters st) true (r_list st) (r_log st).

(** a paragraph outside of lists and verbatim blocks *)
Definition paragraph_html (id : string) (roles : list string) (title c : string) : string :=
  frame id "paragraph" roles (title_line "" title ++ "<p>" ++ c ++ "</p>" ++ LF).
(** a source block, with the language it is written in; [nowrap] is an option of the block *)
Definition source_html (id : string) (roles : list string) (title language : string) (nowrap : bool) (c : string) : string :=
  frame id "listingblock" roles (title_line "" title ++ content ("<pre class=""highlight" ++ (if nowrap then " nowrap" else "") ++ """><code" ++
    (if String.eqb language "" then "" else " class=""language-" ++ language ++ """ data-lang=""" ++ language ++ """") ++ ">" ++ c ++ "</code></pre>" ++ LF)).
(** an admonition block *)
Definition admonition_block_html (id class : string) (roles : list string) (title caption c : string) : string :=
  frame id ("admonitionblock " ++ class) roles ("<table>" ++ LF ++ "<tr>" ++ LF ++ "<td class=""icon"">" ++ LF ++ "<div class=""title"">" ++ caption ++ "</div>" ++ LF ++
    "</td>" ++ LF ++ "<td class=""content"">" ++ LF ++ title_line "" title ++ c ++ "</td>" ++ LF ++ "</tr>" ++ LF ++ "</table>" ++ LF).

(** the attributes of a block: its id, its roles *)
Definition text_attribute (attrs : attributes) (name value : string) : Prop :=
  mget attrs name = Some (VStr value) \/ (mget attrs name = None /\ value = "").
Definition role_attribute (attrs : attributes) (roles : list string) : Prop :=
  (mget attrs "roles" = Some (VRoles (map VStr roles)) \/ (mget attrs "roles" = None /\ roles = [])) /\ roles <> [""].
(** its title, once rendered: a text, or elements *)
Inductive title_attribute (rendered : list val -> rst -> string -> rst -> Prop) (attrs : attributes) (st : rst) : string -> rst -> Prop :=
| no_title : mget attrs "title" = None -> title_attribute rendered attrs st "" st
| text_title : forall t, mget attrs "title" = Some (VStr t) -> title_attribute rendered attrs st t st
| rich_title : forall l t st', mget attrs "title" = Some (VSlice l) -> rendered l st t st' -> title_attribute rendered attrs st t st'.
(** no other attribute *)
Definition only_frame (attrs : attributes) : Prop := forall k, ~ In k ["id"; "roles"; "title"] -> mget attrs k = None.
(** the rendering of a sequence of elements, one after the other *)
Inductive all_rendered (E : renv) (k : nat) : list val -> rst -> string -> rst -> Prop :=
| r_none : forall st, all_rendered E k [] st "" st
| r_more : forall v l st h st1 t st2, renderElement E k v st = Ok (h, st1) -> all_rendered E k l st1 t st2 -> all_rendered E k (v :: l) st (h ++ t) st2.

(** the rest of the state is the same *)
Definition left_in (st st' : rst) : Prop := r_attrs st' = r_attrs st /\ r_counters st' = r_counters st /\ r_list st' = r_list st /\ r_log st' = r_log st.

(** the class of the frame of a list *)
Definition list_class (kind class : string) : Prop :=
  (kind = "unordered_list" /\ (class = "ulist" \/ class = "ulist checklist")) \/ (kind = "ordered_list" /\ exists style, class = ("olist " ++ style)%string) \/
  (kind = "labeled_list" /\ class = "dlist") \/ (kind = "callout_list" /\ class = "colist arabic").
