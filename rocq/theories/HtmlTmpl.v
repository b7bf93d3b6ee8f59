(** Every template of the two renderers, checked. *)
From Verif Require Import GoBase GoLemmas Attrs Templates Tmpl HtmlSpec HtmlMachine HtmlOps TmplCheck.
Local Open Scope string_scope.

(** the fields that hold markup; all the others hold the values of attributes *)
Definition markup_fields : list (string * kind) :=
  (".HAlign", KAlign) :: (".VAlign", KAlign) ::
  map (fun f => (f, KText)) [".Title"; ".Content"; ".Term"; ".Label"; ".Icon"; ".Text"; ".Caption"; ".Header"; ".Details"; ".Authors";
                              ".Sections"; ".ToC"; ".Body"; ".Footer"; ".CheckStyle"; ".Name"].
Definition ktab (t : tname) : list (string * kind) :=
  match t with
  | TIconFont | TIconImage | TInlineImage => (".Title", KAttr) :: markup_fields
  | TArticle => (".Authors", KAttr) :: markup_fields
  | _ => markup_fields
  end.
(** the templates that produce balanced markup only if something holds *)
Definition tasm (t : tname) : asm :=
  match t with
  | TLiteralBlock => [(CField ".Roles", false)]
  | TIconImage => [(CField ".Alt", true)]
  | TInlineMenu => [(CField ".Path", true)]
  | _ => []
  end.
Definition start : state := (MT, []).
Definition open_row : state := (MT, ["td"; "tr"]).
Definition nodes (x : bool) (t : tname) : list node := match parse (if x then xhtml5 t else html5 t) with Some l => l | None => [] end.
Definition doctype : string := "<!DOCTYPE html>" ++ LF.

Definition template_ok (x : bool) (t : tname) : bool :=
  match t with
  | TSectionTitle => true                  (* the name of the element depends on a field *)
  | TLabeledListHorizontalElement =>
      let c b d := [(CField ".Continuation", b); (CField ".Content", d)] in
      ck (ktab t) (nodes x t) (c false true) start start && ck (ktab t) (nodes x t) (c false false) start open_row &&
      ck (ktab t) (nodes x t) (c true true) open_row start && ck (ktab t) (nodes x t) (c true false) open_row open_row
  | TArticle =>
      match nodes x t with
      | NLit s :: r => has_prefix s doctype && ck (ktab t) (NLit (sdrop (String.length doctype) s) :: r) [] start start
      | _ => false
      end
  | _ => ck (ktab t) (nodes x t) (tasm t) start start
  end.
Lemma templates_ok : forallb (fun t => template_ok false t && template_ok true t) all_templates = true.
Proof. vm_compute. reflexivity. Qed.

(** the templates checked as such *)
Definition normal (t : tname) : bool :=
  match t with TSectionTitle | TLabeledListHorizontalElement | TArticle => false | _ => true end.
Lemma all_complete t : In t all_templates.
Proof. destruct t; unfold all_templates; repeat (first [left; reflexivity | right]). Qed.
Lemma normals_ok : forallb (fun t => implb (normal t) (ck (ktab t) (nodes false t) (tasm t) start start && ck (ktab t) (nodes true t) (tasm t) start start)) all_templates = true.
Proof. vm_compute. reflexivity. Qed.
Lemma normal_ok x t : normal t = true -> ck (ktab t) (nodes x t) (tasm t) start start = true.
Proof.
  intros N. pose proof normals_ok as H. rewrite forallb_forall in H. specialize (H t (all_complete t)). cbv beta in H. rewrite N in H. cbn [implb] in H.
  apply andb_true_iff in H as [H1 H2]. destruct x; assumption.
Qed.
Definition plainT (t : tname) : bool := normal t && match t with TLiteralBlock | TIconImage | TInlineMenu => false | _ => true end.
Lemma plain_asm t : plainT t = true -> normal t = true /\ tasm t = [].
Proof. unfold plainT. intros N. apply andb_true_iff in N as [N1 N2]. split; [exact N1|]. destruct t; (reflexivity || discriminate N2). Qed.

(** the rows of a horizontal list: a term without description leaves its row open *)
Definition rows (cont : bool) : state := if cont then open_row else start.
Definition hasm (cont desc : bool) : asm := [(CField ".Continuation", cont); (CField ".Content", desc)].
Lemma horizontal_all : forallb (fun p => match p with (x, c, d) =>
    ck (ktab TLabeledListHorizontalElement) (nodes x TLabeledListHorizontalElement) (hasm c d) (rows c) (rows (negb d)) end)
  [(false, false, false); (false, false, true); (false, true, false); (false, true, true);
   (true, false, false); (true, false, true); (true, true, false); (true, true, true)] = true.
Proof. vm_compute. reflexivity. Qed.
Lemma horizontal_ok x c d :
  ck (ktab TLabeledListHorizontalElement) (nodes x TLabeledListHorizontalElement) (hasm c d) (rows c) (rows (negb d)) = true.
Proof.
  pose proof horizontal_all as H. rewrite forallb_forall in H. apply (H (x, c, d)).
  destruct x, c, d; repeat (first [left; reflexivity | right]).
Qed.

(** the page: the document type, then balanced markup *)
Definition strip_doctype (ns : list node) : option (list node) :=
  match ns with NLit s :: r => if has_prefix s doctype then Some (NLit (sdrop (String.length doctype) s) :: r) else None | _ => None end.
Definition article_nodes (x : bool) : list node := match strip_doctype (nodes x TArticle) with Some l => l | None => [] end.
Lemma article_ok x : ck (ktab TArticle) (article_nodes x) [] start start = true.
Proof. destruct x; vm_compute; reflexivity. Qed.
Lemma article_strip x : strip_doctype (nodes x TArticle) = Some (article_nodes x).
Proof. destruct x; vm_compute; reflexivity. Qed.
Definition title_nodes : list node :=
  [NLit "<h"; NField ".LevelPlusOne"; NLit " id="""; NFn "toLower" ".ID"; NLit """>"; NIf (CField ".Number") [NField ".Number"; NLit ". "] [];
   NField ".Content"; NLit "</h"; NField ".LevelPlusOne"; NLit (">" ++ LF)].
Lemma title_ok x : nodes x TSectionTitle = title_nodes.
Proof. destruct x; vm_compute; reflexivity. Qed.

(** some text is produced whatever the fields *)
Definition has_lit (ns : list node) : bool := existsb (fun n => match n with NLit s => negb (String.eqb s "") | _ => false end) ns.
Definition solid_templates : list tname :=
  [TAdmonitionBlock; TCalloutList; TEmbeddedParagraph; TExampleBlock; TFencedBlock; TLabeledList; TLabeledListHorizontal;
   TListingBlock; TLiteralBlock; TMarkdownQuoteBlock; TOpenBlock; TOrderedList; TPassthroughBlock; TQAndAList; TQuoteBlock; TSidebarBlock;
   TSourceBlock; TUnorderedList; TVerseBlock].
Lemma solids_ok : forallb (fun t => has_lit (nodes false t) && has_lit (nodes true t)) solid_templates = true.
Proof. vm_compute. reflexivity. Qed.
Lemma solid_ok x t : In t solid_templates -> has_lit (nodes x t) = true.
Proof.
  intros I. pose proof solids_ok as H. rewrite forallb_forall in H. apply H in I. apply andb_true_iff in I as [H1 H2]. destruct x; assumption.
Qed.
