(** Specification for C29 and C58: the alphabet of a string, and the documents written in an alphabet. *)
From Verif Require Import GoBase Types Attrs Toc Escape Ids Render RenderKit HtmlSpec.
Local Open Scope string_scope.

(** every byte of [s] is in the alphabet *)
Definition over (P : ascii -> bool) (s : string) : Prop := all_chars P s = true.
Lemma over_iff P s : over P s <-> forall k c, String.get k s = Some c -> P c = true.
Proof.
  unfold over. induction s as [|c s IH]; cbn [all_chars]; [split; [intros _ [|k] c X; discriminate X|reflexivity]|]. rewrite andb_true_iff, IH. split.
  - intros [H1 H2] [|k] d X; cbn [String.get] in X; [injection X as <-; exact H1|eauto].
  - intros H. split; [now apply (H 0)|]. intros k d X. now apply (H (S k)).
Qed.

(** The bytes that the renderer writes by itself: printable ASCII and line feeds. *)
Definition basic (c : ascii) : Prop := (32 <= N_of_ascii c <= 126)%N \/ N_of_ascii c = 10%N.
(** An alphabet has these bytes.  A NUL byte in the value of an id or of a style is written as U+FFFD. *)
Definition alphabet (P : ascii -> bool) : Prop :=
  (forall c, basic c -> P c = true) /\ (P (chr 0) = true -> forall n, In n [239; 191; 189]%N -> P (chr n) = true).

Section Spec.
(** [conv]: the text is written without Unicode (the attribute "unicode" is "false") *)
Variable conv : bool.
Variable P : ascii -> bool.
Variable fmtv : val -> string.

(** text that is not converted: that of the elements of the list, or that at any depth *)
Definition raw_text (l : list val) : Prop := forall s, In (StringElement s) l -> over P s.
Definition raw_deep (l : list val) : Prop := forall v s, In v l -> occurs (StringElement s) v -> over P s.
Definition styled (a : attributes) (s : string) : Prop := mget a "style" = Some (VStr s).

(** the conditions on every part of the document, at any depth, attributes included.  With [conv], text is free, except
    where the renderer does not convert it: passthroughs, source blocks, verse paragraphs *)
Definition written (v : val) : Prop :=
  match v with
  | StringElement s => conv = true \/ over P s
  | VStr s => over P s
  | VAuthors l => Forall (fun a => over P (au_email a) /\ match au_name a with
                                                      | Some n => over P (fn_first n) /\ over P (fn_middle n) /\ over P (fn_last n)
                                                      | None => True end) l
  | VRevision r => over P (rev_number r) /\ over P (rev_date r) /\ over P (rev_remark r)
  | Symbol n => over P n
  | SpecialCharacter n => over P n
  | Location scheme path => over P scheme /\ over P (stringify fmtv path)
  | Icon class _ => over P class
  | InlineMenu path => Forall (over P) path
  | OrderedListElement style _ _ => over P style
  | InlinePassthrough _ es => raw_text es
  | Paragraph a es => (styled a "pass" \/ styled a "source" -> raw_text es) /\ (styled a "verse" -> raw_deep es)
  | DelimitedBlock kind a es => kind = "listing" -> styled a "source" -> raw_text es
  | AttributeDeclaration n _ => conv = true -> n <> "unicode"
  | AttributeReset n => conv = true -> n <> "unicode"
  | FrontMatter a => conv = true -> forall x, ~ In ("unicode", x) a
  | _ => True
  end.
Definition in_alphabet (v : val) : Prop := forall x, occurs x v -> written x.

(** the attributes of the configuration, and of the context *)
Definition attrs_in (a : attributes) : Prop :=
  (forall v, In v (map snd a) -> in_alphabet v) /\ (conv = true -> getAsBool a "unicode" true = false).
End Spec.

(** what the other packages compute keeps to the alphabet *)
Record keeps (conv : bool) (P : ascii -> bool) (E : renv) : Prop := {
  kp_lower : forall s, over P s -> over P (e_toLower E s);
  kp_fmtv : forall v, in_alphabet conv P (e_fmtv E) v -> over P (e_fmtv E v);
  kp_columns : forall v cols, in_alphabet conv P (e_fmtv E) v -> e_columns E v = Ok cols ->
    Forall (fun c => over P (rc_halign c) /\ over P (rc_valign c) /\ over P (rc_width c)) cols;
  kp_src : forall a v, attrs_in conv P (e_fmtv E) a -> in_alphabet conv P (e_fmtv E) v -> over P (e_src E a v);
  kp_alt : forall s r, over P s -> e_alt E s = Ok r -> over P r;
  kp_iconpath : forall a s, attrs_in conv P (e_fmtv E) a -> over P s -> over P (e_iconpath E a s);
  kp_macro : forall v r, in_alphabet conv P (e_fmtv E) v -> e_macro E v = Some (Ok r) -> over P r;
  kp_raw : forall v, in_alphabet conv P (e_fmtv E) v -> over P (e_raw E v);
  kp_highlight : forall ctx a i s r, over P s -> e_highlight E ctx a i s = Ok r -> over P r;
  kp_refs : forall id v, mget (e_refs E) id = Some v -> in_alphabet conv P (e_fmtv E) v;
  (** links in the title of an element that is referred to are written without their markup, and without conversion *)
  kp_labels : forall id l a loc, mget (e_refs E) id = Some (VSlice l) -> In (InlineLink a loc) l -> raw_deep P [InlineLink a loc]
}.

Fixpoint toc_ids (t : tocsec) : list string := match t with TocSec id _ sub => id :: flat_map toc_ids sub end.
Record doc_in (conv : bool) (P : ascii -> bool) (E : renv) (c : rconf) (d : rdoc) : Prop := {
  di_elements : Forall (in_alphabet conv P (e_fmtv E)) (rd_elements d);
  di_notes : Forall (in_alphabet conv P (e_fmtv E)) (rd_notes d);
  di_toc : forall l, rd_toc d = Some l -> Forall (fun t => Forall (over P) (toc_ids t)) l;
  di_updated : over P (rc_updated c);
  di_css : Forall (over P) (rc_css c);
  (** the title of the page is not converted *)
  di_title : rc_wrap c = true -> forall l, headerTitle (rd_elements d) = Some l -> raw_deep P l
}.
