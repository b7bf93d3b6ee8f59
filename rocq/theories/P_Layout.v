(** C81: documents with title, authors, revision and footnotes. *)
From Coq Require Import List String Ascii NArith ZArith Bool Lia.
From Verif Require Import GoBase GoLemmas Types Attrs TocRender Templates Render FrameSpec P_Frames TagSpec P_Tags ItemSpec P_Items CellSpec P_TableHtml PartSpec P_Parts.
From Verif Require Import Authors AuthorsSpec LayoutSpec.
From Verif Require Tmpl ConvertSpec P_Convert P_ListHtml P_Authors.
Import ListNotations.
Local Open Scope string_scope.
Local Open Scope list_scope.

Lemma replaced s : ConvertSpec.no_lf s -> forall r, replace_all (s ++ r) LF " " = (s ++ replace_all r LF " ")%string.
Proof.
  induction s as [|c s IH]; intros N r; [reflexivity|]. destruct N as [Nc N]. unfold replace_all in *. cbn [append replace_all_from].
  assert (has_prefix (String c (s ++ r)) LF = false) as ->; [|cbv iota; now rewrite IH]. unfold LF, has_prefix. cbn -[chr]. destruct (Ascii.eqb_spec c (chr 10)); [congruence|reflexivity].
Qed.
Lemma lines_joined lines : Forall ConvertSpec.no_lf lines -> replace_all (String.concat LF lines) LF " " = String.concat " " lines.
Proof.
  induction 1 as [|s l N F IH]; [reflexivity|]. destruct l as [|s' l]; [cbn [String.concat]; rewrite <- (sapp_nil_r s) at 1; rewrite replaced by exact N; cbn; now rewrite sapp_nil_r|].
  change (String.concat LF (s :: s' :: l)) with (s ++ LF ++ String.concat LF (s' :: l))%string. change (String.concat " " (s :: s' :: l)) with (s ++ " " ++ String.concat " " (s' :: l))%string.
  rewrite replaced by exact N. rewrite <- IH. f_equal.
Qed.
Lemma text_string a name s : text_attribute a name s -> optS (getAsString a name) = s.
Proof. unfold getAsString. intros [->|[-> ->]]; reflexivity. Qed.
Fixpoint entries_from (i : nat) (l : list (string * string)) : list (string * string * string) := match l with [] => [] | p :: r => (index_of i, fst p, snd p) :: entries_from (S i) r end.
Lemma entries_nth l : forall i j, nth_error (entries_from i l) j = match nth_error l j with Some p => Some (index_of (i + j), fst p, snd p) | None => None end.
Proof. induction l as [|p l IH]; intros i [|j]; cbn [entries_from nth_error]; rewrite ?Nat.add_0_r; try reflexivity. rewrite IH. now rewrite Nat.add_succ_r. Qed.
Lemma entries_length l : forall i, List.length (entries_from i l) = List.length l.
Proof. induction l as [|p l IH]; intros i; cbn; [reflexivity|now rewrite IH]. Qed.
Lemma same_lists {A} (l m : list A) : (forall i, nth_error l i = nth_error m i) -> l = m.
Proof. revert m. induction l as [|x l IH]; intros [|y m] H; [reflexivity|discriminate (H 0)|discriminate (H 0)|]. pose proof (H 0%nat) as H0. injection H0 as <-. f_equal. apply IH. intros i. exact (H (S i)). Qed.
Lemma authors_ok a l : authors_attributes a l -> authorsDetails a = entries_from 0 l.
Proof.
  intros [H0 H1]. destruct (P_Authors.C41_details_any a) as [D0 D1]. set (d := authorsDetails a) in *.
  assert (List.length d = List.length l) as L.
  { destruct (Nat.lt_trichotomy (List.length d) (List.length l)) as [Q|[Q|Q]]; [|exact Q|].
    - destruct (nth_error l (List.length d)) as [[name email]|] eqn:X; [|apply nth_error_None in X; lia]. destruct (H0 _ _ _ X) as [Y _]. unfold getAsString in D1. rewrite Y in D1. discriminate D1.
    - destruct (nth_error d (List.length l)) as [x|] eqn:X; [|apply nth_error_None in X; lia]. destruct (D0 _ _ X) as (name & Y & _). unfold getAsString in Y.
      destruct (mget a (numbered "author" (S (List.length l)))) as [[]|] eqn:Z; try discriminate Y. now destruct (H1 s). }
  apply same_lists. intros i. rewrite entries_nth. destruct (nth_error d i) as [x|] eqn:X.
  - destruct (nth_error l i) as [[name email]|] eqn:Y; [|apply nth_error_None in Y; assert (i < List.length d)%nat by (apply nth_error_Some; congruence); lia].
    destruct (D0 _ _ X) as (name' & Z & ->). destruct (H0 _ _ _ Y) as [W1 W2]. unfold getAsString in Z. rewrite W1 in Z. injection Z as <-. cbn [fst snd Nat.add]. apply text_string in W2.
    unfold optS in W2. unfold index_of. destruct (getAsString a (numbered "email" (S i))); subst; reflexivity.
  - destruct (nth_error l i) as [p|] eqn:Y; [|reflexivity]. apply nth_error_None in X. assert (i < List.length l)%nat by (apply nth_error_Some; congruence). lia.
Qed.

Ltac nodes := lazymatch goal with
  | |- Tmpl.exec_nodes _ [] _ = _ => apply nodes_nil
  | |- Tmpl.exec_nodes _ (_ :: _) _ = _ => eapply nodes_cons; [node|nodes]
  end
with node := first [apply lit_node | eapply field_node; reflexivity | eapply int_node; reflexivity | eapply fn_node; [reflexivity|reflexivity] | eapply if_node; [reflexivity|nodes|nodes] | eapply ifint_node; [reflexivity|nodes|nodes]
  | eapply bool_node; [reflexivity|nodes|nodes] | eapply range_node; [reflexivity|apply range_map; intros; nodes]].
Ltac by_nodes := etransitivity; [nodes|apply f_equal; unfold LF; repeat (progress (rewrite ?sapp_assoc, ?sapp_nil_r; cbn [append]))].

Section Layout.
Variables (E : renv) (k : nat).
Lemma note_ok n ref c st : exec E TFootnoteElement [(".ID", Tmpl.FI n); (".Ref", Tmpl.FS ref); (".Content", Tmpl.FS c)] st = Ok (note_html (n, c), st).
Proof. eapply P_Convert.exec_ok; [unfold template; destruct (e_xhtml E); vm_compute; reflexivity|]. by_nodes. reflexivity. Qed.
Lemma notes_ok l st notes st1 : notes_rendered E k l st notes st1 -> renderFootnoteElements E (renderElement E k) l st = Ok (String.concat "" (map note_html notes), st1).
Proof.
  induction 1 as [st|n ref es l st raw st1 lines notes st2 A N S F R IH]; [reflexivity|]. cbn [renderFootnoteElements]. unfold bindM at 1. unfold renderFootnoteElement, bindM at 1.
  rewrite (inline_ok _ _ _ _ _ _ A N), (P_ListHtml.stripped_ok _ _ S), (lines_joined _ F), note_ok. unfold bindM. rewrite IH. unfold ret. cbn [map]. now rewrite concat_cons.
Qed.
Lemma footnotes_ok l st notes st1 : notes_rendered E k l st notes st1 -> renderFootnotes E (renderElement E k) l st = Ok (notes_html (e_xhtml E) notes, st1).
Proof.
  intros H. unfold renderFootnotes. destruct l as [|v l]; [inversion H; reflexivity|]. unfold bindM. rewrite (notes_ok _ _ _ _ H). unfold notes_html. destruct notes as [|p notes]; [inversion H|].
  generalize (String.concat "" (map note_html (p :: notes))). intros c. destruct (e_xhtml E) eqn:Ex; (eapply P_Convert.exec_ok; [unfold template; rewrite Ex; vm_compute; reflexivity|]); by_nodes; reflexivity.
Qed.
Lemma author_ok i n m st : exec E TDocumentAuthorDetails [(".Index", Tmpl.FS (index_of i)); (".Name", Tmpl.FS n); (".Email", Tmpl.FS m)] st = Ok (author_html (e_xhtml E) i (n, m), st).
Proof.
  unfold author_html. cbn [fst snd]. generalize (index_of i). intros x.
  destruct (e_xhtml E) eqn:Ex; (eapply P_Convert.exec_ok; [unfold template; rewrite Ex; vm_compute; reflexivity|]); by_nodes; destruct (String.eqb n ""), (String.eqb m ""); flat.
Qed.
Lemma author_list_ok l : forall i first st, renderAuthorsList E first (entries_from i l) st = Ok ((if first then "" else match l with [] => "" | _ => LF end) ++ String.concat LF (authors_from (e_xhtml E) i l), st)%string.
Proof.
  induction l as [|p l IH]; intros i first st; [now destruct first|]. cbn [entries_from renderAuthorsList]. unfold bindM. rewrite author_ok, IH. unfold ret. destruct p as [n m]. cbn [fst snd authors_from].
  destruct l as [|q l]; [destruct first; cbn [authors_from String.concat append]; now rewrite ?sapp_nil_r|]. destruct first; reflexivity.
Qed.
Lemma details_ok st h : details (e_xhtml E) (r_attrs st) h -> renderDocumentDetails E st = Ok (h, st).
Proof.
  intros H. unfold renderDocumentDetails, bindM at 1, getAttrs, ahas, mhas. destruct H as [->|authors label number date remark Ha Hau Hl Hn Hd Hr]; [reflexivity|].
  destruct (mget (r_attrs st) "authors"); [clear Ha|congruence]. unfold bindM. rewrite (authors_ok _ _ Hau), author_list_ok.
  rewrite (text_string _ _ _ Hl), (text_string _ _ _ Hn), (text_string _ _ _ Hd), (text_string _ _ _ Hr). unfold details_html. cbn [append].
  generalize (String.concat LF (authors_from (e_xhtml E) 0 authors)). intros a.
  destruct (e_xhtml E) eqn:Ex; (eapply P_Convert.exec_ok; [unfold template; rewrite Ex; vm_compute; reflexivity|]); by_nodes;
  (destruct (String.eqb a ""), (String.eqb label ""), (String.eqb number ""), (String.eqb date ""), (String.eqb remark ""); flat).
Qed.
Lemma header_ok t st h st1 d : all_rendered E k t st h st1 -> details (e_xhtml E) (r_attrs st1) d -> renderDocumentHeader E (renderElement E k) (Some t) st = Ok (header_html h d, st1).
Proof.
  intros A D. unfold renderDocumentHeader, bindM. rewrite (elements_ok _ _ _ _ _ _ A), (details_ok _ _ D). eapply P_Convert.exec_ok; [unfold template; destruct (e_xhtml E); vm_compute; reflexivity|]. by_nodes.
  unfold header_html. destruct (String.eqb_spec d "") as [->|]; flat.
Qed.
(** C81: a document with header; [wrap]: the page, or only its content *)
Theorem C81_document : forall (c : rconf) t ha hs body notes st title h st1 d b st2 ns st3 roles id names doctype description revision,
  mget (r_attrs st) "doctype" = None -> renderPlainText E (Types.VSlice t) = Ok title ->
  all_rendered E k t st h st1 -> details (e_xhtml E) (r_attrs st1) d -> mget (r_attrs st1) "toc" = None ->
  all_rendered E k body st1 b st2 -> notes_rendered E k notes st2 ns st3 ->
  role_attribute ha roles -> text_attribute ha "id" id -> renderAuthors hs = Ok names ->
  default_attribute (r_attrs st3) "doctype" "article" doctype -> text_attribute (r_attrs st3) "description" description -> text_attribute (r_attrs st3) "revnumber" revision ->
  renderDocument E (renderElement E k) c (mkRdoc (DocumentHeader (Some t) ha hs :: body) None notes) st =
  Ok ((if rc_wrap c then layout_html (e_xhtml E) description names (rc_css c) title id doctype roles (header_html h d) (b ++ notes_html (e_xhtml E) ns)
         (mhas (r_attrs st3) "noheader") (mhas (r_attrs st3) "nofooter") revision (rc_updated c)
       else b ++ notes_html (e_xhtml E) ns, title), st3)%string.
Proof.
  intros c t ha hs body notes st title h st1 d b st2 ns st3 roles id names doctype description revision Hd Hp Ht Hdt Htoc Hb Hn Hr Hi Hau Hdo Hde Hre. pose proof (proj2 Hr) as Nr.
  unfold renderDocument. cbn [rd_elements rd_toc rd_notes]. unfold headerTitle, hasHeader, headerAttrs, headerElements, Aggregate.docHeader. cbn [Aggregate.docHeader_from].
  unfold bindM at 1, lift at 1. rewrite Hp. unfold bindM at 1, ret at 1. unfold bindM at 1.
  assert (splitAndRender E (renderElement E k) c (mkRdoc (DocumentHeader (Some t) ha hs :: body) None notes) None st = Ok ((header_html h d, b ++ notes_html (e_xhtml E) ns)%string, st3)) as ->.
  { unfold splitAndRender, bindM at 1, getAttrs. cbn [rd_elements rd_toc rd_notes].
    assert (getD E (r_attrs st) "doctype" "article" = "article") as -> by (unfold getD, getAsStringD; now rewrite Hd). cbn [String.eqb Ascii.eqb Bool.eqb].
    unfold headerTitle, hasHeader, Aggregate.docHeader. cbn [Aggregate.docHeader_from Aggregate.bodyElements]. unfold bindM at 1. rewrite (header_ok _ _ _ _ _ Ht Hdt).
    unfold bindM at 1, renderDocumentBody, bindM at 1, getAttrs. rewrite Htoc. unfold bindM. rewrite (elements_ok _ _ _ _ _ _ Hb), (footnotes_ok _ _ _ _ Hn). reflexivity. }
  unfold bindM at 1. rewrite (roles_ok _ _ _ _ Hr). unfold bindM at 1, getAttrs. destruct (rc_wrap c) eqn:W; [|reflexivity].
  unfold bindM at 1, lift. rewrite Hau. unfold bindM. cbn [fst snd].
  rewrite (default_ok _ _ _ _ _ Hdo), (getD_text _ _ _ _ Hde), (getD_text _ _ _ _ Hre), (id_ok _ _ Hi). unfold ahas.
  unfold layout_html. rewrite (class_ok _ _ Nr). unfold class_of, attr. 
  generalize (header_html h d) (b ++ notes_html (e_xhtml E) ns)%string (mhas (r_attrs st3) "noheader") (mhas (r_attrs st3) "nofooter") (String.concat " " roles) (escaped id).
  intros hh bb nh nf rs ii. clear - hh.
  destruct (e_xhtml E) eqn:Ex; (erewrite P_Convert.exec_ok; [|unfold template; rewrite Ex; vm_compute; reflexivity|by_nodes; reflexivity]); unfold ret; apply (f_equal (fun x => Ok (x, title, st3))); unfold LF;
  (cbv zeta; destruct nh, nf; cbn [negb]; cbv iota; flat).
Qed.
End Layout.

(** * Instances *)
Definition demo_page : attributes := [("authors", Types.VStr ""); ("author", Types.VStr "Ada L"); ("email", Types.VStr "a@x"); ("author_2", Types.VStr "Bob"); ("revnumber", Types.VStr "1.0"); ("version-label", Types.VStr "version")].
Definition page_state : rst := mkRst demo_page [] false 0 [].
Definition demo_notes : list (Z * string) := [(1%Z, "see this"); (2%Z, "x")].
Lemma note_stripped : ConvertSpec.stripped "see
this" "see
this".
Proof.
  exists []. split; [reflexivity|]. split; [constructor|]. intros p u I. unfold ConvertSpec.white_space in I. cbn [In] in I.
  repeat (destruct I as [<-|I]; [split; intros Q; [discriminate Q|apply (f_equal (last_char "x")) in Q; rewrite last_app in Q by discriminate; vm_compute in Q; discriminate Q]|]). destruct I.
Qed.
Lemma x_stripped : ConvertSpec.stripped "x" "x".
Proof.
  exists []. split; [reflexivity|]. split; [constructor|]. intros p u I. unfold ConvertSpec.white_space in I. cbn [In] in I.
  repeat (destruct I as [<-|I]; [split; intros Q; [discriminate Q|apply (f_equal (last_char "x")) in Q; rewrite last_app in Q by discriminate; vm_compute in Q; discriminate Q]|]). destruct I.
Qed.
Example C81_hypotheses :
  renderDocument demo_part_env (renderElement demo_part_env 3) (mkRconf true "today" ["a.css"])
    (mkRdoc [DocumentHeader (Some [StringElement "T"]) [("id", Types.VStr "i"); ("roles", VRoles [Types.VStr "r"])] []; StringElement "x"] None
       [Footnote 1 VNil [StringElement ("see" ++ LF ++ "this")]; Footnote 2 VNil [StringElement "x"]]) page_state =
    Ok ((layout_html false "" "" ["a.css"] "T" "i" "article" ["r"] (header_html "T" (details_html false [("Ada L", "a@x"); ("Bob", "")] "version" "1.0" "" ""))
           ("x" ++ notes_html false demo_notes) false false "1.0" "today", "T"), page_state)%string /\
  details_html false [("Ada L", "a@x"); ("Bob", "")] "version" "1.0" "" "" =
    ("<div class=""details"">" ++ LF ++ "<span id=""author"" class=""author"">Ada L</span><br>" ++ LF ++ "<span id=""email"" class=""email""><a href=""mailto:a@x"">a@x</a></span><br>" ++ LF ++
     "<span id=""author2"" class=""author"">Bob</span><br>" ++ LF ++ "<span id=""revnumber"">version 1.0</span>" ++ LF ++ "</div>" ++ LF)%string.
Proof.
  split; [|reflexivity].
  refine (C81_document demo_part_env 3 (mkRconf true "today" ["a.css"]) [StringElement "T"] [("id", Types.VStr "i"); ("roles", VRoles [Types.VStr "r"])] [] [StringElement "x"]
    [Footnote 1 VNil [StringElement ("see" ++ LF ++ "this")]; Footnote 2 VNil [StringElement "x"]] page_state "T" "T" page_state _ "x" page_state demo_notes page_state ["r"] "i" "" "article" "" "1.0"
    _ _ _ _ _ _ _ _ _ _ _ _ _);
    [reflexivity|reflexivity|apply one_part; reflexivity| |reflexivity|apply one_part; reflexivity| |split; [left; reflexivity|discriminate]|left; reflexivity|reflexivity|right; split; reflexivity|right; split; reflexivity|left; reflexivity].
  - apply some_details; [discriminate| |left; reflexivity|left; reflexivity|right; split; reflexivity|right; split; reflexivity].
    split; [|intros s; vm_compute; discriminate]. intros [|[|[|i]]] name email Q; try discriminate Q; injection Q as <- <-; (split; [reflexivity|]); [left; reflexivity|right; split; reflexivity].
  - apply (more_notes demo_part_env 3 1 VNil [StringElement ("see" ++ LF ++ "this")] [Footnote 2 VNil [StringElement "x"]] page_state ("see" ++ LF ++ "this") page_state ["see"; "this"]);
      [apply one_part; reflexivity|now apply no_blank_end|exact note_stripped| |].
    { repeat (constructor; [cbn; repeat (split; [discriminate|]); exact Logic.I|]). constructor. }
    apply (more_notes demo_part_env 3 2 VNil [StringElement "x"] [] page_state "x" page_state ["x"]); [apply one_part; reflexivity|now apply no_blank_end|exact x_stripped| |constructor].
    { repeat (constructor; [cbn; repeat (split; [discriminate|]); exact Logic.I|]). constructor. }
Qed.
Print Assumptions C81_document.
Print Assumptions C81_hypotheses.
