(** C79: tables. *)
From Coq Require Import List String Ascii NArith ZArith Bool Lia.
From Verif Require Import GoBase GoLemmas Types Attrs TocRender Templates Render FrameSpec P_Frames TagSpec P_Tags ItemSpec P_Items CellSpec.
From Verif Require Tmpl ConvertSpec P_Convert P_ListHtml.
Import ListNotations.
Local Open Scope string_scope.
Local Open Scope list_scope.

Section Nodes.
Variable low : string -> string.
Lemma int_node f e n : Tmpl.field e f = Ok (Tmpl.FI n) -> Tmpl.exec_node low (Tmpl.NField f) e = Ok (itoa n).
Proof. intros Hf. cbn [Tmpl.exec_node]. rewrite Hf. reflexivity. Qed.
Lemma ifint_node f a b e n sa sb : Tmpl.field e f = Ok (Tmpl.FI n) -> Tmpl.exec_nodes low a e = Ok sa -> Tmpl.exec_nodes low b e = Ok sb ->
  Tmpl.exec_node low (Tmpl.NIf (Tmpl.CField f) a b) e = Ok (if Z.eqb n 0 then sb else sa).
Proof.
  intros Hf Ha Hb. change (bind (Tmpl.eval e (Tmpl.CField f)) (fun t => if t then Tmpl.exec_nodes low a e else Tmpl.exec_nodes low b e) = Ok (if Z.eqb n 0 then sb else sa)).
  cbn [Tmpl.eval]. rewrite Hf. cbn [bind Tmpl.truth]. destruct (Z.eqb n 0); assumption.
Qed.
Lemma fn_node fn f e x y : Tmpl.field e f = Ok (Tmpl.FS x) -> Tmpl.call low fn (Tmpl.FS x) = Ok y -> Tmpl.exec_node low (Tmpl.NFn fn f) e = Ok y.
Proof. intros Hf Hc. cbn [Tmpl.exec_node]. rewrite Hf. exact Hc. Qed.
Lemma range_node i v f body e l y : Tmpl.field e f = Ok (Tmpl.FL l) -> Tmpl.exec_range low i v body e l 0 = Ok y -> Tmpl.exec_node low (Tmpl.NRange i v f body) e = Ok y.
Proof. intros Hf Hr. cbn [Tmpl.exec_node]. rewrite Hf. cbn [bind]. rewrite <- Hr. clear. generalize 0%nat. induction l as [|x l IH]; intros n; [reflexivity|]. cbn [Tmpl.exec_range]. rewrite <- IH. reflexivity. Qed.
Lemma range_map {A} i v body e (proj : A -> list (string * string)) (html : A -> string) l :
  (forall a n, Tmpl.exec_nodes low body (Tmpl.bind_elt i v n (proj a) e) = Ok (html a)) -> forall n, Tmpl.exec_range low i v body e (map proj l) n = Ok (String.concat "" (map html l)).
Proof. intros H. induction l as [|a l IH]; intros n; [reflexivity|]. cbn [map Tmpl.exec_range]. rewrite H. cbn [bind]. rewrite IH. cbn [bind]. now rewrite concat_cons. Qed.
End Nodes.
Lemma width_values : forall n, (0 < n <= 100)%Z -> atoi (trim_suffix (itoa n) "%") = Some n /\ atoi (trim_suffix (itoa n ++ "%") "%") = Some n.
Proof.
  assert (Forall (fun m => atoi (trim_suffix (itoa (Z.of_nat m)) "%") = Some (Z.of_nat m) /\ atoi (trim_suffix (itoa (Z.of_nat m) ++ "%") "%") = Some (Z.of_nat m)) (seq 1 100)) as F.
  { repeat (apply Forall_cons; [split; vm_compute; reflexivity|]). constructor. }
  intros n Hn. rewrite Forall_forall in F. specialize (F (Z.to_nat n)). rewrite Z2Nat.id in F by lia. apply F, in_seq. lia.
Qed.
Lemma has_option attrs b : (b = true <-> autowidth_attribute attrs) -> hasOption attrs "autowidth" = b.
Proof.
  intros H. apply eq_true_iff_eq. rewrite H. unfold hasOption, autowidth_attribute, ahas, mhas, AttrOptions. rewrite orb_true_iff. split; intros [X|X].
  - left. destruct (mget attrs "options") as [[]|] eqn:Q; try discriminate X. eexists. split; [reflexivity|]. apply existsb_exists in X. destruct X as (o & I & X).
    destruct o; try discriminate X. cbn in X. apply String.eqb_eq in X. subst. exact I.
  - right. destruct (mget attrs "autowidth"); congruence.
  - left. destruct X as (os & -> & I). apply existsb_exists. eexists. split; [exact I|]. reflexivity.
  - right. destruct (mget attrs "autowidth"); congruence.
Qed.
Lemma default_ok E attrs name d v : default_attribute attrs name d v -> getD E attrs name d = v.
Proof. unfold getD, getAsStringD. intros [->|[-> ->]]; reflexivity. Qed.

Ltac nodes := lazymatch goal with
  | |- Tmpl.exec_nodes _ [] _ = _ => apply nodes_nil
  | |- Tmpl.exec_nodes _ (_ :: _) _ = _ => eapply nodes_cons; [node|nodes]
  end
with node := first [apply lit_node | eapply field_node; reflexivity | eapply int_node; reflexivity | eapply fn_node; [reflexivity|reflexivity] | eapply if_node; [reflexivity|nodes|nodes] | eapply ifint_node; [reflexivity|nodes|nodes]
  | eapply range_node; [reflexivity|apply range_map; intros; nodes]].
Ltac by_nodes := etransitivity; [nodes|apply f_equal; unfold LF; repeat (progress (rewrite ?sapp_assoc, ?sapp_nil_r; cbn [append]))].

Section Tables.
Variables (E : renv) (k : nat).
Lemma block_ok v st h st1 : block_in_cell E k v st h st1 -> renderTableCellBlock E (renderElement E k) v st = Ok (h, st1).
Proof.
  destruct 1 as [attrs es check mark st c st1 t st2 A Ti I Hc|v st h c st1 N R Hh].
  - unfold renderTableCellBlock, bindM. rewrite (elements_ok _ _ _ _ _ _ A), (title_ok _ _ _ _ _ _ Ti).
    assert (renderCheckStyle (mget attrs "checkstyle") = mark) as ->.
    { cbv [check_marks In] in I. destruct Hc as [->|[-> ->]].
      - repeat (destruct I as [I|I]; [injection I as <- <-; reflexivity|]). destruct I.
      - destruct I as [I|I]; [injection I as <-; reflexivity|]. repeat (destruct I as [I|I]; [discriminate I|]). destruct I. }
    erewrite P_Convert.exec_ok; [|unfold template; destruct (e_xhtml E); vm_compute; reflexivity|by_nodes; reflexivity].
    unfold ret. cbn [String.eqb Ascii.eqb Bool.eqb]. apply (f_equal (fun x => Ok (x, st2))).
    assert (forall a b, trim_suffix (a ++ b ++ "</p>" ++ LF) LF = (a ++ b ++ "</p>"))%string as X.
    { intros a b. rewrite <- (trim_suffix_app (a ++ b ++ "</p>") LF) at 1. now rewrite !sapp_assoc. }
    pose proof (X "<p class=""tableblock"">" (mark ++ c))%string as Y. rewrite !sapp_assoc in Y. rewrite <- Y. unfold LF. flat.
  - assert (renderTableCellBlock E (renderElement E k) v st = bindM (renderElement E k v) (fun s => exec E TTableCellBlock [(".Content", Tmpl.FS s)]) st) as ->.
    { destruct v; try reflexivity. edestruct N; reflexivity. }
    unfold bindM. rewrite R. assert (trim_suffix h LF = c) as Q.
    { destruct Hh as [->|[<- Hh]]; [apply trim_suffix_app|]. unfold trim_suffix. destruct (has_suffix h LF) eqn:X; [|reflexivity]. apply has_suffix_iff in X. destruct X as (r & X). now destruct (Hh r). }
    erewrite P_Convert.exec_ok; [reflexivity|unfold template; destruct (e_xhtml E); vm_compute; reflexivity|]. by_nodes. unfold LF in Q. now rewrite Q.
Qed.
Lemma blocks_ok l st h st1 : blocks_in_cell E k l st h st1 -> renderCellBlocks E (renderElement E k) l st = Ok (h, st1).
Proof. induction 1 as [st|v l st h st1 t st2 B Bs IH]; [reflexivity|]. cbn [renderCellBlocks]. unfold bindM. rewrite (block_ok _ _ _ _ B), IH. reflexivity. Qed.
Lemma th_html col c st : exec E TTableHeaderCell (cell_fields col c) st = Ok (cell_html "th" (col, c), st).
Proof. eapply P_Convert.exec_ok; [unfold template; destruct (e_xhtml E); vm_compute; reflexivity|]. unfold cell_html, horizontally, vertically, cell_fields. cbn [fst snd]. by_nodes. reflexivity. Qed.
Lemma td_html col c st : exec E TTableCell (cell_fields col c) st = Ok (cell_html "td" (col, c), st).
Proof. eapply P_Convert.exec_ok; [unfold template; destruct (e_xhtml E); vm_compute; reflexivity|]. unfold cell_html, horizontally, vertically, cell_fields. cbn [fst snd]. by_nodes. reflexivity. Qed.
Lemma tf_html col c st : exec E TTableFooterCell (cell_fields col c) st = Ok (footer_cell_html (col, c), st).
Proof. eapply P_Convert.exec_ok; [unfold template; destruct (e_xhtml E); vm_compute; reflexivity|]. unfold footer_cell_html, cell_html, horizontally, vertically, cell_fields. cbn [fst snd]. by_nodes. reflexivity. Qed.
Lemma cell_ok v st c st1 col : body_cell E k v st c st1 -> renderTableCell E (renderElement E k) v col st = Ok (body_cell_html (col, c), st1).
Proof.
  destruct 1 as [f es st c st1 B]. unfold renderTableCell, bindM. rewrite (blocks_ok _ _ _ _ B). unfold body_cell_html. cbn [fst].
  destruct (String.eqb (rc_style col) "h"); [apply th_html|apply td_html].
Qed.
Lemma cells_ok cols cells st cs st1 : cells_rendered (body_cell E k) cols cells st cs st1 ->
  forall pre, renderCells E (renderElement E k) (pre ++ cols) (List.length pre) cells st = Ok (String.concat "" (map body_cell_html cs), st1).
Proof.
  induction 1 as [cols st|col cols v l st c st1 cs st2 C Cs IH]; intros pre; [reflexivity|]. cbn [renderCells].
  rewrite nth_error_app2, Nat.sub_diag by lia. cbn [nth_error]. unfold bindM. rewrite (cell_ok _ _ _ _ _ C).
  specialize (IH (pre ++ [col])). rewrite <- app_assoc, app_length, Nat.add_1_r in IH. cbn [app] in IH. rewrite IH. unfold ret. cbn [map]. now rewrite concat_cons.
Qed.
Lemma rows_ok cols l st rows st1 : rows_rendered E k cols l st rows st1 ->
  renderRows E (renderElement E k) cols l st = Ok (String.concat "" (map (cells_html body_cell_html) rows), st1).
Proof.
  induction 1 as [st|cells l st cs st1 rows st2 C R IH]; [reflexivity|]. cbn [renderRows]. unfold bindM. pose proof (cells_ok _ _ _ _ _ C []) as Q. cbn [app List.length] in Q. rewrite Q. clear Q.
  erewrite P_Convert.exec_ok; [|unfold template; destruct (e_xhtml E); vm_compute; reflexivity|by_nodes; reflexivity]. rewrite IH. unfold ret. cbn [map]. rewrite concat_cons. unfold cells_html at 2. flat.
Qed.
Lemma edge_cells_ok tc html cols cells st cs st1 : (forall col c st, exec E tc (cell_fields col c) st = Ok (html (col, c), st)) -> cells_rendered (edge_cell E k) cols cells st cs st1 ->
  forall pre, renderEdgeCells E (renderElement E k) tc (pre ++ cols) (List.length pre) cells st = Ok (String.concat "" (map html cs), st1).
Proof.
  intros X. induction 1 as [cols st|col cols v l st c st1 cs st2 C Cs IH]; intros pre; [reflexivity|]. cbn [renderEdgeCells].
  destruct (pre ++ col :: cols) as [|d all] eqn:Q; [now destruct pre|]. rewrite <- Q.
  assert (nth (Datatypes.length pre mod Datatypes.length (pre ++ col :: cols)) (pre ++ col :: cols) d = col) as ->.
  { rewrite Nat.mod_small by (rewrite app_length; cbn [List.length]; lia). rewrite app_nth2, Nat.sub_diag by lia. reflexivity. }
  destruct C as [f attrs es st c st1 A N]. unfold bindM at 1. unfold renderEdgeCell, bindM at 1. rewrite (inline_ok _ _ _ _ _ _ A N), X.
  specialize (IH (pre ++ [col])). rewrite <- app_assoc, app_length, Nat.add_1_r in IH. cbn [app] in IH. unfold bindM. rewrite IH. unfold ret. cbn [map]. now rewrite concat_cons.
Qed.
Lemma edge_ok t tc tag html cols v st cs st1 : (forall col c st, exec E tc (cell_fields col c) st = Ok (html (col, c), st)) -> (forall e, html e <> "") ->
  (forall c st, exec E t [(".Content", Tmpl.FS c)] st = Ok (if String.eqb c "" then "" else "<" ++ tag ++ ">" ++ LF ++ "<tr>" ++ LF ++ c ++ "</tr>" ++ LF ++ "</" ++ tag ++ ">" ++ LF, st)%string) ->
  edge_rendered E k cols v st cs st1 -> renderEdgeRow E (renderElement E k) t tc v cols st = Ok (edge_html tag html cs, st1).
Proof.
  intros X N Y. destruct 1 as [v st H|cells st cs st1 C]; [destruct v; try reflexivity; edestruct H; reflexivity|].
  unfold renderEdgeRow, bindM. pose proof (edge_cells_ok tc html cols _ _ _ _ X C []) as Q. cbn [app List.length] in Q. rewrite Q, Y. clear Q. destruct cs as [|e cs]; [reflexivity|]. cbn [map]. rewrite concat_cons.
  unfold edge_html, cells_html. cbn [map]. rewrite concat_cons. specialize (N e). destruct (html e); [congruence|]. cbn [append String.eqb]. flat.
Qed.
Lemma cell_not_empty tag e : cell_html tag e <> "".
Proof. discriminate. Qed.
Lemma thead_html c st : exec E TTableHeader [(".Content", Tmpl.FS c)] st = Ok (if String.eqb c "" then "" else "<thead>" ++ LF ++ "<tr>" ++ LF ++ c ++ "</tr>" ++ LF ++ "</thead>" ++ LF, st)%string.
Proof. eapply P_Convert.exec_ok; [unfold template; destruct (e_xhtml E); vm_compute; reflexivity|]. by_nodes. reflexivity. Qed.
Lemma tfoot_html c st : exec E TTableFooter [(".Content", Tmpl.FS c)] st = Ok (if String.eqb c "" then "" else "<tfoot>" ++ LF ++ "<tr>" ++ LF ++ c ++ "</tr>" ++ LF ++ "</tfoot>" ++ LF, st)%string.
Proof. eapply P_Convert.exec_ok; [unfold template; destruct (e_xhtml E); vm_compute; reflexivity|]. by_nodes. reflexivity. Qed.
Lemma tbody_html c st : exec E TTableBody [(".Content", Tmpl.FS c)] st = Ok (if String.eqb c "" then "" else "<tbody>" ++ LF ++ c ++ "</tbody>" ++ LF, st)%string.
Proof. eapply P_Convert.exec_ok; [unfold template; destruct (e_xhtml E); vm_compute; reflexivity|]. by_nodes. reflexivity. Qed.
Lemma width_ok attrs n : width_attribute attrs n -> match atoi (trim_suffix (getD E attrs "width" "") "%") with Some n => n | None => 0%Z end = n /\ (0 <= n <= 100)%Z.
Proof.
  unfold getD, getAsStringD. intros [[-> ->]|[B [->| ->]]]; [split; [reflexivity|lia]| |]; destruct (width_values n B) as [Q1 Q2]; [rewrite Q1|rewrite Q2]; (split; [reflexivity|lia]).
Qed.
(** C79 *)
Theorem C79_table : forall attrs header rows footer id frame grid stripes float roles width autowidth label title cols h r f st st1 st2 st3 st4,
  text_attribute attrs "id" id -> default_attribute attrs "frame" "all" frame -> default_attribute attrs "grid" "all" grid ->
  text_attribute attrs "stripes" stripes -> text_attribute attrs "float" float -> role_attribute attrs roles ->
  width_attribute attrs width -> (autowidth = true <-> autowidth_attribute attrs) ->
  (mget attrs "title" <> None -> mget attrs "caption" = Some (Types.VStr label) /\ contains label "{counter:table-number}" = false) ->
  e_columns E (Table attrs header rows footer) = Ok cols ->
  edge_rendered E k cols header st h st1 -> edge_rendered E k cols footer st1 f st2 -> rows_rendered E k cols rows st2 r st3 ->
  title_attribute (all_rendered E k) attrs st3 title st4 ->
  renderElement E (S k) (Table attrs header rows footer) st = Ok (table_html (e_xhtml E) id frame grid stripes float roles width autowidth label title cols h r f, st4).
Proof.
  intros attrs header rows footer id frame grid stripes float roles width autowidth label title cols h r f st st1 st2 st3 st4 Hi Hf Hg Hs Hl Hr Hw Ha Hc Hcol Hh Hft Hrw Ht.
  cbn [renderElement renderElementWith]. unfold renderTable. destruct (width_ok _ _ Hw) as [-> Bw]. cbv zeta. rewrite (has_option _ _ Ha).
  unfold bindM at 1.
  assert (exists lb, (if ahas attrs "title" then renderCaption attrs "table-caption" "tableCounter" "{counter:table-number}" else ret ("", 0%Z)) st = Ok ((lb, 0%Z), st) /\ (title <> "" -> lb = label)) as (lb & -> & El).
  { unfold ahas, mhas. destruct (mget attrs "title") eqn:Q.
    - destruct Hc as [Hc Nc]; [discriminate|]. exists label. split; [|reflexivity]. unfold renderCaption, bindM, getAttrs, getAsString. rewrite Hc, Nc. reflexivity.
    - exists "". split; [reflexivity|]. intros N. inversion Ht; congruence. }
  unfold bindM at 1, lift. rewrite Hcol. unfold bindM at 1.
  rewrite (edge_ok TTableHeader TTableHeaderCell "thead" header_cell_html _ _ _ _ _ th_html (fun e => cell_not_empty _ e) thead_html Hh). unfold bindM at 1.
  rewrite (edge_ok TTableFooter TTableFooterCell "tfoot" footer_cell_html _ _ _ _ _ tf_html (fun e => cell_not_empty _ _) tfoot_html Hft). unfold bindM at 1 2.
  rewrite (rows_ok _ _ _ _ _ Hrw), tbody_html. unfold bindM at 1. rewrite (roles_ok _ _ _ _ Hr). unfold bindM. rewrite (title_ok _ _ _ _ _ _ Ht), (id_ok _ _ Hi).
  rewrite (default_ok _ _ _ _ _ Hf), (default_ok _ _ _ _ _ Hg), (default_ok _ _ _ _ _ Hs), (default_ok _ _ _ _ _ Hl). cbn [fst snd].
  assert (String.eqb (String.concat "" (map (cells_html body_cell_html) r)) "" = match r with [] => true | _ => false end) as Er.
  { destruct r as [|cs r]; [reflexivity|]. cbn [map]. rewrite concat_cons. reflexivity. }
  rewrite Er. clear Er Hi Hf Hg Hs Hl Hr Hw Ha Hc Hcol Hh Hft Hrw Ht.
  unfold table_html. fold (fitting width autowidth). 
  assert ((if (100 <=? width)%Z then 0 else width)%Z = 0%Z /\ ((0 <? width) && (width <? 100))%Z = false \/ (if (100 <=? width)%Z then 0 else width)%Z = width /\ width <> 0%Z /\ ((0 <? width) && (width <? 100))%Z = true) as Ew.
  { destruct (Z.leb_spec 100 width), (Z.ltb_spec 0 width), (Z.ltb_spec width 100); cbn [andb]; lia. }
  generalize dependent (if (100 <=? width)%Z then 0%Z else width). generalize ((0 <? width) && (width <? 100))%Z. intros ww w Ew.
  generalize (fitting width autowidth). intros fit. 
  generalize (edge_html "thead" header_cell_html h), (edge_html "tfoot" footer_cell_html f). intros hh ff.
  assert (String.eqb (escaped id) "" = String.eqb id "") as Ei by (destruct id as [|c id']; [reflexivity|destruct (escaped_nonempty c id') as (d & t & ->); reflexivity]).
  generalize (String.concat " " roles). intros rs.
  destruct (e_xhtml E) eqn:Ex; (eapply P_Convert.exec_ok; [unfold template; rewrite Ex; vm_compute; reflexivity|]);
  (by_nodes; rewrite Ei; unfold word;
   destruct Ew as [[-> ->]|(-> & Nw & ->)]; [change (Z.eqb 0 0) with true|apply Z.eqb_neq in Nw; rewrite Nw]; cbv iota;
   (destruct title as [|ct title]; [|rewrite El by discriminate]); (destruct r as [|cs r]; cbn [String.eqb append]; flat)).
Qed.
End Tables.

(** * Instances *)
Definition two_columns : list rcol := [mkRcol "<" "^" "50" "h"; mkRcol ">" "<" "" "d"].
Definition demo_table_env : renv := mkRenv false P_Convert.ascii_lower (fun _ => "") (fun _ => Ok two_columns) (fun _ _ => "") (fun s => Ok s) (fun _ s => s) (fun _ => None) (fun _ => "") (fun _ _ _ s => Ok s) [] [] false.
Definition demo_attrs : attributes :=
  [("id", Types.VStr "t<"); ("grid", Types.VStr "rows"); ("width", Types.VStr "70%"); ("roles", VRoles [Types.VStr "a"; Types.VStr "b"]); ("title", Types.VStr "T"); ("caption", Types.VStr "Tab. ")].
Definition demo_cell (s : string) : val := TableCell "" [Paragraph [] [StringElement s]].
Definition demo_rows : list val := [TableRow [demo_cell "c"; TableCell "" [ThematicBreak; Paragraph [("checkstyle", Types.VStr "checked")] [SpecialCharacter "&"]]]; TableRow [demo_cell "e"]].
Lemma one_rendered s st : renderElement demo_table_env 3 (StringElement s) st = Ok (s, st) -> all_rendered demo_table_env 3 [StringElement s] st s st.
Proof. intros H. rewrite <- (sapp_nil_r s) at 2. eapply r_more; [exact H|constructor]. Qed.
Lemma demo_body s st : renderElement demo_table_env 3 (StringElement s) st = Ok (s, st) -> body_cell demo_table_env 3 (demo_cell s) st ("<p class=""tableblock"">" ++ s ++ "</p>") st.
Proof.
  intros H. apply is_body_cell. rewrite <- (sapp_nil_r ("<p class=""tableblock"">" ++ s ++ "</p>")). eapply b_more; [|constructor].
  apply (text_in_cell demo_table_env 3 [] [StringElement s] "" "" st s st "" st); [apply one_rendered, H|constructor; reflexivity|now left|right; now split].
Qed.
Definition demo_shown : list (list (rcol * string)) :=
  [[(mkRcol "<" "^" "50" "h", "<p class=""tableblock"">c</p>"); (mkRcol ">" "<" "" "d", "<div class=""content""><hr></div><p class=""tableblock"">&#10003; &amp;</p>")]; [(mkRcol "<" "^" "50" "h", "<p class=""tableblock"">e</p>")]].
Example C79_hypotheses :
  renderElement demo_table_env 4 (Table demo_attrs (TableRow [demo_cell "A"; demo_cell "B"]) demo_rows (VNil)) demo_state =
    Ok ("<table id=""t&lt;"" class=""tableblock frame-all grid-rows a b"" style=""width: 70%;"">" ++ LF ++ "<caption class=""title"">Tab. T</caption>" ++ LF ++
        "<colgroup>" ++ LF ++ "<col style=""width: 50%;"">" ++ LF ++ "<col>" ++ LF ++ "</colgroup>" ++ LF ++
        "<thead>" ++ LF ++ "<tr>" ++ LF ++ "<th class=""tableblock halign-left valign-middle"">A</th>" ++ LF ++ "<th class=""tableblock halign-right valign-top"">B</th>" ++ LF ++ "</tr>" ++ LF ++ "</thead>" ++ LF ++
        "<tbody>" ++ LF ++ "<tr>" ++ LF ++ "<th class=""tableblock halign-left valign-middle""><p class=""tableblock"">c</p></th>" ++ LF ++
        "<td class=""tableblock halign-right valign-top""><div class=""content""><hr></div><p class=""tableblock"">&#10003; &amp;</p></td>" ++ LF ++ "</tr>" ++ LF ++
        "<tr>" ++ LF ++ "<th class=""tableblock halign-left valign-middle""><p class=""tableblock"">e</p></th>" ++ LF ++ "</tr>" ++ LF ++ "</tbody>" ++ LF ++ "</table>" ++ LF, demo_state)%string.
Proof.
  refine (C79_table demo_table_env 3 demo_attrs (TableRow [demo_cell "A"; demo_cell "B"]) demo_rows VNil "t<" "all" "rows" "" "" ["a"; "b"] 70 false "Tab. " "T" two_columns
    [(mkRcol "<" "^" "50" "h", "A"); (mkRcol ">" "<" "" "d", "B")] demo_shown [] demo_state demo_state demo_state demo_state demo_state _ _ _ _ _ _ _ _ _ _ _ _ _ _);
    [left; reflexivity|right; split; reflexivity|left; reflexivity|right; split; reflexivity|right; split; reflexivity|split; [left; reflexivity|discriminate]
    |right; split; [lia|right; reflexivity]|split; [discriminate|intros [(os & Q & _)|Q]; [discriminate Q|now destruct Q]]|intros _; split; reflexivity|reflexivity| | | |now apply text_title].
  - apply some_edge. apply cells_more with demo_state; [apply is_edge_cell; [apply one_rendered; reflexivity|now apply no_blank_end]|].
    apply cells_more with demo_state; [apply is_edge_cell; [apply one_rendered; reflexivity|now apply no_blank_end]|constructor].
  - apply no_edge. discriminate.
  - apply rows_more with demo_state.
    + apply cells_more with demo_state; [apply (demo_body "c"); reflexivity|]. apply cells_more with demo_state; [|constructor]. apply is_body_cell.
      apply (b_more demo_table_env 3 _ _ _ "<div class=""content""><hr></div>" demo_state "<p class=""tableblock"">&#10003; &amp;</p>").
      * apply (other_in_cell demo_table_env 3 ThematicBreak demo_state ("<hr>" ++ LF) "<hr>"); [discriminate|reflexivity|now left].
      * rewrite <- (sapp_nil_r "<p class=""tableblock"">&#10003; &amp;</p>"). eapply b_more; [|constructor].
        apply (text_in_cell demo_table_env 3 [("checkstyle", Types.VStr "checked")] [SpecialCharacter "&"] "checked" "&#10003; " demo_state "&amp;" demo_state "" demo_state);
          [apply (r_more _ _ _ _ _ "&amp;" demo_state ""); [reflexivity|constructor]|constructor; reflexivity|cbn; tauto|left; reflexivity].
    + apply rows_more with demo_state; [|constructor]. apply cells_more with demo_state; [apply (demo_body "e"); reflexivity|constructor].
Qed.
(** a table that has only a header is written without it *)
Example C79_header_refuted :
  renderElement demo_table_env 4 (Table [] (TableRow [demo_cell "A"; demo_cell "B"]) [] VNil) demo_state =
    Ok ("<table class=""tableblock frame-all grid-all stretch"">" ++ LF ++ "</table>" ++ LF, demo_state)%string.
Proof. vm_compute. reflexivity. Qed.
Print Assumptions C79_table.
Print Assumptions C79_hypotheses.
Print Assumptions C79_header_refuted.
