(** Specification vocabulary for preprocessing: conditional regions, selection of included lines,
    delimiters. *)
From Verif Require Import GoBase Types Attrs Context Cond Include Preprocess.

(** *** conditional regions *)
(** what a line contributes: text, nothing, the beginning of a region (with the value of its
    condition at that point), the end of a region *)
Inductive event := EvText (s : string) | EvNone | EvOpen (v : bool) | EvClose.

Definition opens (l : list event) : nat :=
  List.length (filter (fun e => match e with EvOpen _ => true | _ => false end) l).
Definition closes (l : list event) : nat :=
  List.length (filter (fun e => match e with EvClose => true | _ => false end) l).

(** in [mid] regions are closed only after they were opened in [mid] *)
Definition never_closes (mid : list event) : Prop :=
  forall m1 m2, mid = m1 ++ m2 -> (closes m1 <= opens m1)%nat.

(** after the events [before], all the regions still open have a true condition *)
Definition shown (before : list event) : Prop :=
  forall p v mid, before = p ++ EvOpen v :: mid -> never_closes mid -> v = true.

(** [visible before evs out]: [out] are the texts of [evs] that are shown, in order *)
Inductive visible : list event -> list event -> list string -> Prop :=
| vis_nil before : visible before [] []
| vis_text before s evs out :
    shown before -> visible (before ++ [EvText s]) evs out -> visible before (EvText s :: evs) (s :: out)
| vis_hidden before s evs out :
    ~ shown before -> visible (before ++ [EvText s]) evs out -> visible before (EvText s :: evs) out
| vis_other before e evs out :
    (forall s, e <> EvText s) -> visible (before ++ [e]) evs out -> visible before (e :: evs) out.

(** *** the state that matters for conditions: attributes, delimited blocks *)
Section State.
  Variable parseLine : bool -> bool -> string -> option rawelt.
  Variable secs : bool.

  (** attributes declared so far, are we within a delimited block, the open delimiters *)
  Definition lstate := (ctxattrs * bool * tracker)%type.
  Definition line_state (st : lstate) (l : string) : lstate :=
    let '(a, w, t) := st in
    match parseLine secs w l with
    | Some (RDecl n v) => (cset a n v, w, t)
    | Some (RReset n) => (cunset a n, w, t)
    | Some (RDelim k len) => let t' := track t k len in (a, withinDelimitedBlock t', t')
    | _ => (a, w, t)
    end.
  Definition lines_state (st : lstate) (ls : list string) : lstate := fold_left line_state ls st.

  (** the event of one line; the text of an included file or of a section heading is left open *)
  Definition line_event (st : lstate) (l : string) (e : event) : Prop :=
    let '(a, w, t) := st in
    match parseLine secs w l with
    | Some (RCond cd) =>
        let v := evalCond (callAttributes a) cd in
        match singleLineContent cd with
        | Some content => e = if v then EvText content else EvNone
        | None => e = EvOpen v
        end
    | Some REnd => e = EvClose
    | Some (RInclude _ _) | Some (RSection _) => exists s, e = EvText s
    | _ => e = EvText l
    end.
  Inductive line_events : lstate -> list string -> list event -> Prop :=
  | le_nil st : line_events st [] []
  | le_cons st l ls e es :
      line_event st l e -> line_events (line_state st l) ls es -> line_events st (l :: ls) (e :: es).

  (** a line that neither declares anything, includes anything, is a heading or delimits a block *)
  Definition inert (l : string) : Prop :=
    forall w, match parseLine secs w l with
              | None | Some (RCond _) | Some REnd => True
              | _ => False
              end.
  (** +1 for a line that opens a region, -1 for one that closes one *)
  Definition opens_region (l : string) : Prop :=
    forall w, exists cd, parseLine secs w l = Some (RCond cd) /\ singleLineContent cd = None.
  Definition closes_region (l : string) : Prop := forall w, parseLine secs w l = Some REnd.
  Definition plain (l : string) : Prop :=
    forall w, match parseLine secs w l with
              | None => True
              | Some (RCond cd) => singleLineContent cd <> None
              | _ => False
              end.
  (** the lines of a balanced region without side effects *)
  Inductive region : list string -> Prop :=
  | reg_nil : region []
  | reg_plain l ls : plain l -> region ls -> region (l :: ls)
  | reg_nested o ls c ls' :
      opens_region o -> region ls -> closes_region c -> region ls' ->
      region (o :: ls ++ c :: ls').
  (** lines of any kind in which every region that is opened is closed, and no other *)
  Definition no_region_line (l : string) : Prop :=
    forall w, match parseLine secs w l with
              | Some (RCond cd) => singleLineContent cd <> None
              | Some REnd => False
              | _ => True
              end.
  Inductive balanced : list string -> Prop :=
  | bal_nil : balanced []
  | bal_line l ls : no_region_line l -> balanced ls -> balanced (l :: ls)
  | bal_nested o ls c ls' :
      opens_region o -> balanced ls -> closes_region c -> balanced ls' ->
      balanced (o :: ls ++ c :: ls').
End State.

(** *** source text as lines: each with the text and whether it ends with CR LF or LF *)
Definition source_line := (string * bool)%type.
Definition CR : string := String (chr 13) "".
Definition line_bytes (l : source_line) : string := (fst l ++ (if snd l then CR else ""))%string.
Definition written_as (ls : list source_line) : string := sconcat (map (fun l => line_bytes l ++ LF)%string ls).
(** a line: no LF in it, no CR at its end, fewer than 65536 bytes with its CR *)
Definition good_line (l : source_line) : Prop :=
  ~ In (chr 10) (list_ascii_of_string (fst l)) /\ (forall t, fst l <> (t ++ CR)%string) /\
  (N.of_nat (String.length (line_bytes l)) < 65536)%N.

(** *** lines=... *)
(** line [n] belongs to the range: start <= n <= end, end = -1 meaning "up to the end" *)
Definition in_range (n : Z) (r : linerange) : Prop :=
  (lr_start r <= n)%Z /\ ((n <= lr_end r)%Z \/ lr_end r = (-1)%Z).
Definition in_some_range (n : Z) (rs : list linerange) : Prop := exists r, In r rs /\ in_range n r.

(** [kept P n lines out]: [out] is the concatenation of the lines (numbered from [n]) that satisfy
    [P], each with a line feed *)
Inductive kept (P : Z -> string -> Prop) : Z -> list string -> string -> Prop :=
| kept_nil n : kept P n [] ""
| kept_yes n l ls out : P n l -> kept P (n + 1)%Z ls out -> kept P n (l :: ls) (l ++ LF ++ out)
| kept_no n l ls out : ~ P n l -> kept P (n + 1)%Z ls out -> kept P n (l :: ls) out.

Definition has_directive (items : list lineitem) : Prop :=
  exists t, In (IStart t) items \/ In (IEnd t) items.

(** *** tags=... *)
(** the tag directives of a line that count: the first start tag, then the first end tag *)
Inductive tagev := TOpen (t : string) | TClose (t : string).
Definition line_tags (items : list lineitem) : list tagev :=
  match find (fun i => match i with IStart _ => true | _ => false end) items with
  | Some (IStart t) => [TOpen t] | _ => []
  end ++
  match find (fun i => match i with IEnd _ => true | _ => false end) items with
  | Some (IEnd t) => [TClose t] | _ => []
  end.
Definition tag_of (e : tagev) : string := match e with TOpen t | TClose t => t end.
(** the last directive about [t] opens it *)
Definition tag_open (evs : list tagev) (t : string) : Prop :=
  exists a b, evs = a ++ TOpen t :: b /\ Forall (fun e => tag_of e <> t) b.

(** a rule of the tag list applies to a line: "**" always, "*" when some tag is open, a name when
    that tag is open *)
Definition applies (evs : list tagev) (r : tagrange) : Prop :=
  tr_name r = "**" \/
  (tr_name r = "*" /\ exists t, tag_open evs t) \/
  (tr_name r <> "**" /\ tr_name r <> "*" /\ tag_open evs (tr_name r)).
(** the last applicable rule decides; without one the line is not selected *)
Definition decides (rules : list tagrange) (evs : list tagev) (r : tagrange) : Prop :=
  exists a b, rules = a ++ r :: b /\ applies evs r /\ Forall (fun x => ~ applies evs x) b.
(** [selected verdict rules evs] *)
Definition selected (verdict : tagrange -> bool) (rules : list tagrange) (evs : list tagev) : Prop :=
  exists r, decides rules evs r /\ verdict r = true.

(** the verdict of a rule: "**" always includes, even written "!**"; a name or "*" includes unless negated *)
Definition verdict (r : tagrange) : bool := if String.eqb (tr_name r) "**" then true else tr_incl r.
Section Tags.
  (** the text and the directives of a line *)
  Variable fileLine : string -> option (list lineitem).

  (** [tags_kept rules evs lines out]: [out] has the lines selected by the rules, [evs] being the
      directives met before *)
  Inductive tags_kept (rules : list tagrange) : list tagev -> list string -> string -> Prop :=
  | tk_nil evs : tags_kept rules evs [] ""
  | tk_yes evs l items r out :
      fileLine l = Some items -> ~ has_directive items ->
      selected verdict rules (evs ++ line_tags items) ->
      tags_kept rules (evs ++ line_tags items) r out -> tags_kept rules evs (l :: r) (l ++ LF ++ out)
  | tk_no evs l items r out :
      fileLine l = Some items ->
      has_directive items \/ ~ selected verdict rules (evs ++ line_tags items) ->
      tags_kept rules (evs ++ line_tags items) r out -> tags_kept rules evs (l :: r) out.

  (** every end directive closes a tag that was started before *)
  Inductive well_tagged : list tagev -> list string -> Prop :=
  | wt_nil evs : well_tagged evs []
  | wt_cons evs l items r :
      fileLine l = Some items ->
      (forall t a b, line_tags items = a ++ TClose t :: b -> exists e, In e (evs ++ a) /\ tag_of e = t) ->
      well_tagged (evs ++ line_tags items) r -> well_tagged evs (l :: r).

  (** an end directive without any directive about its tag before it, in lines that can be read up to there *)
  Definition stray_end (lines : list string) : Prop :=
    exists a l r read items x y t,
      lines = a ++ l :: r /\ Forall2 (fun l i => fileLine l = Some i) a read /\ fileLine l = Some items /\
      line_tags items = x ++ TClose t :: y /\
      forall e, In e (flat_map line_tags read ++ x) -> tag_of e <> t.
  (** some line has a directive about [t] *)
  Definition mentioned (lines : list string) (t : string) : Prop :=
    exists l items e, In l lines /\ fileLine l = Some items /\ In e (line_tags items) /\ tag_of e = t.
End Tags.

(** *** headings and level offsets *)
(** a heading written with one space after the equal signs *)
Definition heading (level : Z) (title : string) : string :=
  (srepeat "=" (Z.to_nat (level + 1)) ++ " " ++ title)%string.
Definition zsum (l : list Z) : Z := fold_right Z.add 0%Z l.
Section Headings.
  Variable parseLine : bool -> bool -> string -> option rawelt.
  Variable secs : bool.
  (** the events of the lines (see [line_events]) when headings move by [d] *)
  Definition moved_by (d : Z) (w : bool) (l : string) (e : event) : Prop :=
    forall lvl title, parseLine secs w l = Some (RSection lvl) -> l = heading lvl title ->
    e = EvText (heading (lvl + d) title).
  Inductive line_events_moved (d : Z) : lstate -> list string -> list event -> Prop :=
  | lm_nil st : line_events_moved d st [] []
  | lm_cons st l ls e es :
      line_event parseLine secs st l e -> moved_by d (snd (fst st)) l e ->
      line_events_moved d (line_state parseLine secs st l) ls es -> line_events_moved d st (l :: ls) (e :: es).
  (** neither a heading nor an inclusion *)
  Definition no_heading (l : string) : Prop :=
    forall w, match parseLine secs w l with Some (RSection _) | Some (RInclude _ _) => False | _ => True end.
End Headings.

(** *** block delimiters *)
Definition delim := (string * Z)%type.
(** a sequence of delimiters that closes all the blocks it opens; [top] is the delimiter of the
    enclosing block, if any *)
Inductive closed_blocks : option delim -> list delim -> Prop :=
| cb_nil top : closed_blocks top []
| cb_block top d inner rest :
    top <> Some d -> closed_blocks (Some d) inner -> closed_blocks top rest ->
    closed_blocks top (d :: inner ++ d :: rest).
(** the delimiters opened by [ds] and not closed, outermost first *)
Inductive unclosed : option delim -> list delim -> list delim -> Prop :=
| un_nil top ds : closed_blocks top ds -> unclosed top ds []
| un_cons top before d ds rest :
    closed_blocks top before -> top <> Some d -> unclosed (Some d) ds rest ->
    unclosed top (before ++ d :: ds) (d :: rest).
