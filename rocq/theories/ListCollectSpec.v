(** What "gathering the lines of a list keeps everything" means. *)
From Verif Require Import GoBase Types Attrs Elements FilterSpec ListSpec.

(** what the grammar finds in a list (parser.peg:1482-1502) *)
Definition starts_item (v : val) : Prop := marker_of v <> None.
Definition is_line (v : val) : Prop := match v with RawLine _ | SinglelineComment _ => True | _ => False end.
Definition run_element (v : val) : Prop :=
  match v with
  | VAttributes _ | RawLine _ | SinglelineComment _ => True
  | ListContinuation _ x => match x with RawLine _ => False | _ => True end
  | _ => starts_item v
  end.

(** the text of a line without its terminator *)
Definition unterminated (s : string) : string := trim_suffix s LF.
(** items and continuations (without attributes), and their text, line by line, in order; paragraphs are opened up *)
Fixpoint contents (v : val) : list val :=
  match v with
  | CalloutListElement r _ es => CalloutListElement r [] [] :: flat_map contents es
  | OrderedListElement s _ es => OrderedListElement s [] [] :: flat_map contents es
  | UnorderedListElement b c _ es => UnorderedListElement b c [] [] :: flat_map contents es
  | LabeledListElement s t _ es => LabeledListElement s t [] [] :: flat_map contents es
  | ListContinuation off x => match x with VNil => [] | _ => ListContinuation off VNil :: contents x end
  | Paragraph _ es => flat_map contents es
  | RawLine s => [RawLine (unterminated s)]
  | VAttributes _ => []
  | _ => [v]
  end.

(** lines of text as one paragraph: a terminator between them *)
Fixpoint text_lines (ls : list string) : list val :=
  match ls with
  | [] => []
  | [s] => [RawLine s]
  | s :: r => RawLine (s ++ LF)%string :: text_lines r
  end.

(** an element which takes the lines that follow it: an item, or an attached paragraph *)
Definition takes_lines (v : val) : Prop :=
  match v with
  | ListContinuation _ x => match x with Paragraph _ _ => True | _ => False end
  | _ => starts_item v
  end.
(** an item or a continuation which is not empty *)
Definition opens (v : val) : bool :=
  match v with
  | ListContinuation _ x => match x with VNil => false | _ => true end
  | _ => match marker_of v with Some _ => true | None => false end
  end.
Definition last_opened (pre : list val) (v : val) : Prop :=
  exists a b, pre = a ++ v :: b /\ opens v = true /\ forall w, In w b -> opens w = false.
(** a line of text or a comment which directly follows an attached block that is not a paragraph *)
Definition stray_line (es : list val) : Prop :=
  exists pre e post v, es = pre ++ e :: post /\ is_line e /\ last_opened pre v /\ ~ takes_lines v.

(** paragraphs as the grammar makes them are not empty and hold lines without terminators *)
Definition own_paragraph (v : val) : Prop :=
  match v with Paragraph _ es => es <> [] | _ => True end.
Definition own_paragraphs (v : val) : Prop :=
  match v with
  | ListContinuation _ x => own_paragraph x
  | _ => match getElements v with Some es => Forall own_paragraph es | None => True end
  end.
(** the lines of a run as they are written have no terminators, also those in the first paragraph of an item *)
Definition no_terminator (v : val) : Prop := forall s, reached (RawLine s) v -> has_suffix s LF = false.
Definition source_element (v : val) : Prop :=
  own_paragraphs v /\ match v with ListContinuation _ x => no_terminator x | _ => no_terminator v end.

(** the attributes an item gets from the block attributes [l] written before it: in the order of the source, the later ones win, and
    the first positional one is the style (except for callouts); without block attributes it keeps its own ones *)
Definition attributes_from (l : list (list (string * val))) (e : val) : list (string * val) :=
  match l with
  | [] => getAttributes e
  | _ => let a := fold_left aaddall l [] in
         match e with
         | CalloutListElement _ _ _ => a
         | _ => toAttributesWithMapping a [(AttrPositional1, "style")]
         end
  end.

(** no line of text or comment before the next item or continuation *)
Definition line_free (es : list val) : Prop :=
  forall pre e r, es = pre ++ e :: r -> is_line e -> exists w, In w pre /\ opens w = true.
(** block attributes stand directly before an item or more block attributes (parser.peg:1490-1494) *)
Definition attributes_before_items (es : list val) : Prop :=
  forall a x b, es = a ++ VAttributes x :: b -> exists w b', b = w :: b' /\ (starts_item w \/ exists y, w = VAttributes y).
