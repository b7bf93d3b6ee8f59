(** Specification: well-formed markup.  Every tag that is opened is closed, in the right order; the values of attributes are
    quoted and contain neither quotes nor "<"; text contains no "<".  Both styles of empty elements ("<br>" and "<br/>") are
    accepted. *)
From Verif Require Import GoBase.

(** the bytes of the names of elements and attributes *)
Definition name_char (c : ascii) : bool :=
  let n := N_of_ascii c in
  ((65 <=? n) && (n <=? 90) || (97 <=? n) && (n <=? 122) || (48 <=? n) && (n <=? 57) || (n =? 45))%N.
Fixpoint all_chars (f : ascii -> bool) (s : string) : bool :=
  match s with EmptyString => true | String c r => f c && all_chars f r end.
Definition is_name (n : string) : Prop := n <> "" /\ all_chars name_char n = true.

Definition lt : ascii := chr 60.   (* < *)
Definition gt : ascii := chr 62.   (* > *)
Definition quot : ascii := chr 34.
Definition lf : ascii := chr 10.

(** a string that may be the value of an attribute: no "<", quote or line feed *)
Definition safe_char (c : ascii) : bool := negb (Ascii.eqb c lt || Ascii.eqb c quot || Ascii.eqb c lf).
Definition safe (s : string) : Prop := all_chars safe_char s = true.
(** a string that may be text: no "<" *)
Definition text (s : string) : Prop := all_chars (fun c => negb (Ascii.eqb c lt)) s = true.

(** the elements that have no content and no closing tag *)
Definition void_elements : list string := ["br"; "hr"; "img"; "input"; "meta"; "link"; "col"].

Local Open Scope string_scope.
(** what follows the name of the element in an opening tag *)
Inductive tag_attrs : string -> Prop :=
| ta_none : tag_attrs ""
| ta_space s : tag_attrs s -> tag_attrs (" " ++ s)
| ta_value n v s : is_name n -> safe v -> tag_attrs s -> tag_attrs (" " ++ n ++ "=""" ++ v ++ """" ++ s)
| ta_bare n s : is_name n -> tag_attrs s -> tag_attrs (" " ++ n ++ s).

Inductive wf : string -> Prop :=
| wf_nil : wf ""
| wf_char c s : c <> lt -> wf s -> wf (String c s)
| wf_void n a s : In n void_elements -> tag_attrs a -> wf s -> wf ("<" ++ n ++ a ++ ">" ++ s)
| wf_void_closed n a s : In n void_elements -> tag_attrs a -> wf s -> wf ("<" ++ n ++ a ++ "/>" ++ s)
| wf_element n a body s : is_name n -> ~ In n void_elements -> tag_attrs a -> wf body -> wf s ->
    wf ("<" ++ n ++ a ++ ">" ++ body ++ "</" ++ n ++ ">" ++ s).
