(** What the property about words in bold, italic, monospace or marked says. *)
From Coq Require Import List String NArith Bool.
From Verif Require Import GoBase Utf8 Peg PegBlockSpec PegInlineSpec ConvertSpec.
Import ListNotations.
Local Open Scope list_scope.
Local Open Scope string_scope.

(** a chunk of a sentence: a word, or words between two marks; then maybe one of , . ; ! ? *)
Inductive words := Plain (w : list rune) | Marked (q : rune) (w : list rune).
Record chunk := Chunk { c_words : words; c_end : option rune }.
(** the marks, and the HTML element each one stands for *)
Definition tag_of (q : rune) : string :=
  match find (fun kv => N.eqb q (fst kv)) [(42%N, "strong"); (95%N, "em"); (96%N, "code"); (35%N, "mark")] with Some (_, t) => t | None => "" end.

(** the text *)
Definition words_text (c : words) : list rune := match c with Plain w => w | Marked q w => (q :: w ++ [q])%list end.
Definition end_text (p : option rune) : list rune := match p with Some r => [r] | None => [] end.
Fixpoint chunks_text (cs : list chunk) : list rune :=
  match cs with [] => [] | c :: r => (32%N :: words_text (c_words c) ++ end_text (c_end c) ++ chunks_text r)%list end.
(** its HTML *)
Definition words_html (c : words) : string :=
  match c with Plain w => encode_runes w | Marked q w => "<" ++ tag_of q ++ ">" ++ encode_runes w ++ "</" ++ tag_of q ++ ">" end.
Fixpoint chunks_html (cs : list chunk) : string :=
  match cs with [] => "" | c :: r => " " ++ words_html (c_words c) ++ encode_runes (end_text (c_end c)) ++ chunks_html r end.

Section Sentence.
  (** Unicode letters, numbers *)
  Variables letter number : rune -> bool.
  Definition word (w : list rune) : Prop := w <> [] /\ Forall (fun r => letter r || number r = true) w.
  Definition good_words (c : words) : Prop :=
    match c with
    | Plain w => word w
    | Marked q w => In q (R "*_`#") /\
        (** words with blanks between them; the last character is an ASCII letter or digit (see C74_accent_refuted) *)
        Forall (fun r => letter r || number r = true \/ r = 32%N \/ r = 9%N) w /\
        (exists r w', w = r :: w' /\ letter r || number r = true) /\
        (exists w' r, w = (w' ++ [r])%list /\ letter r || number r = true /\ (r < 128)%N)
    end.
  Definition good_chunk (c : chunk) : Prop := good_words (c_words c) /\ match c_end c with Some r => In r (R ",.;!?") | None => True end.
End Sentence.
