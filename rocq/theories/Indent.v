(** Model of adjustHeadingSpaces, pkg/renderer/sgml/delimited_block_example.go. *)
From Verif Require Import GoBase.

Definition leading (line : string) : nat := (String.length line - String.length (trim_left_char " "%char line))%nat.
(** delimited_block_example.go:127-151 adjustHeadingSpaces (math.Min on float64 is the minimum: lengths are below 2^53) *)
Definition spaceCount (lines : list string) : nat :=
  match lines with
  | [] => O
  | l :: r => fold_left (fun n line => Nat.min n (leading line)) r (leading l)
  end.
Definition adjustHeadingSpaces (content : string) : string :=
  let lines := split_char (chr 10) content in
  let lines' :=
    match lines with
    | [l] => [trim_left_char " "%char l]
    | _ => map (fun line => trim_prefix line (srepeat " " (spaceCount lines))) lines
    end in
  join LF lines'.
