(** The result of the analysis of PegAna.v on the grammar of PegGrammar.v, and the checks on it. *)
From Coq Require Import List String.
From Verif Require Import Peg PegAna PegGrammar.
Import ListNotations.

Definition the_table : table := Eval vm_compute in table_of 8 the_grammar.
Definition the_ranks : list (string * list nat) := Eval vm_compute in ranks_of 10 the_grammar the_table.

Lemma the_table_ok : table_ok the_grammar the_table = true.
Proof. vm_compute. reflexivity. Qed.
Lemma the_loops_ok : loops_all_ok the_grammar the_table = true.
Proof. vm_compute. reflexivity. Qed.
Lemma the_ranks_ok : ranks_ok the_grammar the_table the_ranks = true.
Proof. vm_compute. reflexivity. Qed.
