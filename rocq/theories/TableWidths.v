(** Model of the computation of column widths (pkg/types/types.go:4020-4050), with IEEE 754 binary64 arithmetic (Go's float64)
    as formalised in the Flocq library: [Bdiv], [Bmult] and [binary_normalize] round to the nearest value, ties to even. *)
From Verif Require Import GoBase Tables.
From Flocq Require Import Core.FLX IEEE754.BinarySingleNaN.
From Coq Require Import QArith.
Local Open Scope Z_scope.

Definition f64 := binary_float 53 1024.
Local Instance prec_pos : Prec_gt_0 53 := eq_refl.
Local Instance prec_small : Prec_lt_emax 53 1024 := eq_refl.
(** float64(n) *)
Definition of_int (n : Z) : f64 := binary_normalize 53 1024 prec_pos prec_small mode_NE n 0 false.
Definition fdiv (x y : f64) : f64 := Bdiv mode_NE x y.
Definition fmul (x y : f64) : f64 := Bmult mode_NE x y.
(** int(x), for a finite x in the range of int64 *)
Definition to_int (x : f64) : Z := Btrunc x.

(** types.go:4038 the width of a column, not the last one *)
Definition width (weight sumWeight : Z) : f64 := fdiv (of_int (weight * 100)) (of_int sumWeight).
(** types.go:4040 the part of it that is added to sumWidth *)
Definition width_units (weight sumWeight : Z) : Z := to_int (fmul (width weight sumWeight) (of_int 10000)).
(** types.go:4044 the width of the last column *)
Definition last_width (sumWidth : Z) : f64 := fdiv (of_int (1000000 - sumWidth)) (of_int 10000).
Fixpoint widths_loop (sumWeight : Z) (weights : list Z) (sumWidth : Z) : list f64 :=
  match weights with
  | [] => []
  | [w] => [last_width sumWidth]
  | w :: r => width w sumWeight :: widths_loop sumWeight r (sumWidth + width_units w sumWeight)
  end.
Definition sum_weights (weights : list Z) : Z := fold_right Z.add 0%Z weights.
(** types.go:4034-4049; no column has autowidth.  Simplification: the int additions and multiplications do not overflow *)
Definition widths (weights : list Z) : list f64 := widths_loop (sum_weights weights) weights 0.

(** The number that strconv.FormatFloat(x, 'g', 6, 64) of the Go standard library writes: x rounded to six significant
    decimal digits (exactly computed, ties to even).  [scale] is the number of digits after the point. *)
Definition f_num (x : f64) : Z := (match x with B754_finite s m e _ => (if s then Z.neg m else Z.pos m) * 2 ^ (Z.max e 0) | _ => 0 end)%Z.
Definition f_den (x : f64) : Z := (match x with B754_finite s m e _ => 2 ^ (Z.max (- e) 0) | _ => 1 end)%Z.
Definition round_half_even (n d : Z) : Z :=
  let q := n / d in let r := n mod d in
  match (2 * r ?= d)%Z with Lt => q | Gt => q + 1 | Eq => if Z.even q then q else q + 1 end.
Fixpoint int_digits (fuel : nat) (n : Z) : nat :=
  match fuel with O => O | S f => if (n <=? 0)%Z then O else S (int_digits f (n / 10)) end.
(** for numbers from 1 to 999999: [k] digits before the point leave [6-k] after it *)
Definition shown (x : f64) : Q :=
  let k := int_digits 20%nat (f_num x / f_den x) in
  let scale := (10 ^ Z.of_nat (6 - k)%nat)%Z in
  Qmake (round_half_even (f_num x * scale) (f_den x)) (Z.to_pos scale).
