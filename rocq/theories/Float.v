(** Floating-point numbers as Rust uses them: IEEE 754 binary32 and binary64, from the
    Flocq library (rounding to nearest, ties to even; one NaN). *)
From Coq Require Import ZArith.
From Flocq Require Import Core BinarySingleNaN.
Local Open Scope Z_scope.

Definition f32 : Type := binary_float 24 128.
Definition f64 : Type := binary_float 53 1024.

#[global] Instance prec32 : Prec_gt_0 24 := eq_refl.
#[global] Instance emax32 : Prec_lt_emax 24 128 := eq_refl.
#[global] Instance prec64 : Prec_gt_0 53 := eq_refl.
#[global] Instance emax64 : Prec_lt_emax 53 1024 := eq_refl.

(** [m * 2 ^ e], rounded; an integer ([as f32], [as f64], and the literals used) is [m * 2 ^ 0]. *)
Definition f32_of (m e : Z) : f32 := binary_normalize 24 128 _ _ mode_NE m e false.
Definition f64_of (m e : Z) : f64 := binary_normalize 53 1024 _ _ mode_NE m e false.

Definition div32 (x y : f32) : f32 := Bdiv mode_NE x y.
Definition mul64 (x y : f64) : f64 := Bmult mode_NE x y.

(** [as isize] ... from a float: NaN gives 0, the rest is cut to an integer and to the range. *)
Definition cast {prec emax} (lo hi : Z) (x : binary_float prec emax) : Z :=
  match x with
  | B754_nan => 0
  | B754_infinity true => lo
  | B754_infinity false => hi
  | _ => Z.max lo (Z.min hi (Btrunc x))
  end.
