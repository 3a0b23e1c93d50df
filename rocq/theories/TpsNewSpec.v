(** Specification of the constructor of the retry budget (C14).  [B2R p] is the real number a float stands for. *)
From Coq Require Import Reals.
From Flocq Require Import Core BinarySingleNaN.
From Verif Require Import Base Float Tps TpsNew.
Local Open Scope Z_scope.

(** The documented arguments (times in nanoseconds). *)
Definition valid_args (ttl min_per_sec : Z) (p : f32) : Prop :=
  1000000000 <= ttl <= 60000000000 /\ min_per_sec < 2 ^ 31 - 1 /\ is_finite p = true /\ (0 <= B2R p <= 1000)%R.

(** What the weights are worth. *)
Definition u24 : R := (/ 16777216)%R.
Definition weights_for (p : R) (d w : Z) : Prop :=
  1 <= w <= isize_max /\
  (p = 0%R -> d = 0 /\ w = 1) /\
  ((0 < p <= 1)%R -> d = 1) /\ ((1 < p)%R -> d = 1000) /\
  ((0 < p)%R -> (IZR w * p <= IZR d * (1 + u24))%R /\
     ((/ IZR (2 ^ 62) <= p)%R -> (IZR d * (1 - u24) < (IZR w + 1) * p)%R)).

Definition seventy : f32 := f32_of 11744051 (-24).     (* the f32 nearest to 0.7 *)
