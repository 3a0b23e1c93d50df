(** Specification for C90: how a PeakEwma forgets. *)
From Coq Require Import Reals.
From Flocq Require Import Core BinarySingleNaN.
From Verif Require Import Base Middleware Float Load LoadSpec EwmaSpec.
Set Implicit Arguments.

(** What is assumed of [f64::exp]: on numbers up to 0 it is the exponential function up to one unit in the last place. *)
Definition exp_near (exp64 : f64 -> f64) : Prop :=
  forall x, is_finite x = true -> (B2R x <= 0)%R ->
  (Rabs (B2R (exp64 x) - exp (B2R x)) <= exp (B2R x) * bpow radix2 (-52) + bpow radix2 (-1074))%R.

(** Reading the clock takes no time by the clock. *)
Definition instant {W} (clk : W -> W * Z) (time : W -> Z) : Prop :=
  forall w, snd (clk w) = time w /\ time (fst (clk w)) = time w.

(** How often the load is looked at. *)
Definition looks {W Req Resp Err M} (h : list (lop W Req * lobs Resp Err M * W)) : nat :=
  length (List.filter (fun e => match snd (fst e) with LoLoad _ => true | _ => false end) h).
