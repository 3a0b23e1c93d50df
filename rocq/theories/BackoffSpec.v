(** Specification of the backoff (C16-C18). *)
From Coq Require Import Reals.
From Flocq Require Import Core BinarySingleNaN.
From Verif Require Import Base Float Backoff.
Local Open Scope Z_scope.

(** The deterministic part of the [k]-th delay (from 0): doubles each time, up to the maximum. *)
Definition base_of (c : bo_cfg) (k : Z) : Z := Z.min (bo_max c) (bo_min c * Z.min (2 ^ k) (2 ^ 32 - 1)).

(** Arguments the constructor accepts. *)
Definition valid_backoff (min max : Z) (jitter : f64) : Prop :=
  min <= max /\ max <> 0 /\ is_finite jitter = true /\ (0 <= B2R jitter <= 100)%R.
(** A duration. *)
Definition duration (d : Z) : Prop := 0 <= d <= dur_max.
(** A generator that gives a u64 and nothing else. *)
Definition proper {W R} (next_u64 : R -> M W (R * Z)) : Prop :=
  forall g w, exists g' v, snd (next_u64 g w) = Val (g', v) /\ 0 <= v < 2 ^ 64.
(** A configuration the constructor made. *)
Definition good (c : bo_cfg) : Prop := duration (bo_min c) /\ duration (bo_max c) /\ valid_backoff (bo_min c) (bo_max c) (bo_jitter c).
(** No overflow of a [Duration] by the jitter. *)
Definition tame (c : bo_cfg) : Prop := (B2R (bo_jitter c) <= 1 \/ IZR (bo_max c) * B2R (bo_jitter c) <= IZR (2 ^ 63 * second))%R.
(** The [k]-th number (from 0) of a generator without side effects. *)
Fixpoint number {R} (f : R -> R * Z) (g : R) (k : nat) : Z :=
  match k with O => snd (f g) | S k' => number f (fst (f g)) k' end.
