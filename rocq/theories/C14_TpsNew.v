(** C14: [TpsBudget::new].  Model in TpsNew.v (floats from Flocq); [B2R p] is the real number that the float [p] stands
    for.  [valid_args], [weights_for]: TpsNewSpec.v. *)
From Coq Require Import Reals Lra.
From Flocq Require Import Core BinarySingleNaN.
From Verif Require Import Base Float Tps TpsSpec TpsNew TpsNewSpec TpsNewProof.
Set Implicit Arguments.
Local Open Scope Z_scope.

(** Exactly the documented arguments are accepted ... *)
Theorem C14_accepts :
  forall ttl m p now,
  (exists r, tps_new ttl m p now = Val r) <-> valid_args ttl m p.
Proof. exact @new_valid. Qed.
Print Assumptions C14_accepts.

(** ... and for all others the constructor panics. *)
Theorem C14_panics :
  forall ttl m p now,
  ~ valid_args ttl m p -> tps_new ttl m p now = Panic.
Proof. exact @new_panics. Qed.
Print Assumptions C14_panics.

(** Up to the rounding of one division of f32 (relative error u24 = 2^-24), a withdrawal costs 1 / p deposits cut to an
    integer (1000 / p thousandths above 100 %); the reserve is worth min_per_sec * ttl withdrawals, or as much as an isize can hold. *)
Theorem C14_weights :
  forall ttl m p now c b,
  0 <= m -> tps_new ttl m p now = Val (c, b) ->
    b = tps_start now /\ t_window c = ttl / 10 /\
    weights_for (B2R p) (t_deposit c) (t_withdraw c) /\
    t_reserve c = Z.min isize_max (m * (ttl / 1000000000) * t_withdraw c).
Proof. exact @new_weights. Qed.
Print Assumptions C14_weights.

(** So C12, C13 and C15 hold of every budget made. *)
Theorem C14_sane :
  forall ttl m p now c b,
  0 <= m -> tps_new ttl m p now = Val (c, b) -> sane c.
Proof. exact @new_sane. Qed.
Print Assumptions C14_sane.

(** For the user: the withdrawals granted in the last half ttl are at most min_per_sec * ttl, plus 2 p for every deposit of
    the last 1.1 ttl. *)
Theorem C14_retries :
  forall ttl m p now c b ops1 t ops2 answers1 answers2,
  0 <= m -> tps_new ttl m p now = Val (c, b) ->
    (B2R p = 0 \/ / IZR (2 ^ 62) <= B2R p)%R ->
    in_order now (ops1 ++ (t, Withdraw) :: ops2) -> fits c (ops1 ++ (t, Withdraw) :: ops2) ->
    tps_run c b (ops1 ++ (t, Withdraw) :: ops2) = answers1 ++ Val (Some true) :: answers2 ->
    length answers1 = length ops1 ->
    (IZR (wds (within (5 * (ttl / 10)) t (history ops1 answers1)) + 1) <=
     IZR (m * (ttl / 1000000000)) + 2 * B2R p * (16777216 / 16777215) * IZR (deps (within (11 * (ttl / 10)) t (history ops1 answers1))))%R.
Proof. exact @new_retries. Qed.
Print Assumptions C14_retries.

(** The factor 2 cannot be left out - the documented percentage is not kept: 70 % allows one retry per call, as 100 % does. *)
Theorem C14_percentage_refuted :
  forall now, exists b c, tps_new 1000000000 0 seventy now = Val (c, b) /\ t_deposit c = 1 /\ t_withdraw c = 1 /\
  Bltb seventy (f32_of 1 0) = true.
Proof. exact seventy_is_hundred. Qed.
Print Assumptions C14_percentage_refuted.

(** With a tiny percentage the reserve pays for one retry only, whatever min_per_sec (here 100). *)
Theorem C14_reserve_refuted :
  forall now, exists b c, tps_new 1000000000 100 (f32_of 1 (-70)) now = Val (c, b) /\
  t_reserve c = t_withdraw c /\ t_withdraw c = isize_max.
Proof. exact tiny_reserve. Qed.
Print Assumptions C14_reserve_refuted.

(** Non-vacuity: the default budget: 5 deposits for a withdrawal, reserve 100 withdrawals, slots of a second. *)
Example C14_example : forall now, tps_default now = Val (TpsCfg 500 1000000000 1 5, tps_start now).
Proof. intros now. vm_compute. reflexivity. Qed.
Example C14_example_large : match tps_new 60000000000 3 (f32_of 2 0) 0 with Val (c, _) => Some c | _ => None end = Some (TpsCfg 90000 6000000000 1000 500).
Proof. vm_compute. reflexivity. Qed.
Example C14_example_nan : tps_new 1000000000 1 B754_nan 0 = Panic /\ tps_new 1000000000 1 (f32_of 1001 0) 0 = Panic /\ tps_new 999999999 1 (f32_of 1 0) 0 = Panic.
Proof. vm_compute. auto. Qed.
