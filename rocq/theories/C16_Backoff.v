(** C16-C18: [ExponentialBackoff].  Model in Backoff.v (floats from Flocq), vocabulary in BackoffSpec.v.
    [delays next debug n (make_backoff m) w] are the first [n] delays of a retry sequence, for any random number generator
    [next]; [debug]: debug assertions on. *)
From Coq Require Import Reals Lra.
From Flocq Require Import Core BinarySingleNaN.
From Verif Require Import Base Float ReadyCache Backoff BackoffSpec BackoffProof BackoffTop BackoffFresh.
Set Implicit Arguments.
Local Open Scope Z_scope.

(** Every delay is at least the exponential base (so at least min), at most max, and exceeds the base by at most the jitter
    share (up to two roundings). *)
Theorem C16_bounds :
  forall W R (next_u64 : R -> M W (R * Z)) debug min max j (rng : R) m n w k d,
  maker_new min max j rng = Ok m -> duration min -> duration max ->
  proper next_u64 -> Z.of_nat n < 2 ^ 32 ->
  nth_error (delays next_u64 debug n (make_backoff m) w) k = Some (Val d) ->
  let base := base_of (BoCfg min max j) (Z.of_nat k) in
  min <= base <= d /\ d <= max /\ (IZR d <= IZR base * (1 + B2R j * (1 + / 4503599627370495)))%R.
Proof. exact @delay_bounds. Qed.
Print Assumptions C16_bounds.

(** Without jitter the delays are exactly the exponential base. *)
Theorem C16_no_jitter :
  forall W R (next_u64 : R -> M W (R * Z)) debug min max j (rng : R) m n w,
  maker_new min max j rng = Ok m -> duration min -> duration max ->
  B2R j = 0%R -> Z.of_nat n < 2 ^ 32 ->
  delays next_u64 debug n (make_backoff m) w = map (fun k => Val (base_of (BoCfg min max j) (Z.of_nat k))) (seq 0 n).
Proof. exact @delay_exact. Qed.
Print Assumptions C16_no_jitter.

(** The base never decreases, starts at least at min and ends at max. *)
Theorem C17_non_decreasing :
  forall R min max j (rng : R) m k k',
  maker_new min max j rng = Ok m -> duration min -> duration max ->
  0 <= k <= k' -> min <= base_of (BoCfg min max j) k <= base_of (BoCfg min max j) k' /\ base_of (BoCfg min max j) k' <= max.
Proof. exact @base_never_decreases. Qed.
Print Assumptions C17_non_decreasing.

(** Every retry sequence made by one maker starts afresh - with the very same jitter: the maker never advances its generator. *)
Theorem C17_sessions_alike :
  forall W R (next_u64 : R -> M W (R * Z)) debug (f : R -> R * Z) (m : maker (R := R)) n w w',
  (forall g w, next_u64 g w = (w, Val (f g))) ->
  delays next_u64 debug n (make_backoff m) w = delays next_u64 debug n (make_backoff m) w'.
Proof. exact @sessions_alike. Qed.
Print Assumptions C17_sessions_alike.

(** Within a sequence every delay has a random number of its own: the [k]-th delay depends on nothing but the
    configuration and the [k]-th number of the generator. *)
Theorem C17_own_number :
  forall W W' R R' (next : R -> M W (R * Z)) (next' : R' -> M W' (R' * Z)) f f' debug debug' min max j
    (rng : R) (rng' : R') m m' n n' w w' k d d',
  (forall g w, next g w = (w, Val (f g))) -> (forall g w, next' g w = (w, Val (f' g))) ->
  maker_new min max j rng = Ok m -> maker_new min max j rng' = Ok m' ->
  number f rng k = number f' rng' k ->
  nth_error (delays next debug n (make_backoff m) w) k = Some (Val d) ->
  nth_error (delays next' debug' n' (make_backoff m') w') k = Some (Val d') -> d = d'.
Proof. exact @fresh_numbers. Qed.
Print Assumptions C17_own_number.

(** The constructor accepts exactly the documented arguments. *)
Theorem C18_exact :
  forall R min max j (rng : R),
  (exists m, maker_new min max j rng = Ok m) <-> valid_backoff min max j.
Proof. exact @new_exact. Qed.
Print Assumptions C18_exact.

(** The default maker exists.  Its [k]-th delay is at least 50 ms * 2^k (the factor stops at 2^32 - 1) and at most 99 % longer.
    Its maximum of [u64::MAX] ms is never reached. *)
Theorem C18_default :
  forall W R (next_u64 : R -> M W (R * Z)) debug (rng : R),
  proper next_u64 ->
  exists m, maker_default rng = Ok m /\
  forall n w k d, Z.of_nat n < 2 ^ 32 -> nth_error (delays next_u64 debug n (make_backoff m) w) k = Some (Val d) ->
    let base := 50 * 1000000 * Z.min (2 ^ Z.of_nat k) 4294967295 in
    base <= d /\ (IZR d <= IZR base * (199 / 100 + / 1000000000000000))%R.
Proof. exact @default_delays. Qed.
Print Assumptions C18_default.


(** Release builds never panic, if the jitter is at most 100 % or max * jitter at most 2^63 seconds. *)
Theorem C18_never_panics :
  forall W R (next_u64 : R -> M W (R * Z)) min max j (rng : R) m n w,
  maker_new min max j rng = Ok m -> duration min -> duration max -> proper next_u64 ->
  (B2R j <= 1 \/ IZR max * B2R j <= IZR (2 ^ 63 * second))%R ->
  length (delays next_u64 false n (make_backoff m) w) = n /\
  Forall (fun o => exists d, o = Val d) (delays next_u64 false n (make_backoff m) w).
Proof. exact @never_panics. Qed.
Print Assumptions C18_never_panics.

(** Debug builds panic only if the random float was 0.0 (one of 2^53). *)
Theorem C18_debug_panic :
  forall W R (next_u64 : R -> M W (R * Z)) debug b w w1,
  good (b_cfg b) -> tame (b_cfg b) -> 0 <= b_iter b < 2 ^ 32 - 1 -> proper next_u64 ->
  next_backoff next_u64 debug b w = (w1, Panic) ->
  debug = true /\ exists g v, snd (next_u64 (b_rng b) w) = Val (g, v) /\ v < 2048.
Proof. exact @panics_on_zero. Qed.
Print Assumptions C18_debug_panic.

(** Which does happen; *)
Theorem C18_debug_panic_refuted :
  exists m, maker_new 50000000 second (f64_of 1 0) tt = Ok m /\
  delays (same 0) true 1 (make_backoff m) tt = [Panic] /\ delays (same 0) false 1 (make_backoff m) tt = [Val 50000000].
Proof. exact zero_panics. Qed.
Print Assumptions C18_debug_panic_refuted.

(** and with more than 100 % of jitter on huge delays release builds panic too. *)
Theorem C18_overflow_refuted :
  exists m, maker_new huge_min dur_max (f64_of 100 0) tt = Ok m /\
  delays (same (2 ^ 64 - 1)) false 1 (make_backoff m) tt = [Panic].
Proof. exact huge_panics. Qed.
Print Assumptions C18_overflow_refuted.

(** The jitter is not uniform on [0, base * jitter], as documented: seconds and nanoseconds are scaled and cut separately, so
    with a base of one second and a jitter of up to 100 % there is no jitter at all, whatever the random numbers. *)
Theorem C16_uniform_jitter_refuted :
  forall W R (next_u64 : R -> M W (R * Z)) debug max j (rng : R) m w,
  maker_new second max j rng = Ok m -> duration max ->
  proper next_u64 -> (B2R j <= 1)%R ->
  forall d, nth_error (delays next_u64 debug 1 (make_backoff m) w) 0 = Some (Val d) -> d = second.
Proof. exact @second_unjittered. Qed.
Print Assumptions C16_uniform_jitter_refuted.

(** Non-vacuity: 100 ms doubling up to 1 s, jitter 50 %, the generator at one half. *)
Example C16_example :
  match maker_new 100000000 second (f64_of 1 (-1)) tt with
  | Ok m => delays (same (2 ^ 63)) true 6 (make_backoff m) tt
  | Er _ => []
  end = map Val [125000000; 250000000; 500000000; 1000000000; 1000000000; 1000000000].
Proof. vm_compute. reflexivity. Qed.
(** A generator whose numbers alternate: so does the jitter. *)
Definition alternate (g : bool) : bool * Z := (negb g, if g then 2 ^ 63 else 2 ^ 62).
Example C17_own_number_example :
  match maker_new 100000000 second (f64_of 1 (-1)) true with
  | Ok m => delays (fun g => ret (alternate g)) true 5 (make_backoff m) tt
  | Er _ => []
  end = map Val [125000000; 225000000; 500000000; 900000000; 1000000000] /\
  number alternate true 2 = number alternate false 1.
Proof. vm_compute. auto. Qed.
Example C16_example_hypotheses : proper (same (2 ^ 63)) /\ duration 100000000 /\ duration second /\
  (exists m, maker_new 100000000 second (f64_of 1 (-1)) tt = Ok m).
Proof.
  split; [intros g w; exists tt, (2 ^ 63); split; [reflexivity|lia]|].
  split; [vm_compute; intuition congruence|]. split; [vm_compute; intuition congruence|]. eexists. reflexivity.
Qed.
Example C18_example : (exists m, maker_default tt = Ok m) /\ maker_new 2 1 (f64_of 0 0) tt = Er MaxBelowMin /\
  maker_new 0 0 (f64_of 0 0) tt = Er MaxZero /\ maker_new 0 1 (f64_of (-1) 0) tt = Er JitterNegative /\
  maker_new 0 1 (f64_of 101 0) tt = Er JitterAbove100 /\ maker_new 0 1 B754_nan tt = Er JitterNotFinite.
Proof. split; [eexists; reflexivity|]. vm_compute. auto. Qed.

Example C18_default_example :
  match maker_default tt with
  | Ok m => delays (same (2 ^ 63)) true 3 (make_backoff m) tt
  | Er _ => []
  end = map Val [74750000; 149500000; 299000000].
Proof. vm_compute. reflexivity. Qed.

Local Open Scope R_scope.
(** C19, in floats: the random float is in [0, 1). *)
Theorem C19_next_f64_range :
  forall v,
  (0 <= v < 2 ^ 64)%Z -> is_finite (next_f64 v) = true /\ 0 <= B2R (next_f64 v) < 1.
Proof. exact @next_f64_range. Qed.
Print Assumptions C19_next_f64_range.

Theorem C19_next_f64_value :
  forall v,
  (0 <= v < 2 ^ 64)%Z ->
    B2R (next_f64 v) = IZR (next_f64_num v) * bpow radix2 (-53) /\ is_finite (next_f64 v) = true /\ (0 <= next_f64_num v < 2 ^ 53)%Z.
Proof. exact @next_f64_value. Qed.
Print Assumptions C19_next_f64_value.

