(** Model of the exponential backoff (tower/src/retry/backoff.rs).

    A [Duration] is its number of nanoseconds, at most [dur_max] (u64 seconds). *)
From Verif Require Import Base Float ReadyCache.
From Flocq Require Import BinarySingleNaN.
Set Implicit Arguments.
Local Open Scope Z_scope.

Definition second : Z := 1000000000.
Definition dur_max : Z := 2 ^ 64 * second - 1.

(** util/rng.rs:26-37, in floats. *)
Definition next_f64 (v : Z) : f64 :=
  let scale := Bdiv mode_NE (f64_of 1 0) (f64_of (2 ^ 53) 0) in
  mul64 scale (f64_of (next_f64_num v) 0).

(** backoff.rs:43-53: the fields common to the maker and the backoff. *)
Record bo_cfg := BoCfg { bo_min : Z; bo_max : Z; bo_jitter : f64 }.
Inductive invalid := MaxBelowMin | MaxZero | JitterNegative | JitterAbove100 | JitterNotFinite.

Section Backoff.
  Context {W R : Type} (next_u64 : R -> M W (R * Z)) (debug : bool).

  Record maker := Maker { mk_cfg : bo_cfg; mk_rng : R }.
  (** backoff.rs:63-69 *)
  Record backoff := Backoff { b_cfg : bo_cfg; b_rng : R; b_iter : Z }.

  (** backoff.rs:86-114 *)
  Definition maker_new (min max : Z) (jitter : f64) (rng : R) : result maker invalid :=
    if max <? min then Er MaxBelowMin
    else if max =? 0 then Er MaxZero
    else if Bltb jitter (f64_of 0 0) then Er JitterNegative
    else if Bltb (f64_of 100 0) jitter then Er JitterAbove100
    else if negb (is_finite jitter) then Er JitterNotFinite
    else Ok (Maker (BoCfg min max jitter) rng).

  (** backoff.rs:123-131 *)
  Definition make_backoff (m : maker) : backoff := Backoff (mk_cfg m) (mk_rng m) 0.

  (** Duration::checked_mul *)
  Definition dur_mul (d k : Z) : option Z := if d * k <=? dur_max then Some (d * k) else None.
  (** 2_u32.saturating_pow(n) *)
  Definition pow2_sat (n : Z) : Z := if n <? 32 then 2 ^ n else 2 ^ 32 - 1.

  (** backoff.rs:135-148 *)
  Definition bo_base (b : backoff) : out Z :=
    let min := bo_min (b_cfg b) in
    let max := bo_max (b_cfg b) in
    if debug && (max <? min) then Panic
    else if debug && negb (0 <? max) then Panic
    else Val (Z.min (match dur_mul min (pow2_sat (b_iter b)) with Some d => d | None => max end) max).

  (** Duration::new *)
  Definition dur_new (secs nanos : Z) : out Z :=
    if nanos <? second then Val (secs * second + nanos)
    else if secs + nanos / second <? 2 ^ 64 then Val (secs * second + nanos) else Panic.

  (** backoff.rs:159-165, for the random number [v]. *)
  Definition jitter_of (j : f64) (max base v : Z) : out Z :=
    let factor := next_f64 v in
    if debug && negb (Bltb (f64_of 0 0) factor) then Panic
    else
      let rand := mul64 factor j in
      let secs := mul64 (f64_of (base / second) 0) rand in
      let nanos := mul64 (f64_of (base mod second) 0) rand in
      if base <=? max then
        match dur_new (cast 0 (2 ^ 64 - 1) secs) (cast 0 (2 ^ 32 - 1) nanos) with
        | Val d => Val (Z.min d (max - base))
        | Panic => Panic
        | Diverge => Diverge
        end
      else Panic.
  (** backoff.rs:152-167 *)
  Definition bo_jitter_part (b : backoff) (base : Z) : M W (R * Z) :=
    let j := bo_jitter (b_cfg b) in
    if Beqb j (f64_of 0 0) then ret (b_rng b, 0)
    else '(g, v) <- next_u64 (b_rng b) ;; (fun w => (w, match jitter_of j (bo_max (b_cfg b)) base v with
                                                        | Val d => Val (g, d) | Panic => Panic | Diverge => Diverge end)).

  (** backoff.rs:176-183: the new state and the delay of the timer made.  [base + jitter] panics on
      overflow; [iterations += 1] panics in debug builds, wraps in release builds. *)
  Definition next_backoff (b : backoff) : M W (backoff * Z) :=
    match bo_base b with
    | Val base =>
        '(g, j) <- bo_jitter_part b base ;;
        if dur_max <? base + j then panic
        else if b_iter b + 1 <? 2 ^ 32 then ret (Backoff (b_cfg b) g (b_iter b + 1), base + j)
        else if debug then panic else ret (Backoff (b_cfg b) g 0, base + j)
    | Panic => panic
    | Diverge => diverge
    end.

  (** The delays of one retry sequence. *)
  Fixpoint delays (n : nat) (b : backoff) (w : W) : list (out Z) :=
    match n with
    | O => []
    | S n' => match next_backoff b w with
              | (w1, Val (b1, d)) => Val d :: delays n' b1 w1
              | (_, Panic) => [Panic]
              | (_, Diverge) => [Diverge]
              end
    end.
End Backoff.

(** backoff.rs:185-194.  0.99 is the f64 4458563631096791 * 2 ^ -52. *)
Definition maker_default {R} (rng : R) : result (maker (R := R)) invalid :=
  maker_new 50000000 ((2 ^ 64 - 1) * 1000000) (f64_of 4458563631096791 (-52)) rng.
