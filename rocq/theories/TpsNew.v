(** Model of [TpsBudget::new] and [Default] (tower/src/retry/budget/tps_budget.rs). *)
From Verif Require Import Base Float Tps.
From Flocq Require Import BinarySingleNaN.
Set Implicit Arguments.
Local Open Scope Z_scope.

(** tps_budget.rs:77-87: deposit and withdrawal. *)
Definition weights (p : f32) : Z * Z :=
  if Beqb p (f32_of 0 0) then (0, 1)
  else if Bleb p (f32_of 1 0) then (1, cast isize_min isize_max (div32 (f32_of 1 0) p))
  else (1000, cast isize_min isize_max (div32 (f32_of 1000 0) p)).

(** tps_budget.rs:69-112.  [ttl] in nanoseconds; [now] is [Instant::now()].  [x >= y] on floats is [y <= x] (both false for NaN). *)
Definition tps_new (ttl min_per_sec : Z) (retry_percent : f32) (now : Z) : out (tps_cfg * tps) :=
  if negb (1000000000 <=? ttl) then Panic
  else if negb (ttl <=? 60000000000) then Panic
  else if negb (Bleb (f32_of 0 0) retry_percent) then Panic
  else if negb (Bleb retry_percent (f32_of 1000 0)) then Panic
  else if negb (min_per_sec <? 2 ^ 31 - 1) then Panic
  else
    let '(d, w) := weights retry_percent in
    Val (TpsCfg (tps_reserve ttl min_per_sec w) (ttl / 10) d w, tps_start now).

(** tps_budget.rs:184-188: [Default]: 10 s, 10 per second, 20 %.  The nearest f32 to 0.2 is 13421773 * 2 ^ -26. *)
Definition tps_default (now : Z) : out (tps_cfg * tps) := tps_new 10000000000 10 (f32_of 13421773 (-26)) now.
