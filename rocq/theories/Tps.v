(** Model of [TpsBudget] (tower/src/retry/budget/tps_budget.rs).

    Times and durations are in nanoseconds.  [isize] is taken to be 64 bits wide.
    The sequential functions come first; the second half cuts them into their
    atomic steps, for several threads sharing one budget. *)
From Verif Require Import Base.
Set Implicit Arguments.
Local Open Scope Z_scope.

(** isize arithmetic: [fetch_add] wraps around, [saturating_add] / [saturating_mul] stop
    at the ends. *)
Definition isize_max : Z := 2 ^ 63 - 1.
Definition isize_min : Z := - 2 ^ 63.
Definition wrap (z : Z) : Z := (z + 2 ^ 63) mod 2 ^ 64 - 2 ^ 63.
Definition clamp (z : Z) : Z := Z.max isize_min (Z.min isize_max z).
Definition sat_add (a b : Z) : Z := clamp (a + b).
Definition sat_mul (a b : Z) : Z := clamp (a * b).

(** tps_budget.rs:26-49: the fields that never change ... *)
Record tps_cfg := TpsCfg { t_reserve : Z; t_window : Z; t_deposit : Z; t_withdraw : Z }.
(** ... and those that do. *)
Record tps := Tps { g_index : nat; g_time : Z; t_slots : list Z; t_writer : Z }.

Fixpoint store (l : list Z) (i : nat) (v : Z) : list Z :=
  match l, i with
  | [], _ => []
  | _ :: l', O => v :: l'
  | x :: l', S i' => x :: store l' i' v
  end.

(** tps_budget.rs:89-112, without the weights (TpsNew.v).  [ttl] in nanoseconds; [now] is [Instant::now()]. *)
Definition tps_reserve (ttl min_per_sec withdraw : Z) : Z :=
  sat_mul (sat_mul min_per_sec (ttl / 1000000000)) withdraw.
Definition tps_start (now : Z) : tps := Tps 0 now (repeat 0 10) 0.

(** tps_budget.rs:127-133: the loop, as often as [fuel] allows. *)
Fixpoint expire_loop (fuel : nat) (window diff : Z) (idx : nat) (slots : list Z) : out (nat * list Z) :=
  if diff >? window then
    match fuel with
    | O => Diverge
    | S fuel' => expire_loop fuel' window (diff - window) ((idx + 1) mod 10) (store slots idx 0)
    end
  else Val (idx, slots).

(** Enough for the loop to end if the window is not 0. *)
Definition expire_fuel (c : tps_cfg) (diff : Z) : nat := Z.to_nat (diff / t_window c).

(** tps_budget.rs:114-137.  [saturating_duration_since] is 0 for a time in the past. *)
Definition expire (c : tps_cfg) (now : Z) (b : tps) : out tps :=
  let diff := Z.max 0 (now - g_time b) in
  if diff <? t_window c then Val b
  else
    let slots := store (t_slots b) (g_index b) (t_writer b) in
    match expire_loop (expire_fuel c diff) (t_window c) diff ((g_index b + 1) mod 10) slots with
    | Val (idx, slots') => Val (Tps idx now slots' 0)
    | Panic => Panic
    | Diverge => Diverge
    end.

(** tps_budget.rs:139-151 *)
Definition tps_sum (c : tps_cfg) (b : tps) : Z :=
  sat_add (sat_add (t_writer b) (fold_left sat_add (t_slots b) 0)) (t_reserve c).

Definition add_writer (v : Z) (b : tps) : tps :=
  Tps (g_index b) (g_time b) (t_slots b) (wrap (t_writer b + v)).

(** tps_budget.rs:153-156, 174-176 *)
Definition deposit (c : tps_cfg) (now : Z) (b : tps) : out tps :=
  match expire c now b with
  | Val b1 => Val (add_writer (t_deposit c) b1)
  | Panic => Panic
  | Diverge => Diverge
  end.

(** tps_budget.rs:158-170, 178-180 *)
Definition withdraw (c : tps_cfg) (now : Z) (b : tps) : out (tps * bool) :=
  match expire c now b with
  | Val b1 => if tps_sum c b1 >=? t_withdraw c then Val (add_writer (- t_withdraw c) b1, true) else Val (b1, false)
  | Panic => Panic
  | Diverge => Diverge
  end.

(** One thread using the budget: the operations with the time of each.  The
    answers in chronological order; [None] for a deposit. *)
Inductive tps_op := Deposit | Withdraw.
Fixpoint tps_run (c : tps_cfg) (b : tps) (ops : list (Z * tps_op)) : list (out (option bool)) :=
  match ops with
  | [] => []
  | (t, Deposit) :: ops' =>
      match deposit c t b with
      | Val b1 => Val None :: tps_run c b1 ops'
      | Panic => [Panic]
      | Diverge => [Diverge]
      end
  | (t, Withdraw) :: ops' =>
      match withdraw c t b with
      | Val (b1, a) => Val (Some a) :: tps_run c b1 ops'
      | Panic => [Panic]
      | Diverge => [Diverge]
      end
  end.

(** ** Several threads

    Each atomic operation is a step.  [SeqCst] operations interleave; the
    generation is only touched under the lock.  Taking the lock, reading the
    clock and, if nothing has expired, releasing it are one step: nothing else
    can come between that makes a difference, as only the holder of the lock
    reads or writes the generation. *)
Inductive tpc :=
| PIdle
| PLock (o : tps_op)                                     (* 115-122 *)
| PSwap (o : tps_op) (now diff : Z)                      (* 124 *)
| PStore (o : tps_op) (now diff v : Z)                   (* 125 *)
| PZero (o : tps_op) (now diff : Z) (idx : nat)          (* 129-136: the next slot, or the end *)
| PAdd                                                   (* 155 *)
| PLoad                                                  (* 140 *)
| PSum (current : Z) (j : nat) (acc : Z)                 (* 141-146: the next slot *)
| PSub.                                                  (* 165 *)

Record tsys := TSys { s_tps : tps; s_lock : bool; s_clock : Z; s_pcs : list tpc }.

(** What is logged: the start of an operation, its answer, the changes of the
    balance, the reading of the balance and the turning of the ring of slots
    (from the swap to the end; [k] slots further). *)
Inductive tobs :=
| CAdd (i : nat) (o : tps_op) (t : Z)        (* deposited / withdrawn *)
| CRefused (i : nat)
| CLoad (i : nat)                            (* starts to sum up *)
| CSwap (i : nat) (now k : Z)
| CEnd (i : nat).

Fixpoint set_pc (l : list tpc) (i : nat) (p : tpc) : list tpc :=
  match l, i with
  | [], _ => []
  | _ :: l', O => p :: l'
  | x :: l', S i' => x :: set_pc l' i' p
  end.

Definition after_expire (o : tps_op) : tpc := match o with Deposit => PAdd | Withdraw => PLoad end.
(** The number of slots the loop at 126-133 will move on. *)
Definition slots_passed (c : tps_cfg) (diff : Z) : Z := - ((- diff) / t_window c).

(** One step of thread [i]. *)
Definition thread_step (c : tps_cfg) (i : nat) (y : tsys) : tsys * list tobs :=
  let b := s_tps y in
  let go b' lock p := TSys b' lock (s_clock y) (set_pc (s_pcs y) i p) in
  match nth i (s_pcs y) PIdle with
  | PIdle => (y, [])
  | PLock o =>
      if s_lock y then (y, [])
      else let diff := Z.max 0 (s_clock y - g_time b) in
           if diff <? t_window c then (go b false (after_expire o), [])
           else (go b true (PSwap o (s_clock y) diff), [])
  | PSwap o now diff =>
      (go (Tps (g_index b) (g_time b) (t_slots b) 0) true (PStore o now diff (t_writer b)), [CSwap i now (slots_passed c diff)])
  | PStore o now diff v =>
      (go (Tps (g_index b) (g_time b) (store (t_slots b) (g_index b) v) (t_writer b)) true
          (PZero o now diff ((g_index b + 1) mod 10)), [])
  | PZero o now diff idx =>
      if diff >? t_window c
      then (go (Tps (g_index b) (g_time b) (store (t_slots b) idx 0) (t_writer b)) true
               (PZero o now (diff - t_window c) ((idx + 1) mod 10)), [])
      else (go (Tps idx now (t_slots b) (t_writer b)) false (after_expire o), [CEnd i])
  | PAdd => (go (add_writer (t_deposit c) b) (s_lock y) PIdle, [CAdd i Deposit (s_clock y)])
  | PLoad => (go b (s_lock y) (PSum (t_writer b) 0 0), [CLoad i])
  | PSum current j acc =>
      let acc' := sat_add acc (nth j (t_slots b) 0) in
      if (j <? 9)%nat then (go b (s_lock y) (PSum current (j + 1) acc'), [])
      else if sat_add (sat_add current acc') (t_reserve c) >=? t_withdraw c
           then (go b (s_lock y) PSub, [])
           else (go b (s_lock y) PIdle, [CRefused i])
  | PSub => (go (add_writer (- t_withdraw c) b) (s_lock y) PIdle, [CAdd i Withdraw (s_clock y)])
  end.

(** What can happen: a thread starts an operation, makes a step, time passes. *)
Inductive tmove := MStart (i : nat) (o : tps_op) | MStep (i : nat) | MTick (d : nat).
Definition tps_move (c : tps_cfg) (m : tmove) (y : tsys) : tsys * list tobs :=
  match m with
  | MStart i o =>
      match nth i (s_pcs y) PSub with
      | PIdle => (TSys (s_tps y) (s_lock y) (s_clock y) (set_pc (s_pcs y) i (PLock o)), [])
      | _ => (y, [])
      end
  | MStep i => thread_step c i y
  | MTick d => (TSys (s_tps y) (s_lock y) (s_clock y + Z.of_nat d) (s_pcs y), [])
  end.
Fixpoint tps_moves (c : tps_cfg) (y : tsys) (log : list tobs) (ms : list tmove) : tsys * list tobs :=
  match ms with
  | [] => (y, log)
  | m :: ms' => let '(y1, l) := tps_move c m y in tps_moves c y1 (l ++ log) ms'
  end.
(** [n] threads, a new budget. *)
Definition tsys_start (n : nat) (t0 : Z) : tsys := TSys (tps_start t0) false t0 (repeat PIdle n).
