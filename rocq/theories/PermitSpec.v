(** Specification for C84: the permits of a ConcurrencyLimit at the bottom of a stack. *)
From Verif Require Import Base Util Middleware Limits MeterSpec FlightSpec KeepSpec.
Set Implicit Arguments.
Local Open Scope Z_scope.

(** Of the [max] permits of the semaphore, those that are neither free nor set aside for a waiter. *)
Definition in_use {W} (max : nat) (x : sem * W) : Z :=
  Z.of_nat max - Z.of_nat (sem_avail (fst x)) - Z.of_nat (length (sem_granted (fst x))).
(** Is the waiter with ticket [t] known to the semaphore? *)
Definition enrolled {W} (t : nat) (x : sem * W) : Z :=
  Z.of_nat (count_occ Nat.eq_dec (sem_queue (fst x) ++ sem_granted (fst x)) t).
(** Permits without a request in flight; [fst (snd x)] are the requests in flight ([in_the_air], FlightSpec.v). *)
Definition reserved {W} (max : nat) (x : sem * (Z * W)) : Z := in_use max x - fst (snd x).

(** An instance of ConcurrencyLimit has a permit from the time it is ready to the time it is called ... *)
Definition has_permit {W Req Resp Err} {svc : Service W Req Resp Err} (s : conc_st svc) : Z := if cl_permit s then 1 else 0.
(** ... and a ticket while it waits for one. *)
Definition has_ticket {W Req Resp Err} {svc : Service W Req Resp Err} (t : nat) (s : conc_st svc) : Z :=
  match cl_wait s with Some t' => if Nat.eq_dec t' t then 1 else 0 | None => 0 end.
(** Its response future has one. *)
Definition one {A} (_ : A) : Z := 1.

(** What a Retry's future, in this state, is at. *)
Definition backing_off {W Req Resp Err} {pol : Policy W Req Resp Err} {svc : Service W Req Resp Err} (f : retry_fut pol svc) : bool :=
  match rf_state f with RWaiting _ => true | _ => false end.
(** The futures the program makes by calling a Retry, and what becomes of them when polled. *)
Inductive retrying {W Req Resp Err} (pol : Policy W Req Resp Err) (svc : Service W Req Resp Err) fuel : retry_fut pol svc -> Prop :=
| rt_call s r w w1 s1 f : call (retry pol svc fuel) s r w = (w1, Val (s1, f)) -> retrying fuel f
| rt_poll f w w1 f1 p : retrying fuel f -> poll_fut (retry pol svc fuel) f w = (w1, Val (f1, p)) -> retrying fuel f1.

(** Nothing but the program's instances and futures touches the semaphore. *)
Definition env_spares_limit {W Req} (ops : list (@uop (sem * W) Req)) : Prop :=
  Forall (fun o => match o with UEnv g => forall x, fst (g x) = fst x | _ => True end) ops.
