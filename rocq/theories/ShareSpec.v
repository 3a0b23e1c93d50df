(** Specification vocabulary for C80: how the requests of a [Balance] are shared among its ready endpoints. *)
From Verif Require Import Base ReadyCache RngSpec.
Set Implicit Arguments.

(** How many of the numbers below [n]. *)
Definition how_many (n : nat) (p : nat -> bool) : nat := length (List.filter p (seq 0 n)).

Section Share.
  Context {Metric : Type} (le : Metric -> Metric -> bool) (m : nat -> Metric) (n : nat).
  (** Endpoints more loaded than endpoint [i]; other endpoints as loaded. *)
  Definition heavier (i : nat) : nat := how_many n (fun j => negb (le (m j) (m i))).
  Definition level (i : nat) : nat := how_many n (fun j => negb (j =? i) && le (m i) (m j) && le (m j) (m i)).
  Definition share (i : nat) : nat := 2 * heavier i + level i.
End Share.

Section Ease.
  Context {W K Req Resp Err DErr Metric R : Type} (keq : forall a b : K, {a = b} + {a <> b}).
  Context (svc : Service W Req Resp Err) (D : Discover W K (st svc) DErr).
  Context (sched : nat -> W -> W * list nat).
  Context (next_u64 : R -> M W (R * Z)) (debug : bool).
  Context (load : st svc -> M W Metric) (le : Metric -> Metric -> bool) (fuel : nat).
  Notation bal := (balance keq svc D sched next_u64 debug load le fuel).

  (** A balancer with no endpoint chosen yet, polled in the world [w]: it first takes in what discovery has to say (no
      error) and promotes the endpoints that have become ready; then the world is [w1] and the ready endpoints are [eps]. *)
  Definition at_choice (b : st bal) (w w1 : W) (eps : list (st svc)) : Prop :=
    bl_index b = None /\
    exists w0 d c0 c, update_from_discover keq D fuel (bl_disc b) (bl_cache b) w = (w0, Val (d, c0, None)) /\
      promote_pending keq sched debug c0 w0 = (w1, Val c) /\ map (fun x => fst (snd x)) (rc_ready c) = eps.

  (** Polled, it says it is ready and the world is [w1]; and the next request, whenever it comes, is passed to [s]: the
      future is the one [s] gave. *)
  Definition passes_to (b : st bal) (w w1 : W) (s : st svc) : Prop :=
    exists b1, poll_ready bal b w = (w1, Val (b1, Ready (Ok tt))) /\
      forall r w2 w3 s3 f, call svc s r w2 = (w3, Val (s3, f)) -> exists b2 w4, call bal b1 r w2 = (w4, Val (b2, Some f)).
End Ease.
Arguments at_choice {W K Req Resp Err DErr Metric R} keq svc D sched next_u64 debug load le fuel b w w1 eps.
Arguments passes_to {W K Req Resp Err DErr Metric R} keq svc D sched next_u64 debug load le fuel b w w1 s.

(** Of the pairs of numbers below [N], how many are such that. *)
Definition how_many_pairs (N : nat) (p : nat -> nat -> bool) : nat :=
  length (List.filter (fun uv => p (fst uv) (snd uv)) (list_prod (seq 0 N) (seq 0 N))).
