(** Specification for C61: no lost wake-ups.

    A Rust future or service that answers [Pending] must have arranged for the
    task to be woken; the only way is to have polled something that itself
    answered [Pending].  [K : W -> Prop] stands for "the waker is registered":
    *any* predicate on worlds that holds right after a [Pending] answer of
    something at the bottom (a wrapped service, a user-supplied future, a timer,
    a semaphore).  Nothing is assumed to preserve [K], so when [K] holds at the
    end of a poll, such an answer was the last thing that happened in it. *)
From Verif Require Import Base Util Middleware Limits Hedge CallAll Make Load.
Set Implicit Arguments.

Section Wakes.
  Context {W : Type} (K : W -> Prop).

  Definition svc_wakes {Req Resp Err} (svc : Service W Req Resp Err) : Prop :=
    (forall s w w1 s1, poll_ready svc s w = (w1, Val (s1, Pending)) -> K w1) /\
    (forall f w w1 f1, poll_fut svc f w = (w1, Val (f1, Pending)) -> K w1).
  Definition task_wakes {A} (T : Task W A) : Prop :=
    forall t w w1 t1, tpoll T t w = (w1, Val (t1, Pending)) -> K w1.
  Definition timer_wakes (rt : Rt W) : Prop :=
    forall w d, fired rt w d = false -> K (nap rt d w).

  (** Needed under [Hedge] only, whose duplicate may be pending for ever without
      having registered anything: the original's registration must survive what
      is done for the duplicate in the same poll. *)
  Record keeps {Req Resp Err} (rt : Rt W) (svc : Service W Req Resp Err) : Prop := {
    kp_ready : forall s w, K w -> K (fst (poll_ready svc s w));
    kp_clone : forall s w, K w -> K (fst (clone svc s w));
    kp_drop : forall s w, K w -> K (drop_svc svc s w);
    kp_nap : forall d w, K w -> K (nap rt d w)
  }.
End Wakes.

(** Services assembled from tower's middleware, whatever the closures, policies
    and predicates do, as long as what is at the bottom registers wakers. *)
Inductive assembled : forall (W : Type) (K : W -> Prop) (Req Resp Err : Type) (svc : Service W Req Resp Err), Prop :=
| as_bottom W (K : W -> Prop) Req Resp Err (svc : Service W Req Resp Err) :
    svc_wakes K svc -> assembled K svc
| as_service_fn W (K : W -> Prop) Req Resp Err (T : Task W (result Resp Err)) (f : Req -> M W (tst T)) :
    task_wakes K T -> assembled K (service_fn T f)
(* tower::util *)
| as_boxed W (K : W -> Prop) Req Resp Err (svc : Service W Req Resp Err) :
    assembled K svc -> assembled K (boxed svc)
| as_map_request W (K : W -> Prop) Req Req' Resp Err (svc : Service W Req Resp Err) (f : Req' -> M W Req) :
    assembled K svc -> assembled K (map_request f svc)
| as_map_response W (K : W -> Prop) Req Resp Resp' Err (svc : Service W Req Resp Err) (f : Resp -> M W Resp') :
    assembled K svc -> assembled K (map_response f svc)
| as_map_err W (K : W -> Prop) Req Resp Err Err' (svc : Service W Req Resp Err) (f : Err -> M W Err') :
    assembled K svc -> assembled K (map_err f svc)
| as_map_result W (K : W -> Prop) Req Resp Err Resp' Err' (svc : Service W Req Resp Err)
    (into : Err -> Err') (f : result Resp Err -> M W (result Resp' Err')) :
    assembled K svc -> assembled K (map_result into f svc)
| as_map_future W (K : W -> Prop) Req Resp Err Resp' Err' (svc : Service W Req Resp Err)
    (into : Err -> Err') (T : Task W (result Resp' Err')) (f : fut svc -> M W (tst T)) :
    assembled K svc -> task_wakes K T -> assembled K (map_future into svc T f)
| as_then W (K : W -> Prop) Req Resp Err Resp' Err' (svc : Service W Req Resp Err)
    (into : Err -> Err') (T : Task W (result Resp' Err')) (f : result Resp Err -> M W (tst T)) :
    assembled K svc -> task_wakes K T -> assembled K (then_ into T f svc)
| as_and_then W (K : W -> Prop) Req Resp Err Resp' Err' (svc : Service W Req Resp Err)
    (into : Err -> Err') (T : Task W (result Resp' Err')) (f : Resp -> M W (tst T)) :
    assembled K svc -> task_wakes K T -> assembled K (and_then into T f svc)
| as_either W (K : W -> Prop) Req Resp Err (a b : Service W Req Resp Err) :
    assembled K a -> assembled K b -> assembled K (either a b)
| as_optional W (K : W -> Prop) Req Resp Err (svc : Service W Req Resp Err) :
    assembled K svc -> assembled K (optional svc)
| as_future_service W (K : W -> Prop) Req Resp Err (svc : Service W Req Resp Err)
    (T : Task W (result (st svc) Err)) (tclone : tst T -> M W (tst T)) :
    assembled K svc -> task_wakes K T -> assembled K (future_service svc T tclone)
(* middleware *)
| as_timeout W (K : W -> Prop) Req Resp Err (svc : Service W Req Resp Err) rt dur :
    assembled K svc -> timer_wakes K rt -> assembled K (timeout rt dur svc)
| as_load_shed W (K : W -> Prop) Req Resp Err (svc : Service W Req Resp Err) :
    assembled K svc -> assembled K (load_shed svc)
| as_filter W (K : W -> Prop) Req Req' Resp Err P PErr (svc : Service W Req Resp Err)
    (check : P -> Req' -> M W (P * result Req PErr)) pclone :
    assembled K svc -> assembled K (filter svc check pclone)
| as_async_filter W (K : W -> Prop) Req Req' Resp Err P PErr (svc : Service W Req Resp Err)
    (T : Task W (result Req PErr)) (check : P -> Req' -> M W (P * tst T)) pclone :
    assembled K svc -> task_wakes K T -> assembled K (async_filter svc T check pclone)
| as_retry W (K : W -> Prop) Req Resp Err (svc : Service W Req Resp Err) (pol : Policy W Req Resp Err) fuel :
    assembled K svc -> task_wakes K (pfut pol) -> assembled K (retry pol svc fuel)
| as_steer W (K : W -> Prop) Req Resp Err P (svc : Service W Req Resp Err)
    (pick : P -> Req -> list (st svc) -> M W (P * nat)) pclone :
    assembled K svc -> assembled K (steer svc pick pclone)
| as_reconnect W (K : W -> Prop) Tgt Req Resp Err MErr (svc : Service W Req Resp Err)
    (mk : Service W Tgt (st svc) MErr) target fuel :
    assembled K svc -> assembled K mk -> assembled K (reconnect svc mk target fuel)
| as_rate_limit W (K : W -> Prop) Req Resp Err (svc : Service W Req Resp Err) rt rate :
    assembled K svc -> timer_wakes K rt -> assembled K (rate_limit rt rate svc)
(* the semaphore is part of the world: it, too, registers the waker when it refuses *)
| as_conc_limit W (K : W -> Prop) (K' : sem * W -> Prop) Req Resp Err (svc : Service W Req Resp Err) closed debug :
    assembled K svc -> (forall m w, K w -> K' (m, w)) ->
    (forall wait m m1 wait1 w, sem_poll wait m = (m1, wait1, false) -> K' (m1, w)) ->
    assembled K' (conc_limit svc closed debug)
| as_hedge W (K : W -> Prop) Req Resp Err (svc : Service W Req Resp Err) rt
    clone_request can_retry mdp quantile getH setH :
    assembled K svc -> timer_wakes K rt -> keeps K rt svc ->
    assembled K (hedge rt svc clone_request can_retry mdp quantile getH setH)
| as_shared W (K : W -> Prop) Req Resp Err (svc : Service W Req Resp Err) Tgt :
    assembled K (shared svc (Tgt := Tgt))
| as_into_service W (K : W -> Prop) Req Resp Err (svc : Service W Req Resp Err) :
    assembled K svc -> assembled K (into_service svc)
| as_constant W (K : W -> Prop) Req Resp Err M' (svc : Service W Req Resp Err) :
    assembled K svc -> assembled K (constant (M' := M') svc)
(* PendingRequests and PeakEwma *)
| as_load W (K : W -> Prop) Req Resp Err C T (svc : Service W Req Resp Err) start (finish : T -> C -> W -> C * W) keep :
    assembled K svc -> assembled (fun x => K (snd x)) (tracked_load svc start finish keep).

(** CallAll's collection of futures in flight, and its stream of requests. *)
Definition stream_wakes {W A} (K : W -> Prop) (S : Stream W A) : Prop :=
  forall t w w1 t1, snext S t w = (w1, Val (t1, Pending)) -> K w1.
(** Some outputs are still to come if the collection is not empty. *)
Definition drive_wakes {W F O} (K : W -> Prop) (Q : Drive W F O) : Prop :=
  (forall q w w1 q1, q_poll Q q w = (w1, Val (q1, Pending)) -> K w1) /\
  (forall q w w1 q1, q_poll Q q w = (w1, Val (q1, Ready None)) -> q_empty Q q1 = true).
