(** C46-C49: ReadyCache.  Specification in CacheSpec.v: [slots] says, for every
    key, which service (by number) is in the ready set and which one is pending;
    a history of the operations produces events (readiness polls, calls, drops of
    the numbered services), newest first in the log. *)
From Verif Require Import Base Track ContractSpec ReadyCache CacheSpec CacheTop CacheDirect Demo.
Set Implicit Arguments.

(** For all services, histories and completion orders: every operation of the cache does to the slots exactly
    what [cache_op_ok] says, with exactly those events, and the accessors show the slots.  In particular
    [poll_pending] ([pp_answer]) answers [Ready(Ok)] only if nothing is left pending, [Pending] only if something
    is, and an error only after removing and dropping the service that failed, leaving all others alone. *)
Theorem C49_cache_history :
  forall W K Req Resp Err (keq : forall a b : K, {a = b} + {a <> b}) (svc : Service W Req Resp Err) (sched : nat -> W -> W * list nat) (ops : list ((W -> W) * cache_op (K := K) svc)) x,
  cache_history keq (fun _ _ => True) True slots0 x (cache_run keq sched (cache_new (tsvc svc)) x ops).
Proof. exact @cache_runs_to_spec. Qed.
Print Assumptions C49_cache_history.

(** The only panic, if the services do not panic while used according to the contract of [Service] ([guard]
    panics on any other use): [call_ready] on a key that is not in the ready set, or on an index out of range.
    No operation hangs. *)
Theorem C46_cache_panics :
  forall W K Req Resp Err (keq : forall a b : K, {a = b} + {a <> b}) (svc : Service W Req Resp Err) (sched : nat -> W -> W * list nat) (ops : list ((W -> W) * cache_op (K := K) (guard svc))) x,
  never_panics svc -> never_diverges svc ->
  (forall g k s, In (g, OPush k s) ops -> fst s = Idle) ->
  cache_history keq
    (fun a q => match q with
                | Some (Some k) => in_ready a k = None
                | Some None => True
                | None => False
                end) False slots0 x (cache_run keq sched (cache_new (tsvc (guard svc))) x ops).
Proof. exact @cache_panics. Qed.
Print Assumptions C46_cache_panics.

(** A pushed service is dropped at most once, and not touched after that. *)
Theorem C46_dropped_once :
  forall W K Req Resp Err (keq : forall a b : K, {a = b} + {a <> b}) (svc : Service W Req Resp Err) (sched : nat -> W -> W * list nat) (ops : list ((W -> W) * cache_op (K := K) svc)) n w k i,
  completed (cache_run keq sched (cache_new (tsvc svc)) (w, Tk n []) ops) -> In (BPushed k i) (obs_of (cache_run keq sched (cache_new (tsvc svc)) (w, Tk n []) ops)) ->
  times_dropped i (log_of (end_of (w, Tk n []) (cache_run keq sched (cache_new (tsvc svc)) (w, Tk n []) ops))) <= 1 /\
  forall l2 l1, log_of (end_of (w, Tk n []) (cache_run keq sched (cache_new (tsvc svc)) (w, Tk n []) ops)) = l2 ++ TDropSvc i :: l1 ->
    forall e, In e l2 -> dropped_or_used i e = false.
Proof. exact @dropped_once. Qed.
Print Assumptions C46_dropped_once.

(** No service is lost: it is in a slot, or waits to be dropped, or has been dropped once. *)
Theorem C46_nothing_lost :
  forall W K Req Resp Err (keq : forall a b : K, {a = b} + {a <> b}) (svc : Service W Req Resp Err) (sched : nat -> W -> W * list nat) (ops : list ((W -> W) * cache_op (K := K) svc)) n w h x b x1 c,
  cache_run keq sched (cache_new (tsvc svc)) (w, Tk n []) ops = h ++ [(x, b, x1, Some c)] -> completed (cache_run keq sched (cache_new (tsvc svc)) (w, Tk n []) ops) ->
  exists a, shows keq c a /\
    forall k i, In (BPushed k i) (obs_of (cache_run keq sched (cache_new (tsvc svc)) (w, Tk n []) ops)) ->
      in_ready a k = Some i \/ in_pend a k = Some i \/ In i (doomed a) \/ times_dropped i (log_of x1) = 1.
Proof. exact @nothing_lost. Qed.
Print Assumptions C46_nothing_lost.

(** After [evict(k)] no service pushed for [k] before is asked for readiness or called. *)
Theorem C47_evicted_never_used :
  forall W K Req Resp Err (keq : forall a b : K, {a = b} + {a <> b}) (svc : Service W Req Resp Err) (sched : nat -> W -> W * list nat) (ops : list ((W -> W) * cache_op (K := K) svc)) n w h1 x k hit x1 c1 h2 i l,
  cache_run keq sched (cache_new (tsvc svc)) (w, Tk n []) ops = h1 ++ (x, BEvicted k hit, x1, c1) :: h2 ->
  completed (h1 ++ (x, BEvicted k hit, x1, c1) :: h2) ->
  In (BPushed k i) (obs_of h1) ->
  log_of (end_of x1 h2) = l ++ log_of x1 ->
  forall e, In e l -> uses i e = false.
Proof. exact @evicted_never_used. Qed.
Print Assumptions C47_evicted_never_used.

(** Pushing a new service for [k]: an older one that is not in the ready set is never used again. *)
Theorem C47_replaced_pending_never_used :
  forall W K Req Resp Err (keq : forall a b : K, {a = b} + {a <> b}) (svc : Service W Req Resp Err) (sched : nat -> W -> W * list nat) (ops : list ((W -> W) * cache_op (K := K) svc)) n w h1 x k i' x1 c1 h2 i l,
  cache_run keq sched (cache_new (tsvc svc)) (w, Tk n []) ops = h1 ++ (x, BPushed k i', x1, Some c1) :: h2 ->
  completed (h1 ++ (x, BPushed k i', x1, Some c1) :: h2) ->
  In (BPushed k i) (obs_of h1) ->
  (forall m s, get_ready keq c1 k <> Some (m, (i, s))) ->
  log_of (end_of x1 h2) = l ++ log_of x1 ->
  forall e, In e l -> uses i e = false.
Proof. exact @replaced_pending_never_used. Qed.
Print Assumptions C47_replaced_pending_never_used.

(** Once the newer service has become ready, an older one for the same key is never used again. *)
Theorem C47_replaced_never_used :
  forall W K Req Resp Err (keq : forall a b : K, {a = b} + {a <> b}) (svc : Service W Req Resp Err) (sched : nat -> W -> W * list nat) (ops : list ((W -> W) * cache_op (K := K) svc)) n w l2 k i i' l1,
  completed (cache_run keq sched (cache_new (tsvc svc)) (w, Tk n []) ops) ->
  In (BPushed k i) (obs_of (cache_run keq sched (cache_new (tsvc svc)) (w, Tk n []) ops)) -> In (BPushed k i') (obs_of (cache_run keq sched (cache_new (tsvc svc)) (w, Tk n []) ops)) -> i < i' ->
  log_of (end_of (w, Tk n []) (cache_run keq sched (cache_new (tsvc svc)) (w, Tk n []) ops)) = l2 ++ TReady i' (Ready (Ok tt)) :: l1 ->
  forall e, In e l2 -> uses i e = false.
Proof. exact @replaced_never_used. Qed.
Print Assumptions C47_replaced_never_used.

(** While the newer service is not ready yet, an older one may still be called, but then it is done: it is not used
    again - unless a newer one failed to become ready. *)
Theorem C47_superseded_called_once :
  forall W K Req Resp Err (keq : forall a b : K, {a = b} + {a <> b}) (svc : Service W Req Resp Err) (sched : nat -> W -> W * list nat) (ops : list ((W -> W) * cache_op (K := K) svc)) n w h1 h2 k i i' l2 r j l1,
  cache_run keq sched (cache_new (tsvc svc)) (w, Tk n []) ops = h1 ++ h2 -> completed (h1 ++ h2) ->
  In (BPushed k i) (obs_of h1) -> In (BPushed k i') (obs_of h1) -> i < i' ->
  log_of (end_of (w, Tk n []) (h1 ++ h2)) = l2 ++ TCall i r j :: l1 ++ log_of (end_of (w, Tk n []) h1) ->
  (forall e, In e l2 -> uses i e = false) \/
  exists q e, i < q /\ In (BPushed k q) (obs_of (h1 ++ h2)) /\
    In (TReady q (Ready (Er e))) (l1 ++ log_of (end_of (w, Tk n []) h1)).
Proof. exact @superseded_called_once. Qed.
Print Assumptions C47_superseded_called_once.

(** A service is called only after its readiness was established, and not asked or called since. *)
Theorem C48_called_when_ready :
  forall W K Req Resp Err (keq : forall a b : K, {a = b} + {a <> b}) (svc : Service W Req Resp Err) (sched : nat -> W -> W * list nat) (ops : list ((W -> W) * cache_op (K := K) svc)) n w l2 i r j l1,
  completed (cache_run keq sched (cache_new (tsvc svc)) (w, Tk n []) ops) ->
  log_of (end_of (w, Tk n []) (cache_run keq sched (cache_new (tsvc svc)) (w, Tk n []) ops)) = l2 ++ TCall i r j :: l1 ->
  ready_now i l1 = true.
Proof. exact @called_when_ready. Qed.
Print Assumptions C48_called_when_ready.

(** No key is in the ready set twice. *)
Theorem C48_keys_distinct :
  forall W K Req Resp Err (keq : forall a b : K, {a = b} + {a <> b}) (svc : Service W Req Resp Err) (sched : nat -> W -> W * list nat) (ops : list ((W -> W) * cache_op (K := K) svc)) n w x b x1 c i j k s s',
  In (x, b, x1, Some c) (cache_run keq sched (cache_new (tsvc svc)) (w, Tk n []) ops) ->
  get_ready_index c i = Some (k, s) -> get_ready_index c j = Some (k, s') -> i = j.
Proof. exact @keys_distinct. Qed.
Print Assumptions C48_keys_distinct.

(** [poll_pending] in terms of the accessors: [Ready(Ok)] if nothing is pending now, [Pending] if something is, and
    an error if a service has just failed with it and was dropped; its key is then not pending. *)
Theorem C49_poll_pending_answer :
  forall W K Req Resp Err (keq : forall a b : K, {a = b} + {a <> b}) (svc : Service W Req Resp Err) (sched : nat -> W -> W * list nat) (ops : list ((W -> W) * cache_op (K := K) svc)) n w x p x1 c,
  In (x, BPolled p, x1, Some c) (cache_run keq sched (cache_new (tsvc svc)) (w, Tk n []) ops) ->
  match p with
  | Ready (Ok _) => pending_len c = 0
  | Pending => 0 < pending_len c
  | Ready (Er (k, e)) => pending_contains keq c k = false /\
      exists i l, log_of x1 = TDropSvc i :: TReady i (Ready (Er e)) :: l
  end.
Proof. exact @polled_answer. Qed.
Print Assumptions C49_poll_pending_answer.

(** Non-vacuity. *)
Definition demo_ops : list ((scr -> scr) * cache_op (K := nat) demo) :=
  let id := fun w : scr => w in
  [ (fun w => Scr 0 [Pending; Ready (Ok tt); Ready (Ok tt)] []%list, OPush (svc := demo) 7 5);
    (id, OPush (svc := demo) 8 6); (id, OPoll);                  (* 7 waits, 8 gets ready *)
    (id, OCheckAt 0); (id, OPush (svc := demo) 8 9);             (* 8 is replaced *)
    (id, OCallAt 0 33);                            (* the old one is called once more *)
    (id, OPoll); (id, OEvict 7); (id, OCheck 8); (id, OCall 8 34) ].
Definition demo_sched (n : nat) (w : scr) : scr * list nat := (w, seq 0 n).
Definition demo_run := cache_run Nat.eq_dec demo_sched (cache_new (tsvc demo)) (scr0, Tk 0 []) demo_ops.
Example C46_example :
  obs_of demo_run =
  [BPushed 7 0; BPushed 8 1; BPolled (Ready (Ok tt)); BChecked (Some 8) (Ok true); BPushed 8 2; BCalled (Some 8) 33 3;
   BPolled (Ready (Ok tt)); BEvicted 7 true; BChecked (Some 8) (Ok true); BCalled (Some 8) 34 4].
Proof. vm_compute. reflexivity. Qed.
Example C46_example_log :
  log_of (end_of (scr0, Tk 0 []) demo_run) =
  [TCall 2 34 4; TReady 2 (Ready (Ok tt)); TDropSvc 0; TReady 2 (Ready (Ok tt)); TDropSvc 1; TCall 1 33 3;
   TReady 1 (Ready (Ok tt)); TReady 0 (Ready (Ok tt)); TReady 1 (Ready (Ok tt)); TReady 0 Pending].
Proof. vm_compute. reflexivity. Qed.
