(** C88: SpawnReady loses no wake-up.  Specification in SpawnWakeSpec.v: [shistory], a history of a SpawnReady, its
    owner, the runtime with its background task, and wakers that fire at any time (also while the service is being used:
    [rings], and right before the owner looks at its JoinHandle: [gap]).  [ws_woken]: the owner has been woken since it last
    began to poll.  [waiting]: RingSpec.v. *)
From Verif Require Import Base WakeCache RingSpec SpawnReady WakeSpawn RefineSpec SpawnWakeSpec SpawnWakeProof SpawnWakeRefine Demo.
Set Implicit Arguments.

(** Once [poll_ready] has answered [Pending], until the owner polls or calls again: the owner has been woken, or the
    background task has the service and is in the run queue, or the service waits with that task's waker. *)
Theorem C88_pending :
  forall W Req Resp Err (svc : Service W Req Resp Err) rings gap coop fuel s w0 l i ci wi n b c w,
  nth_error (shistory svc rings gap coop fuel s w0 l) i = Some (SPolled Pending, ci, wi) -> i <= n ->
  (forall j o, i < j <= n -> nth_error l j = Some o -> match o with SPoll | SCall _ => False | _ => True end) ->
  nth_error (shistory svc rings gap coop fuel s w0 l) n = Some (b, c, w) ->
  ws_woken c = true \/ exists t q, at_work c = Some (t, q) /\ (q = true \/ service_waits c t).
Proof. exact @spawn_pending. Qed.
Print Assumptions C88_pending.

(** In the last two cases: when the service is ready from now on and its waker fires, the runtime's next look at the task
    wakes the owner, whose next [poll_ready] answers [Ready(Ok)]. *)
Theorem C88_comes :
  forall W Req Resp Err (svc : Service W Req Resp Err) rings gap coop fuel (up : W -> Prop) s w0 l i ci wi n b c w t q,
  (forall s w, up w -> exists w1 s1, poll_ready svc s w = (w1, Val (s1, Ready (Ok tt))) /\ up w1) ->
  (forall w, up w -> up (fst (gap w)) /\ coop (fst (gap w)) = false) ->
  nth_error (shistory svc rings gap coop (S (S fuel)) s w0 l) i = Some (SPolled Pending, ci, wi) -> i <= n ->
  (forall j o, i < j <= n -> nth_error l j = Some o -> match o with SPoll | SCall _ => False | _ => True end) ->
  nth_error (shistory svc rings gap coop (S (S fuel)) s w0 l) n = Some (b, c, w) ->
  ws_woken c = false -> at_work c = Some (t, q) -> up w ->
  exists c1 w1 c2 w2,
    sstep rings gap coop (S (S fuel)) SRun (sring (WkChild t) c, w) = Some (SMoved, c1, w1) /\ ws_woken c1 = true /\
    sstep rings gap coop (S (S fuel)) SPoll (c1, w1) = Some (SPolled (Ready (Ok tt)), c2, w2).
Proof. exact @spawn_comes. Qed.
Print Assumptions C88_comes.

(** No busy loop, no need to ask: an owner that was told [Pending] and has not been woken is told [Pending] again if it
    asks, the service is not asked and nothing changes; a task that is not in the run queue does nothing. *)
Theorem C88_again :
  forall W Req Resp Err (svc : Service W Req Resp Err) rings gap coop fuel s w0 l i ci wi n b c w,
  nth_error (shistory svc rings gap coop (S fuel) s w0 l) i = Some (SPolled Pending, ci, wi) -> i <= n ->
  (forall j o, i < j <= n -> nth_error l j = Some o -> match o with SPoll | SCall _ => False | _ => True end) ->
  nth_error (shistory svc rings gap coop (S fuel) s w0 l) n = Some (b, c, w) ->
  ws_woken c = false -> gap w = (w, []) -> coop w = false ->
  sstep rings gap coop (S fuel) SPoll (c, w) = Some (SPolled Pending, c, w).
Proof. exact @spawn_again. Qed.
Print Assumptions C88_again.
Theorem C88_idle :
  forall W Req Resp Err (svc : Service W Req Resp Err) rings gap coop fuel (c : wspawn svc) w t,
  at_work c = Some (t, false) -> sstep rings gap coop fuel SRun (c, w) = Some (SMoved, c, w).
Proof. exact @spawn_idle. Qed.
Print Assumptions C88_idle.

(** Every history with wakers is, operation by operation and answer by answer, a history of SpawnReady.v (the one of C28,
    C66, C69) with the wakers forgotten, for some numbers of background polls: the tape [tp]. *)
Theorem C88_refines :
  forall W Req Resp Err (svc : Service W Req Resp Err) rings gap coop fuel s w0 l,
  (forall w, coop w = false) ->
  exists tp, forall n b c w, nth_error (shistory svc rings gap coop fuel s w0 l) n = Some (b, c, w) ->
    exists rest, nth_error (frun (svc := svc) gap fuel (spawn_ready_new (taped svc) s, (w0, tp)) l) n = Some (b, forget_spawn c, (w, rest)).
Proof. exact @spawn_refines. Qed.
Print Assumptions C88_refines.

(** Non-vacuity.  The service answers [Pending] twice: to the owner, and to the task when the runtime first polls it;
    then its waker fires. *)
Definition ops88 : list (sop (W := scr) (Req := nat)) :=
  [SPoll; SRun; SRun; SRing (WkChild 0); SPoll; SRun; SPoll; SCall 5].
Definition hist88 := shistory warm (fun _ => []) (fun w => (w, [])) (fun _ => false) 3 2 scr0 ops88.
Definition seen88 (x : sobs (Err := nat) * wspawn warm * scr) :=
  let '(b, c, _) := x in (b, ws_woken c, at_work c, length (ws_log c)).
Example C88_example :
  map seen88 hist88 =
  [(SPolled Pending, false, Some (0, true), 1);        (* handed over *)
   (SMoved, false, Some (0, false), 2);                (* the task polls it: it waits *)
   (SMoved, false, Some (0, false), 2);                (* nothing to do *)
   (SMoved, false, Some (0, true), 3);                 (* its waker fires *)
   (SPolled Pending, false, Some (0, true), 3);        (* the owner asks without having been woken *)
   (SMoved, true, None, 4);                            (* ready: the owner is woken *)
   (SPolled (Ready (Ok tt)), false, None, 5);
   (SCalled, false, None, 5)].
Proof. reflexivity. Qed.
Example C88_example_waits : match nth_error hist88 2 with Some (_, c, _) => service_waits c 0 | None => False end.
Proof. cbn. auto. Qed.
(** The runtime gets round to the task, which is ready, before the owner looks at its JoinHandle. *)
Example C88_example_race :
  map seen88 (shistory warm (fun _ => []) (fun w => (w, [GRun; GRing WkTask])) (fun _ => false) 3 1 scr0 [SPoll])
  = [(SPolled (Ready (Ok tt)), true, None, 4)].
Proof. reflexivity. Qed.
(** A service that is ready once the clock shows 1. *)
Definition late : Service scr nat nat nat :=
  MkService nat nat (fun s w => (w, Val (s, if (1 <=? clock w)%Z then Ready (Ok tt) else Pending))) (fun s r => ret (s, r))
    (poll_fut demo) (fun s => ret s) (fun _ w => w) (fun _ w => w).
Example C88_example_comes :
  (forall (s : nat) (w : scr), (1 <= clock w)%Z -> exists w1 s1, poll_ready late s w = (w1, Val (s1, Ready (Ok tt))) /\ (1 <= clock w1)%Z) /\
  match shistory late (fun _ => []) (fun w => (w, [])) (fun _ => false) 3 7 scr0 [SPoll; SRun; SEnv (tick 1)] with
  | [(SPolled Pending, _, _); (SMoved, _, _); (SMoved, c, w)] =>
      ws_woken c = false /\ at_work c = Some (0, false) /\ service_waits c 0 /\ clock w = 1%Z
  | _ => False
  end.
Proof.
  split.
  - intros s w H. exists w, s. cbn. apply Z.leb_le in H. rewrite H. split; [reflexivity | apply Z.leb_le, H].
  - cbn. auto.
Qed.
