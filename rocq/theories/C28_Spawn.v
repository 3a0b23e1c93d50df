(** C28: SpawnReady.  Specification in SpawnSpec.v: a history is a list of what
    happens to a SpawnReady (its owner polls or calls it, the runtime polls or
    cancels the background task), ending with its drop; [sr_log] is everything the
    wrapped service saw and everything the owner was told, oldest first.  Besides
    the [OBg] steps, [bg] says how often other threads poll the task while the
    owner is inside [poll_ready]. *)
From Verif Require Import Base Track ContractSpec DriveSpec SpawnReady SpawnSpec SpawnProof SpawnLive SpawnRefute TranspMore Demo.
Set Implicit Arguments.

(** Every event of every history is justified by what came before: SpawnReady says ready only when the last thing
    that happened to the wrapped service is that it said ready; it says pending only when the service has just said
    so; errors are the service's own, or a [JoinError] when the service has been lost with its task; the service is
    called only right after it said ready, with the owner's request, and the owner is given that very future; it is
    never used after it has been dropped, never cloned, and dropped at most once - exactly once, by the time
    SpawnReady has been dropped, unless something panicked (or a poll never returned). *)
Theorem C28_log_ok W Req Resp Err (svc : Service W Req Resp Err) (bg : W -> W * nat) fuel (s : st svc) w ops :
  let l := sr_log svc bg fuel s w ops in
  (forall l1 e l2, l = l1 ++ e :: l2 -> event_ok l1 e) /\
  (~ In SPanic l -> ~ In SDiverge l -> drops l = 1).
Proof. exact (@spawn_log_ok _ _ _ _ svc bg fuel s w ops). Qed.
Print Assumptions C28_log_ok.

(** Over a service that does not panic when used according to its contract ([guard] panics on any other use),
    SpawnReady never panics, and it answers with a [JoinError] only if the runtime cancelled the task. *)
Theorem C28_no_panic W Req Resp Err (svc : Service W Req Resp Err) (bg : W -> W * nat) fuel (s : st (guard svc)) w ops :
  never_panics svc -> never_diverges svc -> fst s <> Dead ->
  let l := sr_log (guard svc) bg fuel s w ops in
  ~ In SPanic l /\ (In (SAns (Ready (Er SrJoin))) l -> In SCancel l).
Proof. exact (@spawn_no_panic _ _ _ _ svc bg fuel s w ops). Qed.
Print Assumptions C28_no_panic.

(** If moreover a service that said ready does not say pending before it is called, every poll returns, after at
    most three turns of the loop. *)
Theorem C28_poll_returns W Req Resp Err (svc : Service W Req Resp Err) (bg : W -> W * nat) fuel (s : st (guard svc)) w ops :
  never_panics svc -> never_diverges svc -> keeps_ready svc -> fst s <> Dead -> 3 <= fuel ->
  ~ In SDiverge (sr_log (guard svc) bg fuel s w ops).
Proof. exact (@spawn_returns _ _ _ _ svc bg fuel s w ops). Qed.
Print Assumptions C28_poll_returns.

(** The response future is the service's: polled and answering in the same polls, its error wrapped and nothing else,
    dropped when it is done. *)
Theorem C28_response_future W Req Resp Err (svc : Service W Req Resp Err) (bg : W -> W * nat) fuel f w gs :
  drive (poll_fut (spawn_ready svc bg fuel)) (Some f) w gs =
  fin_then Some (fun f1 r => modify (drop_fut svc f1) ;;; ret (None, map_er SrInner r)) (drive (poll_fut svc) f w gs).
Proof. exact (spawn_response svc bg fuel f w gs). Qed.
Print Assumptions C28_response_future.

(** Demo. *)
Notation sid := (fun w : scr => w).
Definition no_bg (w : scr) : scr * nat := (w, 0).
Definition bg1 (w : scr) : scr * nat := (w, 1).
(** Pending; ready in the background; taken back (asked once more); called; then pending again and dropped. *)
Example C28_example :
  sr_log (guard demo) no_bg 3 (Idle, 5) (Scr 0 [Pending; Ready (Ok tt); Ready (Ok tt); Pending] [])
    [(sid, OReady); (sid, OBg); (sid, OReady); (sid, OCall 8); (sid, OReady)] =
  [SSvc (TReady 0 Pending); SAns Pending; SSvc (TReady 0 (Ready (Ok tt))); SSvc (TReady 0 (Ready (Ok tt)));
   SAns (Ready (Ok tt)); SIn 8; SSvc (TCall 0 8 1); SOut 8 1; SSvc (TReady 0 Pending); SAns Pending; SSvc (TDropSvc 0)].
Proof. vm_compute. reflexivity. Qed.
Example C28_example_response :
  drive (poll_fut (spawn_ready demo no_bg 3)) (Some 7) (Scr 0 [] [Pending; Ready (Er 1)]) [sid; sid; sid]
  = ([Scr 0 [] [Ready (Er 1)]], Finished None scr0 (Er (SrInner 1))).
Proof. reflexivity. Qed.
(** The task fails in the background; and it is cancelled. *)
Example C28_example_error :
  sr_log (guard demo) bg1 3 (Idle, 5) (Scr 0 [Pending; Pending; Ready (Er 4)] []) [(sid, OReady); (sid, OReady); (sid, OCall 8)] =
  [SSvc (TReady 0 Pending); SSvc (TReady 0 Pending); SAns Pending; SSvc (TReady 0 (Ready (Er 4))); SSvc (TDropSvc 0);
   SAns (Ready (Er (SrInner 4)))].
Proof. vm_compute. reflexivity. Qed.
Example C28_example_cancel :
  sr_log (guard demo) no_bg 3 (Idle, 5) (Scr 0 [Pending] []) [(sid, OReady); (sid, OCancel); (sid, OReady)] =
  [SSvc (TReady 0 Pending); SAns Pending; SCancel; SSvc (TDropSvc 0); SAns (Ready (Er SrJoin))].
Proof. vm_compute. reflexivity. Qed.
(** The hypotheses are met by these services. *)
Example C28_hyps : never_panics demo /\ never_diverges demo /\ keeps_ready warm /\ never_panics warm /\ never_diverges warm.
Proof.
  exact (conj demo_never_panics (conj demo_never_diverges (conj warm_keeps_ready (conj warm_never_panics warm_never_diverges)))).
Qed.

(** Without that hypothesis a poll may go on forever: a service that says pending to its owner and ready to the
    task (SpawnRefute.v) keeps SpawnReady handing it back and forth. *)
Theorem C28_poll_returns_refuted :
  ~ (forall W Req Resp Err (svc : Service W Req Resp Err) (bg : W -> W * nat) (s : st (guard svc)) w ops,
     never_panics svc -> never_diverges svc -> fst s <> Dead ->
     exists fuel, ~ In SDiverge (sr_log (guard svc) bg fuel s w ops)).
Proof. exact spawn_may_hang. Qed.
Print Assumptions C28_poll_returns_refuted.
