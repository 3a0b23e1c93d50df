(** C40-C45: [Buffer].  The model (Buffer.v) interleaves the handles, the worker and the
    response futures step by step: [ops] is any schedule of their moves.  [buffer_run svc bound s w ops]
    is the state reached and the log of everything observed, newest first.  Specification vocabulary in
    BufferSpec.v. *)
From Verif Require Import Base ContractSpec Demo Limits Buffer BufferSpec BufferTop.
Set Implicit Arguments.

(** Requests reach the wrapped service in the order in which they were accepted, each at most once. *)
Theorem C40_order :
  forall W Req Resp Err (svc : Service W Req Resp Err) bound s w
    (ops : list (bop (W := W) (Req := Req))) y l,
  buffer_run svc bound s w ops = (y, l) ->
  sublist (rev (called l)) (rev (sent l)) /\ NoDup (map fst (sent l)) /\ NoDup (map fst (called l)).
Proof. exact @buffer_order. Qed.
Print Assumptions C40_order.

(** When the worker finishes, every accepted request has been called, or was found abandoned, or was answered with the
    error of the failed service ([served]). *)
Theorem C40_all_served :
  forall W Req Resp Err (svc : Service W Req Resp Err) bound s w
    (ops : list (bop (W := W) (Req := Req))) y l l2 l1,
  buffer_run svc bound s w ops = (y, l) -> l = l2 ++ WDone :: l1 ->
  forall id r, In (id, r) (sent l1) -> served id r l1.
Proof. exact @buffer_done_served. Qed.
Print Assumptions C40_all_served.

(** Every response future gets its own answer: the inner future it polls is the one its own request's call returned, it
    is polled only while pending, and its result, the worker's failure or Closed is passed on ([answer_from]). *)
Theorem C40_own_response :
  forall W Req Resp Err (svc : Service W Req Resp Err) bound s w
    (ops : list (bop (W := W) (Req := Req))) y l l2 e l1 id,
  buffer_run svc bound s w ops = (y, l) -> l = l2 ++ e :: l1 ->
  match e with OInner i _ _ _ | OPolled i _ => i = id | _ => True end -> answer_from id l1 e.
Proof. exact @buffer_answers. Qed.
Print Assumptions C40_own_response.

(** Requests in the channel and handles holding a reserved slot together never exceed the bound. *)
Theorem C41_capacity :
  forall W Req Resp Err (svc : Service W Req Resp Err) bound s w
    (ops : list (bop (W := W) (Req := Req))) y l hs,
  buffer_run svc bound s w ops = (y, l) -> NoDup hs ->
  (forall h, In h hs -> has_slot h l = true) -> length hs + waiting l <= bound.
Proof. exact @buffer_capacity. Qed.
Print Assumptions C41_capacity.

(** Once the worker has finished, no response future waits for the buffer: polled, it is never just Pending without
    having polled the inner future. *)
Theorem C42_done_settled :
  forall W Req Resp Err (svc : Service W Req Resp Err) bound s w
    (ops : list (bop (W := W) (Req := Req))) y l,
  buffer_run svc bound s w ops = (y, l) -> In WDone l ->
  forall id, snd (bstep (BPollF id false) y) <> [OPolled id Pending].
Proof. exact @buffer_done_settled. Qed.
Print Assumptions C42_done_settled.

(** Likewise if the worker was destroyed (runtime shut down, panic of the wrapped service), for every request accepted before. *)
Theorem C42_destroyed_settled :
  forall W Req Resp Err (svc : Service W Req Resp Err) bound s w
    (ops : list (bop (W := W) (Req := Req))) y l id,
  buffer_run svc bound s w ops = (y, l) -> In id (sent_before_gone l) ->
  snd (bstep (BPollF id false) y) <> [OPolled id Pending].
Proof. exact @buffer_gone_settled. Qed.
Print Assumptions C42_destroyed_settled.

(** Running the worker answers everything: from every reachable state, within 8 * (waiting + 2) steps of the worker
    either the wrapped service made it wait (or panicked, or hung), or no response future waits for the buffer any more
    and the worker has finished, or has gone to sleep with some handle alive. *)
Theorem C42_progress :
  forall W Req Resp Err (svc : Service W Req Resp Err) bound s w (ops : list (bop (W := W) (Req := Req))) y l,
  buffer_run svc bound s w ops = (y, l) -> ~ In WGone l -> ~ In WHang l ->
  exists j y1 new, j <= 8 * (waiting l + 2) /\ brun y l (repeat (BWork false) j) = (y1, new ++ l) /\
    ((In (WAsk Pending) new \/ In WPanic new \/ In WHang new) \/
     (forall id, snd (bstep (BPollF id false) y1) <> [OPolled id Pending]) /\
     (In WDone new \/ In WPend new /\ exists h, alive h (new ++ l) = true)).
Proof. exact @buffer_serves. Qed.
Print Assumptions C42_progress.

(** After the wrapped service failed it is never asked or called again; every error given to a handle or a future is the
    error of the failed service, or Closed, and then the worker was destroyed without a failure or the handle
    misused ([error_from]). *)
Theorem C43_failed :
  forall W Req Resp Err (svc : Service W Req Resp Err) bound s w
    (ops : list (bop (W := W) (Req := Req))) y l l2 e l1,
  buffer_run svc bound s w ops = (y, l) -> l = l2 ++ e :: l1 ->
  match e with
  | WAsk _ | WCall _ _ _ | WAnswer _ (Ok _) => forall x, ~ failed_with x l1
  | WAnswer _ (Er x) => failed_with x l1
  | OReady h (Ready (Er x)) => error_from h l1 x
  | ORefused h _ _ x => error_from h l1 x
  | _ => True
  end.
Proof. exact @buffer_failed. Qed.
Print Assumptions C43_failed.

(** As soon as one request has been answered with the failure, every handle at rest - also one holding a slot - is told
    that very error by its next [poll_ready]. *)
Theorem C43_told :
  forall W Req Resp Err (svc : Service W Req Resp Err) bound s w
    (ops : list (bop (W := W) (Req := Req))) y l id e h d c,
  buffer_run svc bound s w ops = (y, l) -> In (WAnswer id (Er e)) l ->
  y_hs y h = Some d -> at_rest d = true ->
  snd (brun y l [BReady h; BStep h c]) = OReady h (Ready (Er (BSvc e))) :: l.
Proof. exact @buffer_told. Qed.
Print Assumptions C43_told.

(** A request is called only after the worker saw its response future alive and the wrapped service said it was ready;
    the worker does nothing else in between, and the future had not been dropped when it looked. *)
Theorem C44_called_alive :
  forall W Req Resp Err (svc : Service W Req Resp Err) bound s w
    (ops : list (bop (W := W) (Req := Req))) y l l2 id r f l1,
  buffer_run svc bound s w ops = (y, l) -> l = l2 ++ WCall id r f :: l1 ->
  exists a b c, l1 = a ++ WAsk (Ready (Ok tt)) :: b ++ WLive id :: c /\
    (forall e, In e (a ++ b) -> by_worker e = false) /\ ~ In (ODropFut id) c.
Proof. exact @buffer_call_live. Qed.
Print Assumptions C44_called_alive.

(** Only requests whose response future was dropped are skipped. *)
Theorem C44_skipped_dropped :
  forall W Req Resp Err (svc : Service W Req Resp Err) bound s w
    (ops : list (bop (W := W) (Req := Req))) y l l2 id l1,
  buffer_run svc bound s w ops = (y, l) -> l = l2 ++ WSkip id :: l1 ->
  In (ODropFut id) l1.
Proof. exact @buffer_skip_dropped. Qed.
Print Assumptions C44_skipped_dropped.

(** The worker finishes only when every accepted request has been taken out, and all handles are dropped or the wrapped
    service failed; nothing is accepted afterwards. *)
Theorem C45_done :
  forall W Req Resp Err (svc : Service W Req Resp Err) bound s w
    (ops : list (bop (W := W) (Req := Req))) y l l2 l1,
  buffer_run svc bound s w ops = (y, l) -> l = l2 ++ WDone :: l1 ->
  (forall id r, In (id, r) (sent l1) -> In id (taken l1)) /\
  ((forall h, alive h l1 = false) \/ exists e, failed_with e l1) /\
  sent l2 = [].
Proof. exact @buffer_done. Qed.
Print Assumptions C45_done.

(** [call] panics only without a slot. *)
Theorem C45_panic_is_misuse :
  forall W Req Resp Err (svc : Service W Req Resp Err) bound s w
    (ops : list (bop (W := W) (Req := Req))) y l l2 h r l1,
  buffer_run svc bound s w ops = (y, l) -> l = l2 ++ OCallPanic h r :: l1 ->
  has_slot h l1 = false.
Proof. exact @buffer_panic_misuse. Qed.
Print Assumptions C45_panic_is_misuse.

(** If the wrapped service does not panic, neither the worker nor any response future does. *)
Theorem C45_no_panic :
  forall W Req Resp Err (svc : Service W Req Resp Err) bound s w
    (ops : list (bop (W := W) (Req := Req))) y l,
  buffer_run svc bound s w ops = (y, l) ->
  (forall s w, snd (poll_ready svc s w) <> Panic) -> (forall s r w, snd (call svc s r w) <> Panic) ->
  (forall f w, snd (poll_fut svc f w) <> Panic) ->
  ~ In WPanic l /\ forall id, ~ In (OPollPanic id) l.
Proof. exact @buffer_no_panic. Qed.
Print Assumptions C45_no_panic.

(** What does not hold of C42: a handle that got its slot before the worker was destroyed can still send, and that
    request is never answered, however often its future is polled, as long as a handle lives. *)
Theorem C42_sent_after_destroyed_refuted :
  forall n, exists y l,
  buffer_run demo 1 5 scr0 ([BReady 0; BStep 0 false; BKill; BCall 0 33] ++ repeat (BPollF 0 false) n) = (y, l) /\
  l = repeat (OPolled 0 Pending) n ++ [OSent 0 0 33; WGone; OReady 0 (Ready (Ok tt))] /\ alive 0 l = true.
Proof. exact buffer_forgets. Qed.
Print Assumptions C42_sent_after_destroyed_refuted.

(** Non-vacuity: two handles, three requests, one abandoned; the second time it is asked the service makes the worker
    wait; all answered; the handles go; the worker finishes. *)
Definition demo_ops : list (bop (W := scr) (Req := nat)) :=
  [ BEnv (fun _ => Scr 0 [Ready (Ok tt); Pending; Ready (Ok tt)] []%list);
    BClone 0; BReady 0; BReady 1; BStep 1 false; BStep 0 false; BCall 0 33; BWork false; BCall 1 34; BReady 0; BStep 0 false;
    BWork false; BWork false; BWork false; BWork false; BWork false; BWork false;
    BStep 0 false; BReady 0; BStep 0 false; BCall 0 35; BDropF 1; BPollF 0 false ]
  ++ repeat (BWork false) 9 ++ [BDrop 0; BDrop 1] ++ repeat (BWork false) 7 ++ [BPollF 2 false].
Definition demo_log := snd (buffer_run demo 2 5 scr0 demo_ops).
Example C40_example :
  (demo_log : list (bobs demo)) =
  [OPolled 2 (Ready (Ok 35)); OInner (svc := demo) 2 35 (Ready (Ok 35)) 35; WDone; WStart; WDone; WStart; WDone; WStart; WDone;
   WAnswer (svc := demo) 2 (Ok 35); WCall (svc := demo) 2 35 35; ODropped 1; ODropped 0; WAsk (Ready (Ok tt)); WLive 2; WStart; WPend;
   WAsk Pending; WLive 2; WTook 2; WSkip 1; WTook 1; OPolled 0 (Ready (Ok 33)); OInner (svc := demo) 0 33 (Ready (Ok 33)) 33;
   ODropFut 1; OSent 0 2 35; OReady 0 (Ready (Ok tt)); WAnswer (svc := demo) 0 (Ok 33); WCall (svc := demo) 0 33 33; WAsk (Ready (Ok tt));
   WLive 0; WTook 0; OReady 0 Pending; OSent 1 1 34; WStart; OSent 0 0 33; OReady 0 (Ready (Ok tt));
   OReady 1 (Ready (Ok tt)); OCloned 0 1].
Proof. vm_compute. reflexivity. Qed.
Example C40_example_sent : rev (sent demo_log) = [(0, 33); (1, 34); (2, 35)] /\ rev (called demo_log) = [(0, 33); (2, 35)].
Proof. vm_compute. auto. Qed.

(** Failure: the service fails on the first request; the request, the one queued behind it and the other handle all get
    the error. *)
Definition fail_ops : list (bop (W := scr) (Req := nat)) :=
  [ BEnv (fun _ => Scr 0 [Ready (Er 9)] []%list);
    BClone 0; BReady 0; BStep 0 false; BCall 0 33; BReady 0; BStep 0 false; BCall 0 34 ]
  ++ repeat (BWork false) 12 ++ [BPollF 0 false; BPollF 1 false; BReady 1; BStep 1 false].
Definition fail_log := snd (buffer_run demo 2 5 scr0 fail_ops).
Example C43_example :
  (fail_log : list (bobs demo)) =
  [OReady 1 (Ready (Er (BSvc 9))); OPolled 1 (Ready (Er (BSvc 9))); OPolled 0 (Ready (Er (BSvc 9))); WAnswer 1 (Er 9);
   WLive 1; WTook 1; WAnswer 0 (Er 9); WAsk (Ready (Er 9)); WLive 0; WTook 0; WStart; OSent 0 1 34;
   OReady 0 (Ready (Ok tt)); OSent 0 0 33; OReady 0 (Ready (Ok tt)); OCloned 0 1].
Proof. vm_compute. reflexivity. Qed.
