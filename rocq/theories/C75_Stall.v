(** C75: no wake-up is lost inside a [Buffer]: whoever sleeps and has not been woken would only be told [Pending] again.
    Model: Buffer.v, any schedule; wakers: StallSpec.v ([arun] is [buffer_run] with wakers beside it). *)
From Verif Require Import Base ContractSpec Demo Limits Buffer BufferSpec BufferTop RoomSpec StallSpec StallProof.
Set Implicit Arguments.

(** The wakers only watch: the program behaves as without them (C40-C45, C72, C73 speak of it too). *)
Theorem C75_watches :
  forall W Req Resp Err (svc : Service W Req Resp Err) bound s w (ops : list (aop (W := W) (Req := Req))),
  buffer_run svc bound s w (moves ops) = (a_y (arun svc bound s w ops), a_l (arun svc bound s w ops)).
Proof. exact @arun_moves. Qed.
Print Assumptions C75_watches.

(** A handle that was told [Pending] and has not been woken since would be told [Pending] again. *)
Theorem C75_handle :
  forall W Req Resp Err (svc : Service W Req Resp Err) bound s w (ops : list (aop (W := W) (Req := Req))) x h d,
  arun svc bound s w ops = x -> (forall j r, ~ In (OCallPanic j r) (a_l x)) ->
  y_hs (a_y x) h = Some d -> at_rest d = true -> since h (a_l x) <> None -> k_handle (a_k x) h = false ->
  snd (brun (a_y x) (a_l x) [BReady h; BStep h false]) = OReady h Pending :: a_l x.
Proof. exact @handle_sleeps. Qed.
Print Assumptions C75_handle.

(** A response future that was polled, answered [Pending] and has not been woken since: the wrapped service's own future
    has the waker, or another poll would be answered [Pending] again. *)
Theorem C75_future :
  forall W Req Resp Err (svc : Service W Req Resp Err) bound s w (ops : list (aop (W := W) (Req := Req))) x id,
  arun svc bound s w ops = x -> fut_waits id (a_l x) = true -> k_fut (a_k x) id = false ->
  k_in (a_k x) id = true \/ snd (bstep (BPollF id false) (a_y x)) = [OPolled id Pending].
Proof. exact @future_sleeps. Qed.
Print Assumptions C75_future.

(** A worker that sleeps and has not been woken: the wrapped service said [Pending] and has its waker, or everything
    that was ever sent has been served, and there is a handle to send more. *)
Theorem C75_worker :
  forall W Req Resp Err (svc : Service W Req Resp Err) bound s w (ops : list (aop (W := W) (Req := Req))) x,
  arun svc bound s w ops = x -> worker_sleeps (a_l x) -> k_worker (a_k x) = false ->
  (k_svc (a_k x) = true /\ exists rest, List.filter (@by_worker _ _ _ _ svc) (a_l x) = WPend :: WAsk Pending :: rest) \/
  ((forall id r, In (id, r) (sent (a_l x)) -> served id r (a_l x)) /\ exists h, alive h (a_l x) = true).
Proof. exact @worker_sleeping. Qed.
Print Assumptions C75_worker.

(** Everybody sleeps, nobody has been woken, and the worker was not told [Pending] by the wrapped service: then every
    response future that waits, waits for the wrapped service's own future ... *)
Theorem C75_no_stall :
  forall W Req Resp Err (svc : Service W Req Resp Err) bound s w (ops : list (aop (W := W) (Req := Req))) x,
  arun svc bound s w ops = x -> worker_sleeps (a_l x) ->
  (forall rest, List.filter (@by_worker _ _ _ _ svc) (a_l x) <> WPend :: WAsk Pending :: rest) ->
  k_worker (a_k x) = false -> (forall id, fut_waits id (a_l x) = true -> k_fut (a_k x) id = false) ->
  forall id, fut_waits id (a_l x) = true -> k_in (a_k x) id = true.
Proof. exact @nobody_stalls. Qed.
Print Assumptions C75_no_stall.

(** ... and a handle waits only because other handles ([hs]) hold all the slots without using them. *)
Theorem C75_no_stall_handles :
  forall W Req Resp Err (svc : Service W Req Resp Err) bound s w (ops : list (aop (W := W) (Req := Req))) x h hs,
  arun svc bound s w ops = x -> intact (a_l x) -> worker_sleeps (a_l x) ->
  (forall rest, List.filter (@by_worker _ _ _ _ svc) (a_l x) <> WPend :: WAsk Pending :: rest) ->
  k_worker (a_k x) = false ->
  (forall j d, y_hs (a_y x) j = Some d -> at_rest d = true) -> (forall j, since j (a_l x) <> None -> k_handle (a_k x) j = false) ->
  (forall j, has_slot j (a_l x) = true -> In j hs) -> since h (a_l x) <> None -> bound <= length hs.
Proof. exact @slots_taken. Qed.
Print Assumptions C75_no_stall_handles.

(** Non-vacuity, bound 1, two handles.  Handle 0 sends, its future is polled; handle 1 waits in line; the worker takes the
    request - handle 1 is woken -, calls the service - future 0 is woken - and sleeps. *)
Definition stall_do (ops : list (bop (W := scr) (Req := nat))) : list (aop (W := scr) (Req := nat)) := map ADo ops.
Definition stall_ops : list (aop (W := scr) (Req := nat)) :=
  stall_do [BClone 0; BReady 0; BStep 0 false; BCall 0 33; BPollF 0 false; BReady 1; BStep 1 false].
Definition stall_a := arun demo 1 5 scr0 stall_ops.
Definition stall_b := arun demo 1 5 scr0 (stall_ops ++ stall_do (repeat (BWork false) 3)).
Definition stall_c := arun demo 1 5 scr0 (stall_ops ++ stall_do (repeat (BWork false) 9)).
(** ... then the future is polled, and the inner future says [Pending]; handle 1 takes the slot; handle 0 waits. *)
Definition stall_d := arun demo 1 5 (Scr 0 [] [Pending]) (stall_ops ++ stall_do (repeat (BWork false) 9 ++
  [BPollF 0 false; BReady 1; BStep 1 false; BReady 0; BStep 0 false])).
Example C75_example :
  (fut_waits 0 (a_l stall_a) = true /\ k_fut (a_k stall_a) 0 = false /\ k_in (a_k stall_a) 0 = false) /\
  (since 1 (a_l stall_a) <> None /\ k_handle (a_k stall_a) 1 = false) /\
  (k_handle (a_k stall_b) 1 = true /\ k_fut (a_k stall_b) 0 = false) /\
  (worker_sleeps (a_l stall_c) /\ k_worker (a_k stall_c) = false /\ k_fut (a_k stall_c) 0 = true) /\
  (worker_sleeps (a_l stall_d) /\ k_worker (a_k stall_d) = false /\ k_fut (a_k stall_d) 0 = false /\ fut_waits 0 (a_l stall_d) = true /\
   k_in (a_k stall_d) 0 = true /\ since 0 (a_l stall_d) <> None /\ k_handle (a_k stall_d) 0 = false /\ since 1 (a_l stall_d) = None /\
   has_slot 1 (a_l stall_d) = true /\ k_worker (a_k (astep (ADo (BCall 1 34)) stall_d)) = true).
Proof.
  assert (C : worker_sleeps (a_l stall_c)) by (eexists; vm_compute; reflexivity).
  assert (D : worker_sleeps (a_l stall_d)) by (eexists; vm_compute; reflexivity).
  vm_compute in * |- *. repeat split; try discriminate; assumption.
Qed.
(** The wrapped service says [Pending]; it has the worker's waker and fires it later. *)
Definition stall_e := arun demo 1 5 (Scr 0 [Pending] []) (stall_ops ++ stall_do (repeat (BWork false) 5)).
Example C75_example_svc :
  List.filter (@by_worker _ _ _ _ demo) (a_l stall_e) = [WPend; WAsk Pending; WLive 0; WTook 0; WStart] /\
  k_worker (a_k stall_e) = false /\ k_svc (a_k stall_e) = true /\ k_worker (a_k (astep ARing stall_e)) = true.
Proof. vm_compute. repeat split. Qed.
