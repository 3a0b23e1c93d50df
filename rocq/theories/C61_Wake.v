(** C61: no lost wake-ups.  Specification in WakeSpec.v. *)
From Verif Require Import Base Util Middleware Limits Hedge CallAll WakeSpec WakeProof Demo.
Set Implicit Arguments.

(** Whenever a service assembled from tower's middleware, or one of its
    response futures, answers [Pending], the waker is registered: the last thing
    that happened in that poll is that something at the bottom - a wrapped
    service, a user-supplied future, a timer, a semaphore - answered [Pending]
    (under [Hedge]: that something did so in this poll). *)
Theorem C61_pending_registers :
  forall W (K : W -> Prop) Req Resp Err (svc : Service W Req Resp Err), assembled K svc ->
  (forall s w w1 s1, poll_ready svc s w = (w1, Val (s1, Pending)) -> K w1) /\
  (forall f w w1 f1, poll_fut svc f w = (w1, Val (f1, Pending)) -> K w1).
Proof. exact assembled_wakes. Qed.
Print Assumptions C61_pending_registers.

(** The same for the futures [oneshot] and [ready_oneshot] over such a service. *)
Theorem C61_oneshot_registers :
  forall W (K : W -> Prop) Req Resp Err (svc : Service W Req Resp Err), assembled K svc ->
  task_wakes K (oneshot svc) /\ task_wakes K (ready_oneshot svc).
Proof.
  exact (fun W K Req Resp Err svc H => conj (pend_oneshot (assembled_wakes H)) (pend_ready_oneshot (assembled_wakes H))).
Qed.
Print Assumptions C61_oneshot_registers.

(** And for [call_all], over a stream and a collection of futures that do. *)
Theorem C61_call_all_registers :
  forall W (K : W -> Prop) Req Resp Err (svc : Service W Req Resp Err) (S : Stream W Req)
    (Q : Drive W (fut svc) (result Resp Err)) fuel,
  assembled K svc -> stream_wakes K S -> drive_wakes K Q ->
  forall (c : call_all svc S Q) w w1 c1, ca_next fuel c w = (w1, Val (c1, Pending)) -> K w1.
Proof. exact (fun W K Req Resp Err svc S Q fuel H => call_all_wakes fuel (assembled_wakes H)). Qed.
Print Assumptions C61_call_all_registers.

(** A concrete [K]: every bottom service writes its answers into a log, every
    timer that is polled before its time a note; [K]: the newest entry is a
    [Pending] answer or such a note. *)
Definition note := (ev nat nat nat + Z)%type.
Definition newest_pending (x : scr * list note) : Prop :=
  match snd x with
  | inl (EvReady Pending) :: _ | inl (EvPoll Pending) :: _ | inr _ :: _ => True
  | _ => False
  end.
Definition wrt : Rt (scr * list note).
Proof.
  refine (MkRt (fun x => clock (fst x)) (fun x d => (d <=? clock (fst x))%Z) (fun d x => (fst x, inr d :: snd x)) _ _ _);
    try reflexivity.
  intros w d H. apply Z.leb_le, H.
Defined.
Definition bottom : Service (scr * list note) nat nat nat := logged inl demo.
Definition never : Policy (scr * list note) nat nat nat :=
  @MkPolicy _ _ _ _ unit (MkTask unit (fun t => ret (t, Ready tt)) (fun _ w => w))
    (fun p r => ret (p, Some r))
    (fun p r v => ret (p, r, v, match v with Ok _ => None | Er _ => Some tt end)) (fun p => ret p).
Definition wstack := timeout wrt 5 (rate_limit wrt (Rate 1 10) (load_shed (retry never bottom 9))).

Example C61_example_assembled : assembled newest_pending wstack.
Proof.
  assert (Ht : timer_wakes newest_pending wrt) by (intros w d _; exact I).
  apply as_timeout; [|exact Ht]. apply as_rate_limit; [|exact Ht]. apply as_load_shed. apply as_retry.
  - apply as_bottom. split; intros x w w1 x1; cbn; unfold bind, lift_log, emit, ret; destruct w as [[c [|a l] [|b m]] g]; cbn;
      intros E; try discriminate; injection E as <- _ ->; exact I.
  - intros t w w1 t1 E. discriminate.
Qed.
(** A first attempt fails, the second is pending; and the limiter's timer is running. *)
Example C61_example_future :
  let w := (Scr 3 [] [Ready (Er 1); Pending], []) in
  let f := TimeoutFut (rate_limit wrt (Rate 1 10) (load_shed (retry never bottom 9)))
             (Some (RetryFut (pol := never) (svc := bottom) (Some 7) tt 0 (RCalled (svc := bottom) 7))) 5 in
  match poll_fut wstack f w with
  | (w1, Val (_, Pending)) => snd w1 = [inr 5%Z; inl (EvPoll Pending); inl (EvCall 7); inl (EvReady (Ready (Ok tt)));
                                        inl EvDropFut; inl (EvPoll (Ready (Er 1)))]
  | _ => False
  end.
Proof. reflexivity. Qed.
Example C61_example_ready :
  match poll_ready wstack (RlSt (load_shed (retry never bottom 9)) (load_shed_new (retry never bottom 9) (tt, 0)) RlLimited 10) (Scr 3 [] [], []) with
  | (w1, Val (_, Pending)) => snd w1 = [inr 10%Z]
  | _ => False
  end.
Proof. reflexivity. Qed.
