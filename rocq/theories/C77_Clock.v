(** C77: RateLimit and the range of the clock.  The model with checked addition is RateClock.v. *)
From Verif Require Import Base Limits RateSpec RateClock RateClockProof Demo.
Set Implicit Arguments.

(** As long as a period beginning now ends within the clock's range, nothing is different: what C37-C39 say of the model
    with an unbounded clock is true of the code. *)
Theorem C77_within_range :
  forall W Req Resp Err (rt : Rt W) (rate : rate) (svc : Service W Req Resp Err) (top : Z) (s : rate_limit_st svc) (w : W),
  (now rt w + r_per rate <= top)%Z ->
  poll_ready (rate_limit_clock rt rate svc top) s w = poll_ready (rate_limit rt rate svc) s w /\
  forall q, call (rate_limit_clock rt rate svc top) s q w = call (rate_limit rt rate svc) s q w.
Proof. exact @clock_same. Qed.
Print Assumptions C77_within_range.

(** The rest is the same in any case. *)
Theorem C77_else_same :
  forall W Req Resp Err (rt : Rt W) (rate : rate) (svc : Service W Req Resp Err) (top : Z) (s : rate_limit_st svc) (f : fut svc) (w : W),
  poll_fut (rate_limit_clock rt rate svc top) f w = poll_fut (rate_limit rt rate svc) f w /\
  clone (rate_limit_clock rt rate svc top) s w = clone (rate_limit rt rate svc) s w /\
  drop_svc (rate_limit_clock rt rate svc top) s w = drop_svc (rate_limit rt rate svc) s w /\
  drop_fut (rate_limit_clock rt rate svc top) f w = drop_fut (rate_limit rt rate svc) f w.
Proof. exact @clock_same_else. Qed.
Print Assumptions C77_else_same.

(** Exactly when it panics, besides when the wrapped service does: [call] with a new period to begin, or with no
    readiness; [poll_ready] when the sleep is over; and the new period does not fit. *)
Theorem C77_call_panics :
  forall W Req Resp Err (rt : Rt W) (rate : rate) (svc : Service W Req Resp Err) (top : Z) (s : rate_limit_st svc) (q : Req) (w : W),
  snd (call (rate_limit_clock rt rate svc top) s q w) = Panic <->
  match rl_st s with
  | RlReady until _ => (until <= now rt w /\ top < now rt w + r_per rate)%Z \/ snd (call svc (rl_inner s) q w) = Panic
  | RlLimited => True
  end.
Proof. exact @clock_call_panics. Qed.
Print Assumptions C77_call_panics.
Theorem C77_ready_panics :
  forall W Req Resp Err (rt : Rt W) (rate : rate) (svc : Service W Req Resp Err) (top : Z) (s : rate_limit_st svc) (w : W),
  snd (poll_ready (rate_limit_clock rt rate svc top) s w) = Panic <->
  match rl_st s with
  | RlReady _ _ => snd (poll_ready svc (rl_inner s) w) = Panic
  | RlLimited => fired rt w (rl_sleep s) = true /\
      ((top < now rt w + r_per rate)%Z \/ snd (poll_ready svc (rl_inner s) (nap rt (rl_sleep s) w)) = Panic)
  end.
Proof. exact @clock_ready_panics. Qed.
Print Assumptions C77_ready_panics.

(** A period too long for the clock ([Rate::new] accepts it, e.g. [Duration::MAX]) does not mean "[num] calls in all":
    not a single call is ever let through. *)
Theorem C77_too_long :
  forall W Req Resp Err (rt : Rt W) (rate : rate) (svc : Service W Req Resp Err) (top : Z)
    (s0 : st svc) (w0 w : W) (s : rate_limit_st svc) ops,
  time_flows rt svc -> Forall (fun o => forward rt (fst o)) ops ->
  (top < now rt w0 + r_per rate)%Z ->
  rate_limit_new rt rate svc s0 w0 = (w, Val s) ->
  Forall (fun e => match snd (fst e) with ObsCall _ _ => False | _ => True end)
    (run_svc (rate_limit_clock rt rate svc top) Idle s w ops).
Proof. exact @clock_too_long. Qed.
Print Assumptions C77_too_long.

(** A clock that ends at 100.  A period of 10 is fine at time 0 and panics at time 95; one of 200 panics at once. *)
Example C77_example_fine :
  map (fun e => snd (fst e)) (run_svc (rate_limit_clock scr_rt (Rate 1 10) demo 100) Idle (RlSt demo 5 (RlReady 0 1) 0) scr0
    [(tick 0, SReady); (tick 0, SCall 1); (tick 9, SReady); (tick 1, SReady); (tick 85, SCall 2)])
  = [ObsReady (Ready (Ok tt)); ObsCall (svc := rate_limit_clock scr_rt (Rate 1 10) demo 100) 1 1;
     ObsReady Pending; ObsReady (Ready (Ok tt)); ObsPanic].
Proof. reflexivity. Qed.
Example C77_example_too_long :
  map (fun e => snd (fst e)) (run_svc (rate_limit_clock scr_rt (Rate 1 200) demo 100) Idle (RlSt demo 5 (RlReady 0 1) 0) scr0
    [(tick 0, SReady); (tick 0, SCall 1)])
  = [ObsReady (svc := rate_limit_clock scr_rt (Rate 1 200) demo 100) (Ready (Ok tt)); ObsPanic].
Proof. reflexivity. Qed.
Example C77_example_hypotheses :
  time_flows scr_rt demo /\ Forall (fun o : (scr -> scr) * @sop nat => forward scr_rt (fst o)) [(tick 0, SReady); (tick 3, SCall 1)] /\
  rate_limit_new scr_rt (Rate 1 200) demo 5 scr0 = (scr0, Val (RlSt demo 5 (RlReady 0 1) 0)).
Proof.
  split; [|split].
  - split; [intros s w|intros s r w]; cbn; [destruct (rdy_script w); cbn|]; lia.
  - repeat constructor; intros w; cbn; lia.
  - reflexivity.
Qed.
