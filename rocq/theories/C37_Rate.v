(** C37-C39: RateLimit.  Specification in RateSpec.v. *)
From Verif Require Import Base Limits Track RateSpec RateProof Demo.
Set Implicit Arguments.

(** The calls let through fall into disjoint windows of length [per], one after the other, with at most [num]
    calls each. *)
Theorem C37_rate_windows :
  forall W Req Resp Err (rt : Rt W) (svc : Service W Req Resp Err) (r : rate),
  (0 < r_num r)%N -> (0 < r_per r)%Z -> time_flows rt svc ->
  forall (x : st svc) w0 w s ops,
  Forall (fun o => forward rt (fst o)) ops ->
  rate_limit_new (tk_rt rt) r (tracked (fun e => e) svc) (0, x) w0 = (w, Val s) ->
  exists lo, windowed (r_num r) (r_per r) lo (call_times (run_svc (trate rt svc r) Idle s w (tk_ops ops))).
Proof. exact @rate_windows. Qed.
Print Assumptions C37_rate_windows.

(** Hence at most [2 * num] calls in any interval of length [per]. *)
Theorem C37_rate_twice :
  forall W Req Resp Err (rt : Rt W) (svc : Service W Req Resp Err) (r : rate),
  (0 < r_num r)%N -> (0 < r_per r)%Z -> time_flows rt svc ->
  forall (x : st svc) w0 w s ops,
  Forall (fun o => forward rt (fst o)) ops ->
  rate_limit_new (tk_rt rt) r (tracked (fun e => e) svc) (0, x) w0 = (w, Val s) ->
  forall t, (N.of_nat (length (within t (r_per r) (call_times (run_svc (trate rt svc r) Idle s w (tk_ops ops)))))
             <= 2 * r_num r)%N.
Proof. exact @rate_twice. Qed.
Print Assumptions C37_rate_twice.

(** [Rate::new] accepts exactly the positive counts and periods. *)
Theorem C37_rate_new :
  forall W (w : W) num per,
  rate_new num per w = (w, if (0 <? num)%N && (0 <? per)%Z then Val (Rate num per) else Panic).
Proof. exact @rate_new_spec. Qed.
Print Assumptions C37_rate_new.

(** The naive reading fails: two calls per ten time units, yet three within ten. *)
Theorem C38_rate_naive_refuted :
  ~ (forall W Req Resp Err (rt : Rt W) (svc : Service W Req Resp Err) (r : rate),
     (0 < r_num r)%N -> (0 < r_per r)%Z -> time_flows rt svc ->
     forall (x : st svc) w0 w s ops,
     Forall (fun o => forward rt (fst o)) ops ->
     rate_limit_new (tk_rt rt) r (tracked (fun e => e) svc) (0, x) w0 = (w, Val s) ->
     forall t, (N.of_nat (length (within t (r_per r) (call_times (run_svc (trate rt svc r) Idle s w (tk_ops ops)))))
                <= r_num r)%N).
Proof. exact rate_naive_refuted. Qed.
Print Assumptions C38_rate_naive_refuted.

(** Nothing else is ever held back: every [poll_ready] gives the inner service's own answer unless the last
    [num] calls lie in one window whose end the timer has not reported; every call goes through. *)
Theorem C39_rate_not_needlessly :
  forall W Req Resp Err (rt : Rt W) (svc : Service W Req Resp Err) (r : rate),
  (0 < r_num r)%N -> (0 < r_per r)%Z -> time_flows rt svc ->
  forall (x : st svc) w0 w s ops,
  Forall (fun o => forward rt (fst o)) ops ->
  rate_limit_new (tk_rt rt) r (tracked (fun e => e) svc) (0, x) w0 = (w, Val s) ->
  rate_entries [] (run_svc (trate rt svc r) Idle s w (tk_ops ops)).
Proof. exact @rate_not_needlessly. Qed.
Print Assumptions C39_rate_not_needlessly.

(** Non-vacuity: two per ten. *)
Example C37_example :
  call_times (run_svc (trate scr_rt demo (Rate 2 10)) Idle (RlSt (tracked (fun e => e) demo) (0, 5) (RlReady 0 2) 0) (scr0, Tk 1 [])
    (tk_ops [(tick 0, SReady); (tick 0, SCall 1); (tick 9, SReady); (tick 0, SCall 2); (tick 0, SReady);
             (tick 0, SCall 3); (tick 1, SReady); (tick 0, SCall 4); (tick 0, SReady); (tick 1, SCall 5)]))
  = [0; 9; 10; 11]%Z.
Proof. reflexivity. Qed.
