(** C92: the middleware the documentation teaches.  Models: DocCode.v. *)
From Verif Require Import Base ContractSpec StackSpec DriveSpec Util Middleware Limits MeterSpec KeepSpec DocCode DocSpec DocProof Demo.
Set Implicit Arguments.

(** The wrapper that leaves the clone behind and calls the instance that was ready: over any stack of middleware over any
    service, it never uses anything against the contract, returns if they do, and stays ready if they do. *)
Theorem C92_take_contract : forall c W Req Resp Err (svc : Service W Req Resp Err) I,
  stack c svc I -> c_cl c = true -> forall s0, I s0 ->
  contract_safe false (wrap_take svc) s0 /\ (c_div c = false -> always_returns false (wrap_take svc) s0) /\
  (c_stk c = true -> ready_persists false (wrap_take svc) s0).
Proof. exact take_contract. Qed.
Print Assumptions C92_take_contract.

(** What it does: calling it clones the instance and nothing more; the first poll of the future calls the instance that
    was ready, with the request, and from then on the future is that of the instance; at the end it is dropped, and then
    the instance. *)
Theorem C92_take_transparent : forall W Req Resp Err (svc : Service W Req Resp Err) s r w w1 s1 x,
  call (wrap_take svc) s r w = (w1, Val (s1, x)) ->
  clone svc s w = (w1, Val s1) /\
  forall w2 g gs,
  drive (poll_fut (wrap_take svc)) x w2 (g :: gs) =
  match call svc s r (g w2) with
  | (w3, Val (s3, y)) =>
      fin_then (fun y1 => WfRun s3 y1)
        (fun y1 v => modify (drop_fut svc y1) ;;; modify (drop_svc svc s3) ;;; ret (WfDone, v))
        (drive (poll_fut svc) y w3 ((fun w => w) :: gs))
  | (w3, Panic) => ([], Panicked w3)
  | (w3, Diverge) => ([], Spun w3)
  end.
Proof. exact @take_call. Qed.
Print Assumptions C92_take_transparent.

(** It keeps account of every instance and every response future (C69), hence of permits and the like. *)
Theorem C92_take_kept : forall W Req Resp Err (live : W -> Z) (svc : Service W Req Resp Err) osv own orp,
  kept live svc osv own orp -> kept live (wrap_take svc) osv (owrap osv own) orp.
Proof. exact @take_kept. Qed.
Print Assumptions C92_take_kept.

(** The wrapper that calls the clone misuses *every* service: with a supervised instance inside, whoever it is and
    however it got ready, polling the future of any call panics. *)
Theorem C92_clone_misuses : forall W Req Resp Err (svc : Service W Req Resp Err) s r w w1 s1 x,
  call (wrap_clone (guard svc)) s r w = (w1, Val (s1, x)) ->
  forall w2, poll_fut (wrap_clone (guard svc)) x w2 = (w2, Panic).
Proof. exact @clone_misuse. Qed.
Print Assumptions C92_clone_misuses.

(** And with a ConcurrencyLimit inside it does so without any supervisor: no request ever gets through. *)
Theorem C92_clone_never_works_over_a_limit : forall W Req Resp Err (svc : Service W Req Resp Err) closed debug s r w w1 s1 x,
  call (wrap_clone (conc_limit svc closed debug)) s r w = (w1, Val (s1, x)) ->
  forall w2, poll_fut (wrap_clone (conc_limit svc closed debug)) x w2 = (w2, Panic).
Proof. exact @clone_limit. Qed.
Print Assumptions C92_clone_never_works_over_a_limit.

(** It "might" panic: where a clone is as ready as the original, the two wrappers are the same. *)
Theorem C92_clone_alike : forall W Req Resp Err (svc : Service W Req Resp Err),
  (forall s w w1 c, clone svc s w = (w1, Val c) -> c = s) ->
  forall s r w, call (wrap_clone svc) s r w = call (wrap_take svc) s r w.
Proof. exact @clone_alike. Qed.
Print Assumptions C92_clone_alike.

Definition limited := conc_limit demo (fun _ => false) true.
Example C92_example_take :
  drive (poll_fut (wrap_take limited)) (WfInit (svc := limited) (ConcSt demo 5 None true) 7) (Sem 0 [] [] 0, scr0) [fun w => w]
  = ([], Finished WfDone (Sem 1 [] [] 0, scr0) (Ok 7)).
Proof. reflexivity. Qed.
Example C92_example_clone :
  call (wrap_clone limited) (ConcSt demo 5 None true) 7 (Sem 0 [] [] 0, scr0)
  = ((Sem 0 [] [] 0, scr0), Val (ConcSt demo 5 None true, WfInit (svc := limited) (ConcSt demo 5 None false) 7)).
Proof. reflexivity. Qed.

(** The [Timeout] of the [Service] docs.  It keeps the contract ... *)
Theorem C92_doc_timeout_contract : forall c W Req Resp Err (svc : Service W Req Resp Err) I (rt : Rt W) dur coin,
  stack c svc I -> quiet coin -> forall s0, I s0 ->
  contract_safe false (timeout_doc rt dur svc coin) s0 /\ (c_div c = false -> always_returns false (timeout_doc rt dur svc coin) s0) /\
  (c_stk c = true -> ready_persists false (timeout_doc rt dur svc coin) s0).
Proof. exact doc_contract. Qed.
Print Assumptions C92_doc_timeout_contract.

(** ... [Expired] comes no sooner than [dur] after [call] was entered ... *)
Theorem C92_doc_timeout_not_early : forall W Req Resp Err (rt : Rt W) dur (svc : Service W Req Resp Err) coin,
  onward rt coin -> (forall f, onward rt (poll_fut svc f)) -> (forall f w, now rt w <= now rt (drop_fut svc f w))%Z ->
  forall s r w w1 s1 x gs l f w2,
  call (timeout_doc rt dur svc coin) s r w = (w1, Val (s1, x)) ->
  drive (poll_fut (timeout_doc rt dur svc coin)) x w1 gs = (l, Finished f w2 (Er (inr tt))) ->
  (now rt w + dur <= now rt w2)%Z.
Proof. exact @doc_not_early. Qed.
Print Assumptions C92_doc_timeout_not_early.

(** ... a poll that begins once the timer has fired does not answer [Pending] ... *)
Theorem C92_doc_timeout_not_late : forall W Req Resp Err (rt : Rt W) dur (svc : Service W Req Resp Err) coin,
  onward rt coin -> (forall f, onward rt (poll_fut svc f)) -> (forall f w, now rt w <= now rt (drop_fut svc f w))%Z ->
  forall x dl w w1 f1 p,
  poll_fut (timeout_doc rt dur svc coin) (DfRun x dl) w = (w1, Val (f1, p)) -> fired rt w dl = true -> p <> Pending.
Proof. exact @doc_not_late. Qed.
Print Assumptions C92_doc_timeout_not_late.

(** ... any other answer is the inner one, the inner future having been polled once in each poll ... *)
Theorem C92_doc_timeout_verbatim : forall W Req Resp Err (rt : Rt W) dur (svc : Service W Req Resp Err) coin,
  onward rt coin -> (forall f, onward rt (poll_fut svc f)) -> (forall f w, now rt w <= now rt (drop_fut svc f w))%Z ->
  forall gs x dl w l f w2 v,
  drive (poll_fut (timeout_doc rt dur svc coin)) (DfRun x dl) w gs = (l, Finished f w2 v) -> v <> Er (inr tt) ->
  exists gs' l' x1 w3 v0, length gs' = S (length l) /\ length l' = length l /\
    drive (poll_fut svc) x w gs' = (l', Finished x1 w3 v0) /\ w2 = drop_fut svc x1 w3 /\ v = map_er inl v0.
Proof. exact @doc_verbatim. Qed.
Print Assumptions C92_doc_timeout_verbatim.

(** ... and whoever's future it is, it is dropped, once. *)
Theorem C92_doc_timeout_kept : forall W Req Resp Err (live : W -> Z) (svc : Service W Req Resp Err) osv own orp (rt : Rt W) dur coin,
  kept live svc osv own orp -> still live coin -> (forall d, same live (nap rt d)) ->
  kept live (timeout_doc rt dur svc coin) osv (odoc own) orp.
Proof. exact @doc_kept. Qed.
Print Assumptions C92_doc_timeout_kept.

(** It is not tower's Timeout: that the response wins when both are there is false of it ... *)
Theorem C92_doc_response_wins_refuted :
  ~ forall W Req Resp Err (rt : Rt W) dur (svc : Service W Req Resp Err) coin x dl w w1 x1 v,
    quiet coin -> poll_fut svc x w = (w1, Val (x1, Ready v)) -> (forall w', fst (coin w') = w') ->
    exists w2, poll_fut (timeout_doc rt dur svc coin) (DfRun x dl) w = (w2, Val (DfDone, Ready (map_er inl v))).
Proof. exact response_wins_refuted. Qed.
Print Assumptions C92_doc_response_wins_refuted.

(** ... it would be with [biased;]: then its futures are those of Timeout (C05), with the inner future dropped at the end ... *)
Theorem C92_doc_biased : forall W Req Resp Err (rt : Rt W) dur (svc : Service W Req Resp Err) x dl w gs,
  drive (poll_fut (timeout_doc rt dur svc (ret true))) (DfRun x dl) w gs =
  fin_then (fun t => DfRun (to_inner t) (to_deadline t)) (fun t v => modify (drop_fut svc (to_inner t)) ;;; ret (DfDone, v))
    (drive (poll_fut (timeout rt dur svc)) (TimeoutFut svc x dl) w gs).
Proof. exact @doc_biased. Qed.
Print Assumptions C92_doc_biased.
(** ... but for the deadline, which it takes before the inner [call] instead of after it. *)
Theorem C92_doc_deadline : forall W Req Resp Err (rt : Rt W) dur (svc : Service W Req Resp Err) s r w,
  call (timeout_doc rt dur svc (ret true)) s r w =
  match call svc s r w with
  | (w1, Val (s1, x)) => (w1, Val (s1, DfRun x (now rt w + dur)%Z))
  | (w1, Panic) => (w1, Panic)
  | (w1, Diverge) => (w1, Diverge)
  end.
Proof. exact @doc_history. Qed.
Print Assumptions C92_doc_deadline.

(** The [Timeout] the guide arrives at is "the Timeout middleware as it exists in Tower": same history of the service
    (cf. C05), same futures. *)
Theorem C92_guide_history : forall W Req Resp Err (rt : Rt W) dur (svc : Service W Req Resp Err) s,
  same_history (a := svc) (b := timeout_guide rt dur svc) (fun r => r) inl (fun _ w1 f => GuideFut f (now rt w1 + dur)%Z) s s.
Proof. exact @guide_history. Qed.
Print Assumptions C92_guide_history.
Theorem C92_guide_futures : forall W Req Resp Err (rt : Rt W) dur (svc : Service W Req Resp Err) x dl w gs,
  drive (poll_fut (timeout_guide rt dur svc)) (GuideFut x dl) w gs =
  fin_then (fun t => GuideFut (to_inner t) (to_deadline t)) (fun t v => ret (GuideFut (to_inner t) (to_deadline t), v))
    (drive (poll_fut (timeout rt dur svc)) (TimeoutFut svc x dl) w gs).
Proof. exact @guide_drive. Qed.
Print Assumptions C92_guide_futures.

(** The log service prints, then calls; for the rest it is the service. *)
Theorem C92_log_call : forall W Req Resp Err (svc : Service W Req Resp Err) print s r w,
  call (log_service print svc) s r w = call svc s r (print r w) /\
  poll_ready (log_service print svc) s w = poll_ready svc s w /\
  forall f, poll_fut (log_service print svc) f w = poll_fut svc f w.
Proof. exact @log_call. Qed.
Print Assumptions C92_log_call.

(** Non-vacuity: the race, lost and won; and a stack with the wrapper in the middle. *)
Example C92_example_race :
  snd (poll_fut (timeout_doc scr_rt 10 demo (ret false)) (DfRun (svc := demo) 7 10%Z) (Scr 12 [] [])) = Val (DfDone, Ready (Er (inr tt))) /\
  snd (poll_fut (timeout_doc scr_rt 10 demo (ret true)) (DfRun (svc := demo) 7 10%Z) (Scr 12 [] [])) = Val (DfDone, Ready (Ok 7)).
Proof. split; reflexivity. Qed.
Example C92_example_onward : onward scr_rt (ret (W := scr) true) /\ (forall f, onward scr_rt (poll_fut demo f)).
Proof.
  split; [intros w; cbn; split; [lia | auto] |]. intros f w. cbn. destruct (res_script w); cbn; (split; [lia | auto]).
Qed.
Example C92_example_stack : stack (Caps false true false)
  (timeout scr_rt 5 (wrap_take (guard warm))) (fun s => fst s = Idle).
Proof.
  apply stk_timeout. refine (@stk_wrap_take (Caps false true true) _ _ _ _ (guard warm) _ _ eq_refl).
  exact (stk_base (dv := false) (stk := true) warm_never_panics (fun _ => warm_never_diverges) (fun _ => warm_keeps_ready)).
Qed.
