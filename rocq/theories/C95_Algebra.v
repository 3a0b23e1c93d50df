(** C95: the laws of the combinators.  Models: Util.v, Middleware.v, Limits.v. *)
From Verif Require Import Base Util SpawnReady Load Middleware Limits Hedge MeterSpec AlgebraSpec AlgebraProof AlgebraLaws AlgebraCong
  AlgebraMore AlgebraFut Demo.
Set Implicit Arguments.

(** Two instances that cannot be told apart ([AlgebraSpec.alike]: every client, whatever it does next upon what it has
    seen, sees the same answers and the same world after every step). *)
Theorem C95_equivalence : forall W Req Resp Err (a b d : Service W Req Resp Err) sa sb sd,
  alike a sa a sa /\ (alike a sa b sb -> alike b sb a sa) /\
  (alike a sa b sb -> alike b sb d sd -> alike a sa d sd).
Proof. exact (fun W Req Resp Err a b d sa sb sd => conj (alike_refl a sa) (conj (@alike_sym _ _ _ _ a sa b sb) (@alike_trans _ _ _ _ a sa b sb d sd))). Qed.
Print Assumptions C95_equivalence.

(** ** One closure after another is one closure.  (The closures may have effects and may panic.) *)
Theorem C95_map_request_fusion : forall W Req Resp Err (svc : Service W Req Resp Err) Req1 Req2
  (f : Req1 -> M W Req) (g : Req2 -> M W Req1) s,
  alike (map_request g (map_request f svc)) s (map_request (after g f) svc) s.
Proof. exact @law_request_request. Qed.
Print Assumptions C95_map_request_fusion.

Theorem C95_map_response_fusion : forall W Req Resp Err (svc : Service W Req Resp Err) Resp1 Resp2
  (f : Resp -> M W Resp1) (g : Resp1 -> M W Resp2) s,
  alike (map_response g (map_response f svc)) s (map_response (after f g) svc) s.
Proof. exact @law_response_response. Qed.
Print Assumptions C95_map_response_fusion.

Theorem C95_map_err_fusion : forall W Req Resp Err (svc : Service W Req Resp Err) Err1 Err2
  (f : Err -> M W Err1) (g : Err1 -> M W Err2) s,
  alike (map_err g (map_err f svc)) s (map_err (after f g) svc) s.
Proof. exact @law_err_err. Qed.
Print Assumptions C95_map_err_fusion.

Theorem C95_map_result_fusion : forall W Req Resp Err (svc : Service W Req Resp Err) Resp1 Err1 Resp2 Err2
  (i1 : Err -> Err1) (i2 : Err1 -> Err2)
  (f : result Resp Err -> M W (result Resp1 Err1)) (g : result Resp1 Err1 -> M W (result Resp2 Err2)) s,
  alike (map_result i2 g (map_result i1 f svc)) s (map_result (fun e => i2 (i1 e)) (after f g) svc) s.
Proof. exact @law_result_result. Qed.
Print Assumptions C95_map_result_fusion.

(** ** Layers that do not mind their order: what happens to the request, and what happens to the answer. *)
Theorem C95_request_and_response : forall W Req Resp Err (svc : Service W Req Resp Err) Req1 Resp1
  (f : Req1 -> M W Req) (g : Resp -> M W Resp1) s,
  alike (map_response g (map_request f svc)) s (map_request f (map_response g svc)) s.
Proof. exact @law_response_request. Qed.
Print Assumptions C95_request_and_response.

Theorem C95_request_and_err : forall W Req Resp Err (svc : Service W Req Resp Err) Req1 Err1
  (f : Req1 -> M W Req) (g : Err -> M W Err1) s,
  alike (map_err g (map_request f svc)) s (map_request f (map_err g svc)) s.
Proof. exact @law_err_request. Qed.
Print Assumptions C95_request_and_err.

Theorem C95_request_and_result : forall W Req Resp Err (svc : Service W Req Resp Err) Req1 Resp1 Err1
  (f : Req1 -> M W Req) (into : Err -> Err1) (g : result Resp Err -> M W (result Resp1 Err1)) s,
  alike (map_result into g (map_request f svc)) s (map_request f (map_result into g svc)) s.
Proof. exact @law_result_request. Qed.
Print Assumptions C95_request_and_result.

Theorem C95_request_and_then : forall W Req Resp Err (svc : Service W Req Resp Err) Req1 Resp1 Err1
  (f : Req1 -> M W Req) (into : Err -> Err1) (T : Task W (result Resp1 Err1)) (g : result Resp Err -> M W (tst T)) s,
  alike (then_ into T g (map_request f svc)) s (map_request f (then_ into T g svc)) s.
Proof. exact @law_then_request. Qed.
Print Assumptions C95_request_and_then.

Theorem C95_request_and_and_then : forall W Req Resp Err (svc : Service W Req Resp Err) Req1 Resp1 Err1
  (f : Req1 -> M W Req) (into : Err -> Err1) (T : Task W (result Resp1 Err1)) (g : Resp -> M W (tst T)) s,
  alike (and_then into T g (map_request f svc)) s (map_request f (and_then into T g svc)) s.
Proof. exact @law_and_then_request. Qed.
Print Assumptions C95_request_and_and_then.

(** The time limit starts after the closure has run, on either side. *)
Theorem C95_request_and_timeout : forall W Req Resp Err (svc : Service W Req Resp Err) Req1
  (f : Req1 -> M W Req) (rt : Rt W) dur s,
  alike (timeout rt dur (map_request f svc)) s (map_request f (timeout rt dur svc)) s.
Proof. exact @law_timeout_request. Qed.
Print Assumptions C95_request_and_timeout.

Theorem C95_response_and_err : forall W Req Resp Err (svc : Service W Req Resp Err) Resp1 Err1
  (f : Resp -> M W Resp1) (g : Err -> M W Err1) s,
  alike (map_err g (map_response f svc)) s (map_response f (map_err g svc)) s.
Proof. exact @law_err_response. Qed.
Print Assumptions C95_response_and_err.

(** With middleware that may refuse the request without looking at it, the closure must be pure. *)
Theorem C95_request_and_load_shed : forall W Req Resp Err (svc : Service W Req Resp Err) Req1 (h : Req1 -> Req) s,
  let inner := map_request (fun r => ret (h r)) svc in
  alike (load_shed inner) (load_shed_new inner s) (map_request (fun r => ret (h r)) (load_shed svc)) (load_shed_new svc s).
Proof. exact (fun W Req Resp Err svc Req1 h s => @law_shed_request W Req Resp Err svc Req1 h s false). Qed.
Print Assumptions C95_request_and_load_shed.

Theorem C95_request_and_rate_limit : forall W Req Resp Err (svc : Service W Req Resp Err) Req1 (h : Req1 -> Req)
  (rt : Rt W) rate s r z,
  let inner := map_request (fun r => ret (h r)) svc in
  alike (rate_limit rt rate inner) (RlSt inner s r z) (map_request (fun r => ret (h r)) (rate_limit rt rate svc)) (RlSt svc s r z).
Proof. exact @law_rate_request. Qed.
Print Assumptions C95_request_and_rate_limit.

Theorem C95_request_and_conc_limit : forall W Req Resp Err (svc : Service W Req Resp Err) Req1 (h : Req1 -> Req)
  closed debug s wait permit,
  let inner := map_request (fun r => ret (h r)) svc in
  alike (conc_limit inner closed debug) (ConcSt inner s wait permit)
        (map_request (fun r => ret (h r)) (conc_limit svc closed debug)) (ConcSt svc s wait permit).
Proof. exact @law_conc_request. Qed.
Print Assumptions C95_request_and_conc_limit.

(** ** What the special cases are special cases of. *)
Theorem C95_map_response_is_map_result : forall W Req Resp Err (svc : Service W Req Resp Err) Resp1 (f : Resp -> M W Resp1) s,
  alike (map_response f svc) s
    (map_result (fun e => e) (fun v => match v with Ok a => b <- f a ;; ret (Ok b) | Er e => ret (Er e) end) svc) s.
Proof. exact @law_response_result. Qed.
Print Assumptions C95_map_response_is_map_result.

Theorem C95_map_err_is_map_result : forall W Req Resp Err (svc : Service W Req Resp Err) Err1 (h : Err -> Err1) s,
  alike (map_err (fun e => ret (h e)) svc) s (map_result h (fun v => ret (map_er h v)) svc) s.
Proof. exact @law_err_result. Qed.
Print Assumptions C95_map_err_is_map_result.

Theorem C95_map_result_is_then : forall W Req Resp Err (svc : Service W Req Resp Err) Resp1 Err1 (into : Err -> Err1)
  (f : result Resp Err -> M W (result Resp1 Err1)) s,
  alike (map_result into f svc) s (then_ into ready_task f svc) s.
Proof. exact @law_result_then. Qed.
Print Assumptions C95_map_result_is_then.

Theorem C95_and_then_is_then : forall W Req Resp Err (svc : Service W Req Resp Err) Resp1 Err1 (into : Err -> Err1)
  (T : Task W (result Resp1 Err1)) (f : Resp -> M W (tst T)) s,
  alike (and_then into T f svc) s
    (then_ into (or_ready T)
       (fun v => match v with Ok a => t <- f a ;; ret (inl t) | Er e => ret (inr (Er (into e))) end) svc) s.
Proof. exact @law_and_then_then. Qed.
Print Assumptions C95_and_then_is_then.

(** A filter whose predicate never says no. *)
Theorem C95_filter_that_accepts : forall W Req Resp Err (svc : Service W Req Resp Err) P PErr Req1
  (check : P -> Req1 -> M W (P * result Req PErr)) pclone (f : Req1 -> M W Req),
  (forall p r, same_do (check p r) (x <- f r ;; ret (p, Ok x))) -> (forall p, same_do (pclone p) (ret p)) ->
  forall s p, alike (filter svc check pclone) (s, p) (map_err (fun e => ret (inl e)) (map_request f svc)) s.
Proof. exact @law_filter'. Qed.
Print Assumptions C95_filter_that_accepts.

(** [Optional] with a service. *)
Theorem C95_optional_some : forall W Req Resp Err (svc : Service W Req Resp Err) s,
  alike (optional svc) (Some s) (map_future inl svc (fut_into svc (@inl Err unit)) (fun f => ret f)) s.
Proof. exact @law_optional. Qed.
Print Assumptions C95_optional_some.

(** MapFuture: two conversions of the future are one, it does not matter whether the request is converted outside or
    inside, and keeping the future cannot be noticed. *)
Theorem C95_map_future_fusion : forall W Req Resp Err (svc : Service W Req Resp Err) Resp1 Err1 Resp2 Err2
  (i1 : Err -> Err1) (i2 : Err1 -> Err2) (T1 : Task W (result Resp1 Err1)) (T2 : Task W (result Resp2 Err2))
  (f : fut svc -> M W (tst T1)) (g : tst T1 -> M W (tst T2)) s,
  alike (map_future i2 (map_future i1 svc T1 f) T2 g) s (map_future (fun e => i2 (i1 e)) svc T2 (after f g)) s.
Proof. exact @law_future_future. Qed.
Print Assumptions C95_map_future_fusion.
Theorem C95_request_and_future : forall W Req Resp Err (svc : Service W Req Resp Err) Req1 Resp1 Err1
  (h : Req1 -> M W Req) (into : Err -> Err1) (T : Task W (result Resp1 Err1)) (f : fut svc -> M W (tst T)) s,
  alike (map_request h (map_future into svc T f)) s (map_future into (map_request h svc) T f) s.
Proof. exact @law_future_request. Qed.
Print Assumptions C95_request_and_future.
Theorem C95_map_future_id : forall W Req Resp Err (svc : Service W Req Resp Err) s,
  alike (map_future (fun e => e) svc (fut_into svc (fun e : Err => e)) (fun f => ret f)) s svc s.
Proof. exact @law_future_id. Qed.
Print Assumptions C95_map_future_id.

(** ** Wrappers that cannot be noticed. *)
Theorem C95_boxed : forall W Req Resp Err (svc : Service W Req Resp Err) s, alike (boxed svc) s svc s.
Proof. exact @law_boxed. Qed.
Print Assumptions C95_boxed.
Theorem C95_map_request_id : forall W Req Resp Err (svc : Service W Req Resp Err) (f : Req -> M W Req),
  (forall r, same_do (f r) (ret r)) -> forall s, alike (map_request f svc) s svc s.
Proof. exact @law_request_id. Qed.
Print Assumptions C95_map_request_id.
Theorem C95_either : forall W Req Resp Err (a b : Service W Req Resp Err),
  (forall s, alike (either a b) (inl s) a s) /\ (forall s, alike (either a b) (inr s) b s).
Proof. exact (fun W Req Resp Err a b => conj (law_either_left a b) (law_either_right b a)). Qed.
Print Assumptions C95_either.
Theorem C95_future_service : forall W Req Resp Err (svc : Service W Req Resp Err) (T : Task W (result (st svc) Err)) tclone s,
  alike (future_service svc T tclone) (inr s) svc s.
Proof. exact @law_future_service. Qed.
Print Assumptions C95_future_service.

(** ** The laws hold anywhere in a stack: what is alike stays alike under a layer. *)
Theorem C95_under_util : forall W Req Resp Err (a b : Service W Req Resp Err) sa sb, alike a sa b sb ->
  alike (boxed a) sa (boxed b) sb /\
  (forall Req' (f : Req' -> M W Req), alike (map_request f a) sa (map_request f b) sb) /\
  (forall Resp' (f : Resp -> M W Resp'), alike (map_response f a) sa (map_response f b) sb) /\
  (forall Err' (f : Err -> M W Err'), alike (map_err f a) sa (map_err f b) sb) /\
  (forall Resp' Err' (into : Err -> Err') (f : result Resp Err -> M W (result Resp' Err')),
     alike (map_result into f a) sa (map_result into f b) sb) /\
  (forall Resp' Err' (into : Err -> Err') (T : Task W (result Resp' Err')) (f : result Resp Err -> M W (tst T)),
     alike (then_ into T f a) sa (then_ into T f b) sb) /\
  (forall Resp' Err' (into : Err -> Err') (T : Task W (result Resp' Err')) (f : Resp -> M W (tst T)),
     alike (and_then into T f a) sa (and_then into T f b) sb) /\
  alike (optional a) (Some sa) (optional b) (Some sb) /\
  (forall d, alike (either a d) (inl sa) (either b d) (inl sb)) /\
  (forall d, alike (either d a) (inr sa) (either d b) (inr sb)).
Proof. exact @under_util. Qed.
Print Assumptions C95_under_util.

Theorem C95_under_middleware : forall W Req Resp Err (a b : Service W Req Resp Err) sa sb, alike a sa b sb ->
  (forall rt dur, alike (timeout rt dur a) sa (timeout rt dur b) sb) /\
  alike (load_shed a) (load_shed_new a sa) (load_shed b) (load_shed_new b sb) /\
  (forall P PErr Req' (check : P -> Req' -> M W (P * result Req PErr)) pclone p,
     alike (filter a check pclone) (sa, p) (filter b check pclone) (sb, p)) /\
  (forall P PErr Req' (T : Task W (result Req PErr)) (check : P -> Req' -> M W (P * tst T)) pclone p,
     alike (async_filter a T check pclone) (sa, p) (async_filter b T check pclone) (sb, p)) /\
  (forall (pol : Policy W Req Resp Err) fuel p, alike (retry pol a fuel) (p, sa) (retry pol b fuel) (p, sb)) /\
  (forall rt rate r z, alike (rate_limit rt rate a) (RlSt a sa r z) (rate_limit rt rate b) (RlSt b sb r z)) /\
  (forall closed debug,
     alike (conc_limit a closed debug) (conc_new a sa) (conc_limit b closed debug) (conc_new b sb)).
Proof. exact @under_middleware. Qed.
Print Assumptions C95_under_middleware.

Theorem C95_under_more : forall W Req Resp Err (a b : Service W Req Resp Err) sa sb, alike a sa b sb ->
  (forall Met (m : Met), alike (constant (M' := Met) a) (sa, m) (constant (M' := Met) b) (sb, m)) /\
  (forall bg fuel, alike (spawn_ready a bg fuel) (spawn_ready_new a sa) (spawn_ready b bg fuel) (spawn_ready_new b sb)) /\
  (forall C T (start : M W T) (finish : T -> C -> W -> C * W) keep,
     alike (tracked_load a start finish keep) sa (tracked_load b start finish keep) sb) /\
  (forall rt clone_request can_retry mdp quantile getH setH sa2 sb2, alike a sa2 b sb2 ->
     alike (hedge rt a clone_request can_retry mdp quantile getH setH) (sa, (sa2, tt))
           (hedge rt b clone_request can_retry mdp quantile getH setH) (sb, (sb2, tt))).
Proof. exact @under_more. Qed.
Print Assumptions C95_under_more.

(** Under a Steer whose picker does not look into the services. *)
Theorem C95_under_steer : forall W Req Resp Err P (a b : Service W Req Resp Err)
  (pick : P -> Req -> nat -> M W (P * nat)) pclone l l' p,
  Forall2 (fun sa sb => alike a sa b sb) l l' ->
  alike (steer a (fun p r x => pick p r (length x)) pclone) (steer_new a l p)
        (steer b (fun p r x => pick p r (length x)) pclone) (steer_new b l' p).
Proof. exact @cong_steer. Qed.
Print Assumptions C95_under_steer.

(** ** Nothing less would do: what looks like a law and is not one. *)

(** A client that becomes ready, sends a request, polls the response future twice, and looks at how the first poll ended
    before it decides on the second. *)
Definition talk95 : client scr nat nat nat :=
  Do (UReady 0) (fun _ _ => Do (UCall 0 7) (fun _ _ => Do (UPoll 0) (fun _ x =>
    match x with SawPoll (Ready _) => Do (UPoll 0) (fun _ _ => Stop) | _ => Stop end))).

(** [map_response] with the identity is not the service: its future panics when polled after completion (and drops the
    inner future earlier). *)
Example C95_example_response_id :
  map fst (talk (ustart demo scr0 [5 : st demo]) talk95) =
    [SawReady (Ready (Ok tt)); SawDone; SawPoll (Ready (Ok 7)); SawPoll (Ready (Ok 7))] /\
  map fst (talk (ustart (map_response (fun r : nat => ret r) demo) scr0 [5 : st demo]) talk95) =
    [SawReady (Ready (Ok tt)); SawDone; SawPoll (Ready (Ok 7)); SawPanic].
Proof. vm_compute. split; reflexivity. Qed.
Example C95_example_response_id_differs : ~ alike (map_response (fun r : nat => ret r) demo) (5 : st demo) demo (5 : st demo).
Proof. intros H. specialize (H scr0 talk95). vm_compute in H. discriminate H. Qed.

(** A closure with an effect does not commute with load shedding: a shed request is not transformed. *)
Definition tally (r : nat) : M scr nat := modify (tick 1) ;;; ret r.
Example C95_example_shed_effect :
  ~ alike (load_shed (map_request tally demo)) (load_shed_new (map_request tally demo) (5 : st demo)) (map_request tally (load_shed demo)) (load_shed_new demo (5 : st demo)).
Proof.
  intros H. specialize (H (Scr 0 [Pending] []) (Do (UReady 0) (fun _ _ => Do (UCall 0 7) (fun _ _ => Stop)))).
  vm_compute in H. discriminate H.
Qed.
(** The order of the closures matters. *)
Example C95_example_order :
  ~ alike (map_response (fun r => ret (r + 1)) (map_response (fun r => ret (r * 2)) demo)) (5 : st demo)
          (map_response (after (fun r => ret (r + 1)) (fun r => ret (r * 2))) demo) (5 : st demo).
Proof. intros H. specialize (H scr0 talk95). vm_compute in H. discriminate H. Qed.
(** And the hypotheses on the filter are met. *)
Example C95_example_filter : forall s,
  alike (filter demo (fun (p : unit) (r : nat) => ret (p, @Ok nat nat r)) (fun p => ret p)) (s, tt)
        (map_err (fun e => ret (inl e)) (map_request (fun r => ret r) demo)) s.
Proof. intros s. apply C95_filter_that_accepts; intros; intros w; reflexivity. Qed.
(** A future that is forgotten and replaced by a resolved one is noticed. *)
Example C95_example_future :
  ~ alike (map_future (fun e => e) demo (@ready_task scr (result nat nat)) (fun _ => ret (Ok 3))) (5 : st demo) demo (5 : st demo).
Proof. intros H. specialize (H scr0 talk95). vm_compute in H. discriminate H. Qed.
