(** Specification for C81: the response time of a stack of tower middleware. *)
From Verif Require Import Base Util ReadyCache SpawnReady Load Make Middleware Limits Hedge MeterSpec FlightSpec.
Set Implicit Arguments.
Local Open Scope Z_scope.

(** [quick clk lag poll D l x]: [x] was created, or last polled, when the clock said [l].  Polled again and again,
    never more than [lag] after the time before, whatever else happens to the world in between, it is pending only
    before [D]. *)
CoInductive quick {W X A} (clk : W -> Z) (lag : Z) (poll : X -> M W (X * poll A)) (D : Z) : Z -> X -> Prop :=
| Quick l x :
    (forall w w1 x1, l <= clk w <= l + lag -> poll x w = (w1, Val (x1, Pending)) -> clk w < D) ->
    (forall w w1 x1, l <= clk w <= l + lag -> poll x w = (w1, Val (x1, Pending)) -> quick clk lag poll D (clk w) x1) ->
    quick clk lag poll D l x.

(** A service whose response futures are pending for less than [T] and, if [rdy], that never says [Pending] when
    asked whether it is ready. *)
Record Swift {W Req Resp Err} (clk : W -> Z) (lag T : Z) (rdy : bool) (svc : Service W Req Resp Err) : Prop := MkSwift {
  sw_time : 0 <= T;
  sw_call : forall s r w w1 s1 f, call svc s r w = (w1, Val (s1, f)) -> quick clk lag (poll_fut svc) (clk w + T) (clk w) f;
  sw_ready : rdy = true -> forall s w w1 s1, poll_ready svc s w <> (w1, Val (s1, Pending)) }.

(** The same for a closure that gives a future, [d] the time. *)
Definition swift_task {W A B} (clk : W -> Z) (lag d : Z) (T : Task W B) (f : A -> M W (tst T)) : Prop :=
  forall a w w1 t, f a w = (w1, Val t) -> quick clk lag (tpoll T) (clk w + d) (clk w) t.

(** tokio's timers, on time: the clock they read is [clk], and one whose deadline is over has fired. *)
Definition on_time {W} (clk : W -> Z) (rt : Rt W) : Prop :=
  (forall w, now rt w = clk w) /\ (forall w d, d <= clk w -> fired rt w d = true).

(** [swift clk lag T rdy svc]: the stacks [svc] that answer within [T], given that every future that is pending is
    polled again [lag] later at the latest.  Code takes no time of its own ([apart], [still] and [same]: the clock
    does not move while it runs).

    Time is spent in the service at the bottom ([sw_base]), the closures' and predicates' futures, and between the
    attempts of a retry.  Whatever is below a timeout counts at most [dur] ([sw_timeout]), however slow. *)
Inductive swift : forall (W Req Resp Err : Type) (clk : W -> Z) (lag T : Z) (rdy : bool) (svc : Service W Req Resp Err), Prop :=
| sw_base W Req Resp Err clk lag T rdy (svc : Service W Req Resp Err) :
    apart clk svc -> Swift clk lag T rdy svc -> swift clk lag T rdy svc
| sw_service_fn W Req Resp Err clk lag d (T : Task W (result Resp Err)) (f : Req -> M W (tst T)) :
    0 <= d -> still_task clk T -> (forall r, still clk (f r)) -> swift_task clk lag d T f ->
    swift clk lag d true (service_fn T f)
| sw_weaken W Req Resp Err clk lag T T' rdy rdy' (svc : Service W Req Resp Err) :
    swift clk lag T rdy svc -> T <= T' -> (rdy' = true -> rdy = true) -> swift clk lag T' rdy' svc
(* tower::util *)
| sw_boxed W Req Resp Err clk lag T rdy (svc : Service W Req Resp Err) :
    swift clk lag T rdy svc -> swift clk lag T rdy (boxed svc)
| sw_map_request W Req Req' Resp Err clk lag T rdy (svc : Service W Req Resp Err) (f : Req' -> M W Req) :
    swift clk lag T rdy svc -> (forall r, still clk (f r)) -> swift clk lag T rdy (map_request f svc)
| sw_map_response W Req Resp Resp' Err clk lag T rdy (svc : Service W Req Resp Err) (f : Resp -> M W Resp') :
    swift clk lag T rdy svc -> (forall r, still clk (f r)) -> swift clk lag T rdy (map_response f svc)
| sw_map_err W Req Resp Err Err' clk lag T rdy (svc : Service W Req Resp Err) (f : Err -> M W Err') :
    swift clk lag T rdy svc -> (forall r, still clk (f r)) -> swift clk lag T rdy (map_err f svc)
| sw_map_result W Req Resp Err Resp' Err' clk lag T rdy (svc : Service W Req Resp Err)
    (into : Err -> Err') (f : result Resp Err -> M W (result Resp' Err')) :
    swift clk lag T rdy svc -> (forall r, still clk (f r)) -> swift clk lag T rdy (map_result into f svc)
| sw_then W Req Resp Err Resp' Err' clk lag T d rdy (svc : Service W Req Resp Err)
    (into : Err -> Err') (K : Task W (result Resp' Err')) (f : result Resp Err -> M W (tst K)) :
    swift clk lag T rdy svc -> 0 <= d -> still_task clk K -> (forall x, still clk (f x)) -> swift_task clk lag d K f ->
    swift clk lag (T + lag + d) rdy (then_ into K f svc)
| sw_and_then W Req Resp Err Resp' Err' clk lag T d rdy (svc : Service W Req Resp Err)
    (into : Err -> Err') (K : Task W (result Resp' Err')) (f : Resp -> M W (tst K)) :
    swift clk lag T rdy svc -> 0 <= d -> still_task clk K -> (forall x, still clk (f x)) -> swift_task clk lag d K f ->
    swift clk lag (T + lag + d) rdy (and_then into K f svc)
| sw_either W Req Resp Err clk lag T rdy (a b : Service W Req Resp Err) :
    swift clk lag T rdy a -> swift clk lag T rdy b -> swift clk lag T rdy (either a b)
| sw_optional W Req Resp Err clk lag T rdy (svc : Service W Req Resp Err) :
    swift clk lag T rdy svc -> swift clk lag T rdy (optional svc)
| sw_future_service W Req Resp Err clk lag T rdy (svc : Service W Req Resp Err)
    (K : Task W (result (st svc) Err)) (tclone : tst K -> M W (tst K)) :
    swift clk lag T rdy svc -> still_task clk K -> (forall t, still clk (tclone t)) ->
    swift clk lag T false (future_service svc K tclone)
(* middleware *)
| sw_timeout W Req Resp Err clk lag (svc : Service W Req Resp Err) (rt : Rt W) dur :
    direct clk 0 svc -> 0 <= dur -> (forall d, same clk (nap rt d)) -> on_time clk rt ->
    swift clk lag dur false (timeout rt dur svc)
| sw_timeout_keeps W Req Resp Err clk lag T rdy (svc : Service W Req Resp Err) (rt : Rt W) dur :
    swift clk lag T rdy svc -> 0 <= dur -> (forall d, same clk (nap rt d)) -> on_time clk rt ->
    swift clk lag (Z.min T dur) rdy (timeout rt dur svc)
| sw_load_shed W Req Resp Err clk lag T rdy (svc : Service W Req Resp Err) :
    swift clk lag T rdy svc -> swift clk lag T true (load_shed svc)
| sw_filter W Req Req' Resp Err P PErr clk lag T rdy (svc : Service W Req Resp Err)
    (check : P -> Req' -> M W (P * result Req PErr)) pclone :
    swift clk lag T rdy svc -> (forall p r, still clk (check p r)) -> (forall p, still clk (pclone p)) ->
    swift clk lag T rdy (filter svc check pclone)
| sw_async_filter W Req Req' Resp Err P PErr clk lag T d rdy (svc : Service W Req Resp Err)
    (K : Task W (result Req PErr)) (check : P -> Req' -> M W (P * tst K)) pclone :
    swift clk lag T rdy svc -> 0 <= d -> still_task clk K ->
    (forall p r, still clk (check p r)) -> (forall p, still clk (pclone p)) ->
    (forall p r w w1 p1 t, check p r w = (w1, Val (p1, t)) -> quick clk lag (tpoll K) (clk w + d) (clk w) t) ->
    swift clk lag (d + lag + T) rdy (async_filter svc K check pclone)
(* [left p r]: how many more retries the policy in state [p] may grant to the request [r]; [d]: how long it may
   wait before one *)
| sw_retry W Req Resp Err clk lag T d (svc : Service W Req Resp Err) (pol : Policy W Req Resp Err)
    fuel n (left : pst pol -> Req -> nat) :
    swift clk lag T true svc -> 0 <= d -> still_task clk (pfut pol) ->
    (forall p r, still clk (clone_request pol p r)) -> (forall p r v, still clk (retry_decide pol p r v)) ->
    (forall p, still clk (pol_clone pol p)) ->
    (forall p r, (left p r <= n)%nat) ->
    (forall p r w w1 p1 r1, clone_request pol p r w = (w1, Val (p1, Some r1)) -> (left p1 r1 <= left p r)%nat) ->
    (forall p r v w w1 p1 r1 v1 t, retry_decide pol p r v w = (w1, Val (p1, r1, v1, Some t)) ->
       (left p1 r1 < left p r)%nat /\ quick clk lag (tpoll (pfut pol)) (clk w + d) (clk w) t) ->
    swift clk lag (T + Z.of_nat n * (T + lag + (d + lag))) true (retry pol svc fuel)
| sw_steer W Req Resp Err P clk lag T rdy (svc : Service W Req Resp Err)
    (pick : P -> Req -> list (st svc) -> M W (P * nat)) pclone :
    swift clk lag T rdy svc -> (forall q r l, still clk (pick q r l)) -> (forall q, still clk (pclone q)) ->
    swift clk lag T rdy (steer svc pick pclone)
| sw_reconnect W Tgt Req Resp Err MErr clk lag T rdy (svc : Service W Req Resp Err)
    (mk : Service W Tgt (st svc) MErr) target fuel :
    swift clk lag T rdy svc -> apart clk mk -> swift clk lag T false (reconnect svc mk target fuel)
| sw_rate_limit W Req Resp Err clk lag T rdy (svc : Service W Req Resp Err) (rt : Rt W) rate :
    swift clk lag T rdy svc -> (forall d, same clk (nap rt d)) -> swift clk lag T false (rate_limit rt rate svc)
| sw_conc_limit W Req Resp Err clk lag T rdy (svc : Service W Req Resp Err) closed debug :
    swift clk lag T rdy svc -> swift (fun x => clk (snd x)) lag T false (conc_limit svc closed debug)
(* the first request alone bounds the time *)
| sw_hedge W Req Resp Err clk lag T rdy (svc : Service W Req Resp Err) (rt : Rt W)
    clone_request can_retry mdp quantile getH setH :
    swift clk lag T rdy svc -> (forall d, same clk (nap rt d)) -> (forall h, same clk (setH h)) ->
    swift clk lag T rdy (hedge rt svc clone_request can_retry mdp quantile getH setH)
(* makers *)
| sw_shared W Tgt Req Resp Err clk lag k (svc : Service W Req Resp Err) :
    direct clk k svc -> swift clk lag 0 true (shared (Tgt := Tgt) svc)
| sw_into_service W Tgt Made MErr clk lag T rdy (mk : Service W Tgt Made MErr) :
    swift clk lag T rdy mk -> swift clk lag T rdy (into_service mk)
| sw_as_service W Tgt Made MErr clk lag T rdy (mk : Service W Tgt Made MErr) :
    swift clk lag T rdy mk -> swift clk lag T rdy (as_service mk)
| sw_make_balance W K Req Resp Err DErr G Tgt MErr clk lag T rdy (svc : Service W Req Resp Err)
    (D : Discover W K (st svc) DErr) (mk : Service W Tgt (dst D) MErr) (g0 : M W G) :
    swift clk lag T rdy mk -> still clk g0 -> swift clk lag T rdy (make_balance svc D mk g0)
(* load measurement *)
| sw_constant W Req Resp Err Met clk lag T rdy (svc : Service W Req Resp Err) :
    swift clk lag T rdy svc -> swift clk lag T rdy (constant (M' := Met) svc)
| sw_tracked_load W Req Resp Err C H clk lag T rdy (svc : Service W Req Resp Err)
    (start : M W H) (finish : H -> C -> W -> C * W) (keep : Resp -> W -> W * bool) :
    swift clk lag T rdy svc -> still clk start ->
    (forall t c, same clk (fun w => snd (finish t c w))) -> (forall v, same clk (fun w => fst (keep v w))) ->
    swift (fun x => clk (snd x)) lag T rdy (tracked_load svc start finish keep)
| sw_spawn_ready W Req Resp Err clk lag T rdy (svc : Service W Req Resp Err) (bg : W -> W * nat) fuel :
    swift clk lag T rdy svc -> same clk (fun w => fst (bg w)) -> swift clk lag T false (spawn_ready svc bg fuel)
| sw_balance W K Req Resp Err DErr Met G (keq : forall a b : K, {a = b} + {a <> b}) clk lag T rdy
    (svc : Service W Req Resp Err) (D : Discover W K (st svc) DErr) sched
    (next_u64 : G -> M W (G * Z)) debug (load : st svc -> M W Met) le fuel :
    swift clk lag T rdy svc ->
    (forall d, still clk (poll_discover D d)) -> (forall d, same clk (ddrop D d)) ->
    (forall l, same clk (fun w => fst (sched l w))) ->
    (forall g, still clk (next_u64 g)) -> (forall s, still clk (load s)) ->
    swift clk lag T false (balance keq svc D sched next_u64 debug load le fuel).

(** How the environment behaves between two polls: time passes, at most [lag] of it. *)
Definition prompt {W} (clk : W -> Z) (lag : Z) (g : W -> W) : Prop := forall w, clk w <= clk (g w) <= clk w + lag.
