(** Specification for C66: nothing hangs in a stack of tower middleware that would not hang without it. *)
From Verif Require Import Base Util ReadyCache Load Make SpawnReady Middleware Limits Hedge MeterSpec.
Set Implicit Arguments.

(** [m] comes back (or panics) whatever the world is, and what it comes back with satisfies [P]. *)
Definition gives {W A} (m : M W A) (P : A -> Prop) : Prop :=
  forall w, match snd (m w) with Val a => P a | Panic => True | Diverge => False end.

(** [reaches poll P x]: polled again and again, whatever happens to the world in between, [x] answers after
    finitely many polls, all of which come back; the answer satisfies [P]. *)
Inductive reaches {W X O} (poll : X -> M W (X * poll O)) (P : O -> Prop) : X -> Prop :=
| Reaches x :
    (forall w, snd (poll x w) <> Diverge) ->
    (forall w w1 x1, poll x w = (w1, Val (x1, Pending)) -> reaches poll P x1) ->
    (forall w w1 x1 o, poll x w = (w1, Val (x1, Ready o)) -> P o) ->
    reaches poll P x.
Notation answers poll := (reaches poll (fun _ => True)).

(** A service whose response futures all answer and, if [rdy], that always becomes ready (or fails). [R]: the
    states it can be in. *)
Record Lively {W Req Resp Err} (rdy : bool) (svc : Service W Req Resp Err) (R : st svc -> Prop) : Prop := {
  lv_ready : forall s, R s -> gives (poll_ready svc s) (fun x => R (fst x));
  lv_becomes_ready : rdy = true -> forall s, R s -> answers (poll_ready svc) s;
  lv_call : forall s r, R s -> gives (call svc s r) (fun x => R (fst x) /\ answers (poll_fut svc) (snd x));
  lv_clone : forall s, R s -> gives (clone svc s) R }.

(** Stacks over such services; [I]: their fresh instances.  Closures and predicates must return, user-supplied
    futures answer, and retry policies give up at some point.  The readiness of RateLimit and ConcurrencyLimit
    depends on the clock and on other users, hence the [false]. *)
Inductive live : forall (W Req Resp Err : Type) (rdy : bool) (svc : Service W Req Resp Err), (st svc -> Prop) -> Prop :=
| li_base W Req Resp Err rdy (svc : Service W Req Resp Err) R : Lively rdy svc R -> live rdy svc R
| li_service_fn W Req Resp Err (T : Task W (result Resp Err)) (f : Req -> M W (tst T)) :
    (forall r, gives (f r) (answers (tpoll T))) -> live true (service_fn T f) (fun _ => True)
| li_weaken W Req Resp Err rdy (svc : Service W Req Resp Err) (I I' : st svc -> Prop) :
    live rdy svc I -> (forall s, I' s -> I s) -> live rdy svc I'
| li_forget W Req Resp Err rdy (svc : Service W Req Resp Err) I : live rdy svc I -> live false svc I
(* tower::util *)
| li_boxed W Req Resp Err rdy (svc : Service W Req Resp Err) I : live rdy svc I -> live rdy (boxed svc) I
| li_map_request W Req Req' Resp Err rdy (svc : Service W Req Resp Err) I (f : Req' -> M W Req) :
    live rdy svc I -> (forall r, gives (f r) (fun _ => True)) -> live rdy (map_request f svc) I
| li_map_response W Req Resp Resp' Err rdy (svc : Service W Req Resp Err) I (f : Resp -> M W Resp') :
    live rdy svc I -> (forall r, gives (f r) (fun _ => True)) -> live rdy (map_response f svc) I
| li_map_err W Req Resp Err Err' rdy (svc : Service W Req Resp Err) I (f : Err -> M W Err') :
    live rdy svc I -> (forall r, gives (f r) (fun _ => True)) -> live rdy (map_err f svc) I
| li_map_result W Req Resp Err Resp' Err' rdy (svc : Service W Req Resp Err) I
    (into : Err -> Err') (f : result Resp Err -> M W (result Resp' Err')) :
    live rdy svc I -> (forall r, gives (f r) (fun _ => True)) -> live rdy (map_result into f svc) I
| li_map_future W Req Resp Err Resp' Err' rdy (svc : Service W Req Resp Err) I
    (into : Err -> Err') (T : Task W (result Resp' Err')) (f : fut svc -> M W (tst T)) :
    live rdy svc I -> (forall x, answers (poll_fut svc) x -> gives (f x) (answers (tpoll T))) ->
    live rdy (map_future into svc T f) I
| li_then W Req Resp Err Resp' Err' rdy (svc : Service W Req Resp Err) I
    (into : Err -> Err') (T : Task W (result Resp' Err')) (f : result Resp Err -> M W (tst T)) :
    live rdy svc I -> (forall x, gives (f x) (answers (tpoll T))) -> live rdy (then_ into T f svc) I
| li_and_then W Req Resp Err Resp' Err' rdy (svc : Service W Req Resp Err) I
    (into : Err -> Err') (T : Task W (result Resp' Err')) (f : Resp -> M W (tst T)) :
    live rdy svc I -> (forall x, gives (f x) (answers (tpoll T))) -> live rdy (and_then into T f svc) I
| li_either W Req Resp Err rdy (a b : Service W Req Resp Err) Ia Ib :
    live rdy a Ia -> live rdy b Ib -> live rdy (either a b) (fun s => match s with inl x => Ia x | inr y => Ib y end)
| li_optional W Req Resp Err rdy (svc : Service W Req Resp Err) I :
    live rdy svc I -> live rdy (optional svc) (fun s => match s with Some x => I x | None => True end)
| li_future_service W Req Resp Err rdy (svc : Service W Req Resp Err) I
    (T : Task W (result (st svc) Err)) (tclone : tst T -> M W (tst T)) (VT : tst T -> Prop) :
    live rdy svc I ->
    (forall t, VT t -> reaches (tpoll T) (fun r => match r with Ok s => I s | Er _ => True end) t) ->
    (forall t, VT t -> gives (tpoll T t) (fun x => VT (fst x))) ->
    (forall t, VT t -> gives (tclone t) VT) ->
    live rdy (future_service svc T tclone) (fun s => match s with inl t => VT t | inr s => I s end)
(* middleware *)
| li_timeout W Req Resp Err rdy (svc : Service W Req Resp Err) I (rt : Rt W) dur :
    live rdy svc I -> live rdy (timeout rt dur svc) I
| li_load_shed W Req Resp Err rdy (svc : Service W Req Resp Err) I :
    live rdy svc I -> live true (load_shed svc) (fun s => exists x, I x /\ s = load_shed_new svc x)
| li_filter W Req Req' Resp Err P PErr rdy (svc : Service W Req Resp Err) I
    (check : P -> Req' -> M W (P * result Req PErr)) pclone :
    live rdy svc I -> (forall p r, gives (check p r) (fun _ => True)) -> (forall p, gives (pclone p) (fun _ => True)) ->
    live rdy (filter svc check pclone) (fun s => I (fst s))
| li_async_filter W Req Req' Resp Err P PErr rdy (svc : Service W Req Resp Err) I
    (T : Task W (result Req PErr)) (check : P -> Req' -> M W (P * tst T)) pclone :
    live rdy svc I -> (forall p r, gives (check p r) (fun x => answers (tpoll T) (snd x))) ->
    (forall p, gives (pclone p) (fun _ => True)) ->
    live rdy (async_filter svc T check pclone) (fun s => I (fst s))
(* [left p r]: how many more retries the policy in state [p] may grant to the request [r] *)
| li_retry W Req Resp Err (svc : Service W Req Resp Err) I (pol : Policy W Req Resp Err)
    fuel n (VP : pst pol -> Prop) (left : pst pol -> Req -> nat) :
    live true svc I -> 3 * n + 3 <= fuel ->
    (forall p r, VP p -> left p r <= n) ->
    (forall p r, VP p -> gives (clone_request pol p r)
       (fun x => VP (fst x) /\ match snd x with Some r1 => left (fst x) r1 <= left p r | None => True end)) ->
    (forall p r v, VP p -> gives (retry_decide pol p r v)
       (fun x => VP (fst (fst (fst x))) /\
                 match snd x with
                 | Some t => answers (tpoll (pfut pol)) t /\ left (fst (fst (fst x))) (snd (fst (fst x))) < left p r
                 | None => True
                 end)) ->
    (forall p, VP p -> gives (pol_clone pol p) (fun p1 => VP p1 /\ forall r, left p1 r <= left p r)) ->
    live true (retry pol svc fuel) (fun s => VP (fst s) /\ I (snd s))
| li_steer W Req Resp Err P rdy (svc : Service W Req Resp Err) I
    (pick : P -> Req -> list (st svc) -> M W (P * nat)) pclone :
    live rdy svc I -> (forall q r l, gives (pick q r l) (fun _ => True)) -> (forall q, gives (pclone q) (fun _ => True)) ->
    live rdy (steer svc pick pclone) (fun s => exists q l, s = steer_new svc l q /\ Forall I l)
| li_rate_limit W Req Resp Err rdy (svc : Service W Req Resp Err) I (rt : Rt W) rate :
    live rdy svc I ->
    live false (rate_limit rt rate svc) (fun s => exists x w w1, I x /\ rate_limit_new rt rate svc x w = (w1, Val s))
| li_conc_limit W Req Resp Err rdy (svc : Service W Req Resp Err) I closed debug :
    live rdy svc I -> live false (conc_limit svc closed debug) (fun s => exists x, I x /\ s = conc_new svc x)
(* a new connection does not fail at once (C66_reconnect_spins_refuted), and gets ready if it is to be waited for *)
| li_reconnect W Tgt Req Resp Err MErr rdy (svc : Service W Req Resp Err) I (mk : Service W Tgt (st svc) MErr) target fuel
    (VM : st mk -> Prop) :
    live rdy svc I -> 4 <= fuel ->
    (forall c, I c -> gives (poll_ready svc c) (fun x => match snd x with Ready (Er _) => False | _ => True end)) ->
    (rdy = true -> forall c, I c -> reaches (poll_ready svc) (fun a => a = Ok tt) c) ->
    (forall m, VM m -> gives (poll_ready mk m) (fun x => VM (fst x))) ->
    (rdy = true -> forall m, VM m -> answers (poll_ready mk) m) ->
    (forall m, VM m -> gives (call mk m target)
       (fun x => VM (fst x) /\ reaches (poll_fut mk) (fun a => match a with Ok c => I c | Er _ => True end) (snd x))) ->
    live rdy (reconnect svc mk target fuel)
      (fun s => exists m, VM m /\ (s = reconnect_new svc mk m \/ exists c, I c /\ s = reconnect_with_connection svc mk c m))
(* a service that said ready does not take it back ([kept]: the states after that; otherwise C28_poll_returns_refuted); the runtime
   polls the background task at least once before each look at it, if its readiness is to be waited for *)
| li_spawn_ready W Req Resp Err rdy (svc : Service W Req Resp Err) I (bg : W -> W * nat) fuel (kept : st svc -> Prop) :
    live rdy svc I -> 3 <= fuel ->
    (forall s w w1 s1, poll_ready svc s w = (w1, Val (s1, Ready (Ok tt))) -> kept s1) ->
    (forall s w w1 s1, kept s -> poll_ready svc s w <> (w1, Val (s1, Pending))) ->
    (rdy = true -> forall w, 1 <= snd (bg w)) ->
    live rdy (spawn_ready svc bg fuel) (fun s => exists x, I x /\ s = spawn_ready_new svc x)
(* the duplicate may be held back for ever; the original is not *)
| li_hedge W Req Resp Err rdy (svc : Service W Req Resp Err) I (rt : Rt W)
    clone_request can_retry mdp quantile getH setH :
    live rdy svc I ->
    live rdy (hedge rt svc clone_request can_retry mdp quantile getH setH)
      (fun s => exists x w w1, I x /\ hedge_new rt svc clone_request can_retry mdp quantile getH setH x w = (w1, Val s))
(* makers *)
| li_shared W Tgt Req Resp Err rdy (svc : Service W Req Resp Err) I :
    live rdy svc I -> live true (shared (Tgt := Tgt) svc) I
| li_into_service W Tgt Made MErr rdy (mk : Service W Tgt Made MErr) I : live rdy mk I -> live rdy (into_service mk) I
| li_as_service W Tgt Made MErr rdy (mk : Service W Tgt Made MErr) I : live rdy mk I -> live rdy (as_service mk) I
| li_make_balance W K Req Resp Err DErr G Tgt MErr rdy (svc : Service W Req Resp Err)
    (D : Discover W K (st svc) DErr) (mk : Service W Tgt (dst D) MErr) I (g0 : M W G) :
    live rdy mk I -> gives g0 (fun _ => True) -> live rdy (make_balance svc D mk g0) I
(* [left d]: how many announcements the discovery can still make in a row; one that never stops keeps [poll_ready] busy for ever *)
| li_balance W K Req Resp Err DErr Met G (keq : forall a b : K, {a = b} + {a <> b}) rdy
    (svc : Service W Req Resp Err) I (D : Discover W K (st svc) DErr) sched
    (next_u64 : G -> M W (G * Z)) debug (load : st svc -> M W Met) le fuel (VD : dst D -> Prop) (left : dst D -> nat) :
    live rdy svc I -> (forall d, VD d -> left d < fuel) ->
    (forall d, VD d -> gives (poll_discover D d)
       (fun x => VD (fst x) /\
                 match snd x with
                 | Ready (Some a) => left (fst x) < left d /\ match a with Ok (Insert _ s) => I s | _ => True end
                 | _ => True
                 end)) ->
    (forall g, gives (next_u64 g) (fun _ => True)) -> (forall s, gives (load s) (fun _ => True)) ->
    live false (balance keq svc D sched next_u64 debug load le fuel) (fun s => exists d g, VD d /\ s = balance_new svc D d g)
(* load measurement *)
| li_constant W Req Resp Err Met rdy (svc : Service W Req Resp Err) I :
    live rdy svc I -> live rdy (constant (M' := Met) svc) (fun s => I (fst s))
| li_tracked_load W Req Resp Err C T rdy (svc : Service W Req Resp Err) I
    (start : M W T) (finish : T -> C -> W -> C * W) (keep : Resp -> W -> W * bool) :
    live rdy svc I -> gives start (fun _ => True) -> live rdy (tracked_load svc start finish keep) I.

(** Polling up to [n] times, the world changing as it likes before each poll: is there an answer (or a panic)? *)
Section Polls.
  Context {W X O : Type} (step : X -> M W (X * poll O)) (env : nat -> W -> W).
  Fixpoint answered_within (n k : nat) (x : X) (w : W) : bool :=
    match n with
    | 0 => false
    | S n' =>
        match step x (env k w) with
        | (w1, Val (x1, Pending)) => answered_within n' (S k) x1 w1
        | (_, Val (_, Ready _)) => true
        | (_, Panic) => true
        | (_, Diverge) => false
        end
    end.
End Polls.
