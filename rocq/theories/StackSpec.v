(** Specification for C01/C02: which services can be built by stacking tower
    middleware on top of an arbitrary well-behaved service that *polices* the
    [Service] contract ([guard]). *)
From Verif Require Import Base ContractSpec Buffer BufSvc Util ReadyCache SpawnReady Load Make Middleware Limits Hedge DocCode.
Set Implicit Arguments.

(** What is claimed about a stack: [c_div] some loop in it may spin for ever;
    [c_stk] its readiness persists; [c_cl] its clones are usable. *)
Record caps := Caps { c_div : bool; c_stk : bool; c_cl : bool }.

(** [caps_le c' c]: [c'] claims no more than [c]. *)
Definition caps_le (c' c : caps) : Prop :=
  (c_div c = true -> c_div c' = true) /\ (c_stk c' = true -> c_stk c = true) /\
  (c_cl c' = true -> c_cl c = true).

(** [stack c svc I]: [svc] is a stack with claims [c]; [I] are its fresh
    instances.  User-supplied closures, policies and futures are assumed to
    return normally ([quiet], [gives], [task_ok]) - nothing else about them. *)
Inductive stack : forall (c : caps) (W Req Resp Err : Type) (svc : Service W Req Resp Err),
    (st svc -> Prop) -> Prop :=
(* the bottom: any service at all, supervised *)
| stk_base W Req Resp Err (svc : Service W Req Resp Err) dv stk :
    never_panics svc -> (dv = false -> never_diverges svc) -> (stk = true -> keeps_ready svc) ->
    stack (Caps dv stk true) (guard svc) (fun s => fst s = Idle)
| stk_service_fn W Req Resp Err (T : Task W (result Resp Err)) (f : Req -> M W (tst T)) VT :
    task_ok T VT -> (forall r, gives (f r) VT) ->
    stack (Caps false true true) (service_fn T f) (fun _ => True)
(* a supervisor may also be put between any two layers *)
| stk_guard c W Req Resp Err (svc : Service W Req Resp Err) I :
    stack c svc I -> stack c (guard svc) (fun s => fst s = Idle /\ I (snd s))
(* claiming less *)
| stk_weaken c c' W Req Resp Err (svc : Service W Req Resp Err) (I I' : st svc -> Prop) :
    stack c svc I -> caps_le c' c -> (forall s, I' s -> I s) -> stack c' svc I'
(* the combinators of tower::util *)
| stk_boxed c W Req Resp Err (svc : Service W Req Resp Err) I :
    stack c svc I -> stack c (boxed svc) I
| stk_map_request c W Req Req' Resp Err (svc : Service W Req Resp Err) I (f : Req' -> M W Req) :
    stack c svc I -> (forall r, quiet (f r)) -> stack c (map_request f svc) I
| stk_map_response c W Req Resp Resp' Err (svc : Service W Req Resp Err) I (f : Resp -> M W Resp') :
    stack c svc I -> (forall r, quiet (f r)) -> stack c (map_response f svc) I
| stk_map_err c W Req Resp Err Err' (svc : Service W Req Resp Err) I (f : Err -> M W Err') :
    stack c svc I -> (forall r, quiet (f r)) -> stack c (map_err f svc) I
| stk_map_result c W Req Resp Err Resp' Err' (svc : Service W Req Resp Err) I
    (into : Err -> Err') (f : result Resp Err -> M W (result Resp' Err')) :
    stack c svc I -> (forall r, quiet (f r)) -> stack c (map_result into f svc) I
| stk_map_future c W Req Resp Err Resp' Err' (svc : Service W Req Resp Err) I
    (into : Err -> Err') (T : Task W (result Resp' Err')) (f : fut svc -> M W (tst T)) VT :
    stack c svc I -> task_ok T VT ->
    (forall s0 x, I s0 -> in_flight (c_cl c) svc s0 x -> gives (f x) VT) ->
    stack c (map_future into svc T f) I
| stk_then c W Req Resp Err Resp' Err' (svc : Service W Req Resp Err) I
    (into : Err -> Err') (T : Task W (result Resp' Err')) (f : result Resp Err -> M W (tst T)) VT :
    stack c svc I -> task_ok T VT -> (forall x, gives (f x) VT) ->
    stack c (then_ into T f svc) I
| stk_and_then c W Req Resp Err Resp' Err' (svc : Service W Req Resp Err) I
    (into : Err -> Err') (T : Task W (result Resp' Err')) (f : Resp -> M W (tst T)) VT :
    stack c svc I -> task_ok T VT -> (forall x, gives (f x) VT) ->
    stack c (and_then into T f svc) I
| stk_either c W Req Resp Err (a b : Service W Req Resp Err) Ia Ib :
    stack c a Ia -> stack c b Ib ->
    stack c (either a b) (fun s => match s with inl x => Ia x | inr y => Ib y end)
| stk_optional c W Req Resp Err (svc : Service W Req Resp Err) I :
    stack c svc I ->
    stack c (optional svc) (fun s => match s with Some x => I x | None => True end)
| stk_future_service c W Req Resp Err (svc : Service W Req Resp Err) I
    (T : Task W (result (st svc) Err)) (tclone : tst T -> M W (tst T)) VT :
    stack c svc I -> task_ok T VT ->
    (forall t w w1 t1 s, tpoll T t w = (w1, Val (t1, Ready (Ok s))) -> I s) ->
    (forall t, VT t -> gives (tclone t) VT) ->
    stack c (future_service svc T tclone) (fun s => match s with inl t => VT t | inr s => I s end)
(* middleware *)
| stk_timeout c W Req Resp Err (svc : Service W Req Resp Err) I (rt : Rt W) dur :
    stack c svc I -> stack c (timeout rt dur svc) I
| stk_load_shed c W Req Resp Err (svc : Service W Req Resp Err) I :
    stack c svc I ->
    stack (Caps (c_div c) true (c_cl c)) (load_shed svc)
      (fun s => exists x, I x /\ s = load_shed_new svc x)
| stk_filter c W Req Req' Resp Err P PErr (svc : Service W Req Resp Err) I
    (check : P -> Req' -> M W (P * result Req PErr)) pclone :
    stack c svc I -> (forall p r, quiet (check p r)) -> (forall p, quiet (pclone p)) ->
    stack c (filter svc check pclone) (fun s => I (fst s))
| stk_async_filter c W Req Req' Resp Err P PErr (svc : Service W Req Resp Err) I
    (T : Task W (result Req PErr)) (check : P -> Req' -> M W (P * tst T)) pclone VT :
    stack c svc I -> c_cl c = true -> task_ok T VT ->
    (forall p r, gives (check p r) (fun x => VT (snd x))) -> (forall p, quiet (pclone p)) ->
    stack c (async_filter svc T check pclone) (fun s => I (fst s))
| stk_retry c W Req Resp Err (svc : Service W Req Resp Err) I (pol : Policy W Req Resp Err) fuel VT :
    stack c svc I -> c_cl c = true -> task_ok (pfut pol) VT ->
    (forall p r, quiet (clone_request pol p r)) ->
    (forall p r v, gives (retry_decide pol p r v)
                     (fun x => match snd x with Some t => VT t | None => True end)) ->
    (forall p, quiet (pol_clone pol p)) ->
    stack (Caps true (c_stk c) true) (retry pol svc fuel) (fun s => I (snd s))
(* Steer's clones are not usable (see C27), hence [false] *)
| stk_steer c W Req Resp Err P (svc : Service W Req Resp Err) I
    (pick : P -> Req -> list (st svc) -> M W (P * nat)) pclone :
    stack c svc I ->
    (forall q r l, 0 < length l -> gives (pick q r l) (fun x => snd x < length l)) ->
    stack (Caps (c_div c) true false) (steer svc pick pclone)
      (fun s => exists q l, s = steer_new svc l q /\ l <> [] /\ Forall I l)
| stk_reconnect c W Tgt Req Resp Err MErr (svc : Service W Req Resp Err) I
    (mk : Service W Tgt (st svc) MErr) Im target fuel :
    stack c svc I -> stack c mk Im ->
    (forall f w w1 f1 s, poll_fut mk f w = (w1, Val (f1, Ready (Ok s))) -> I s) ->
    stack (Caps true false false) (reconnect svc mk target fuel)
      (fun s => (exists m, Im m /\ s = reconnect_new svc mk m) \/
                (exists x m, I x /\ Im m /\ s = reconnect_with_connection svc mk x m))
| stk_rate_limit c W Req Resp Err (svc : Service W Req Resp Err) I (rt : Rt W) rate :
    stack c svc I ->
    stack (Caps (c_div c) (c_stk c) false) (rate_limit rt rate svc)
      (fun s => exists x w w1, I x /\ rate_limit_new rt rate svc x w = (w1, Val s))
| stk_conc_limit c W Req Resp Err (svc : Service W Req Resp Err) I debug :
    stack c svc I ->
    stack c (conc_limit svc (fun _ => false) debug)
      (fun s => exists x, I x /\ s = conc_new svc x)
| stk_hedge c W Req Resp Err (svc : Service W Req Resp Err) I (rt : Rt W)
    clone_request can_retry mdp quantile getH setH :
    stack c svc I -> c_cl c = true ->
    (forall w, nanos (h_period (getH w)) <> 0%Z) ->
    stack (Caps (c_div c) (c_stk c) false)
      (hedge rt svc clone_request can_retry mdp quantile getH setH)
      (fun s => exists x w w1, I x /\
         hedge_new rt svc clone_request can_retry mdp quantile getH setH x w = (w1, Val s))
(* makers: Shared hands out clones; the adapters of make_service.rs; MakeBalance *)
| stk_shared c W Tgt Req Resp Err (svc : Service W Req Resp Err) I :
    stack c svc I -> c_cl c = true -> stack (Caps (c_div c) true true) (shared (Tgt := Tgt) svc) I
| stk_into_service c W Tgt Made MErr (mk : Service W Tgt Made MErr) I :
    stack c mk I -> stack c (into_service mk) I
| stk_as_service c W Tgt Made MErr (mk : Service W Tgt Made MErr) I :
    stack c mk I -> stack (Caps (c_div c) (c_stk c) false) (as_service mk) I
| stk_make_balance c W K Req Resp Err DErr G Tgt MErr (svc : Service W Req Resp Err)
    (D : Discover W K (st svc) DErr) (mk : Service W Tgt (dst D) MErr) I (g0 : M W G) :
    stack c mk I -> quiet g0 -> stack c (make_balance svc D mk g0) I
(* load measurement; PendingRequests and PeakEwma are both [tracked_load] *)
| stk_constant c W Req Resp Err Met (svc : Service W Req Resp Err) I :
    stack c svc I ->
    stack (Caps (c_div c) (c_stk c) false) (constant (M' := Met) svc) (fun s => I (fst s))
| stk_tracked_load c W Req Resp Err C T (svc : Service W Req Resp Err) I
    (start : M W T) (finish : T -> C -> W -> C * W) (keep : Resp -> W -> W * bool) :
    stack c svc I -> quiet start ->
    stack (Caps (c_div c) (c_stk c) false) (tracked_load svc start finish keep) I
(* the middleware of the documentation *)
| stk_wrap_take c W Req Resp Err (svc : Service W Req Resp Err) I :
    stack c svc I -> c_cl c = true -> stack (Caps (c_div c) (c_stk c) false) (wrap_take svc) I
| stk_log_service c W Req Resp Err (svc : Service W Req Resp Err) I print :
    stack c svc I -> stack (Caps (c_div c) (c_stk c) false) (log_service print svc) I
| stk_timeout_doc c W Req Resp Err (svc : Service W Req Resp Err) I (rt : Rt W) dur coin :
    stack c svc I -> quiet coin -> stack (Caps (c_div c) (c_stk c) false) (timeout_doc rt dur svc coin) I
| stk_timeout_guide c W Req Resp Err (svc : Service W Req Resp Err) I (rt : Rt W) dur :
    stack c svc I -> stack c (timeout_guide rt dur svc) I
(* SpawnReady, the runtime polling its task any number of times (and not cancelling it) *)
| stk_spawn_ready c W Req Resp Err (svc : Service W Req Resp Err) I (bg : W -> W * nat) fuel :
    stack c svc I ->
    stack (Caps true (c_stk c) false) (spawn_ready svc bg fuel) (fun s => exists x, I x /\ s = spawn_ready_new svc x)
(* Buffer: its worker, its other handles, its futures and the rest of the world moving in any order, before, between and
   in the middle of (C78) the operations on a handle *)
| stk_buffer c W Req Resp Err (svc : Service W Req Resp Err) I s0 others coop :
    stack c svc I -> I s0 ->
    stack (Caps (c_div c) true true) (@buffer_service W Req Resp Err (c_cl c) svc s0 others coop) (fun s => snd s = PsIdle)
(* Balance over any discovery ([VD]: its states) that announces fresh instances
   under less than 2^64 different keys *)
| stk_balance c W K Req Resp Err DErr Met G (keq : forall a b : K, {a = b} + {a <> b})
    (svc : Service W Req Resp Err) I (D : Discover W K (st svc) DErr) sched
    (next_u64 : G -> M W (G * Z)) debug (load : st svc -> M W Met) le fuel (ks : list K) (VD : dst D -> Prop) :
    stack c svc I ->
    (Z.of_nat (length ks) < 2 ^ 64)%Z ->
    (forall d, VD d -> gives (poll_discover D d)
       (fun x => VD (fst x) /\
          match snd x with Ready (Some (Ok (Insert k s))) => In k ks /\ I s | _ => True end)) ->
    (forall g, quiet (next_u64 g)) -> (forall s, quiet (load s)) ->
    stack (Caps true false false) (balance keq svc D sched next_u64 debug load le fuel)
      (fun s => exists d g, VD d /\ s = balance_new svc D d g).
