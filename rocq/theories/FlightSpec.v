(** Specification for C65: how many requests to the service at the bottom of a stack are in flight, and what
    becomes of them when response futures are dropped. *)
From Verif Require Import Base Util ReadyCache SpawnReady Load Make Middleware Limits Hedge MeterSpec.
Set Implicit Arguments.
Local Open Scope Z_scope.

(** [live w]: how many response futures of that service exist - obtained from a [call], not dropped yet. *)
Record flies {W Req Resp Err} (live : W -> Z) (svc : Service W Req Resp Err) : Prop := {
  fl_ready : forall s, still live (poll_ready svc s);
  fl_call : forall s r w w1 x, call svc s r w = (w1, Val x) -> live w1 = live w + 1;
  fl_poll : forall f, still live (poll_fut svc f);
  fl_clone : forall s, still live (clone svc s);
  fl_drop_svc : forall s, same live (drop_svc svc s);
  fl_drop_fut : forall f w, live (drop_fut svc f w) = live w - 1 }.

(** A service (a connector, say) that does not reach that one. *)
Record apart {W Req Resp Err} (live : W -> Z) (svc : Service W Req Resp Err) : Prop := {
  ap_ready : forall s, still live (poll_ready svc s);
  ap_call : forall s r, still live (call svc s r);
  ap_poll : forall f, still live (poll_fut svc f);
  ap_clone : forall s, still live (clone svc s);
  ap_drop_svc : forall s, same live (drop_svc svc s);
  ap_drop_fut : forall f, same live (drop_fut svc f) }.

(** Any service at all, with that number kept in the world. *)
Definition lift_z {W A} (m : M W A) : M (Z * W) A :=
  fun x => match m (snd x) with (w1, o) => ((fst x, w1), o) end.
Definition in_the_air {W Req Resp Err} (svc : Service W Req Resp Err) : Service (Z * W) Req Resp Err :=
  MkService (st svc) (fut svc)
    (fun s => lift_z (poll_ready svc s))
    (fun s r => x <- lift_z (call svc s r) ;; modify (fun y => (fst y + 1, snd y)) ;;; ret x)
    (fun f => lift_z (poll_fut svc f))
    (fun s => lift_z (clone svc s))
    (fun s x => (fst x, drop_svc svc s (snd x)))
    (fun f x => (fst x - 1, drop_fut svc f (snd x))).

(** [direct live k svc]: a stack that has at most [k] requests in flight per response future of its own.
    Only [hedge] has more than one; a [retry] has dropped the last attempt before it makes the next. *)
Inductive direct : forall (W Req Resp Err : Type) (live : W -> Z) (k : Z) (svc : Service W Req Resp Err), Prop :=
| dr_base W Req Resp Err live (svc : Service W Req Resp Err) : flies live svc -> direct live 1 svc
| dr_service_fn W Req Resp Err live (T : Task W (result Resp Err)) (f : Req -> M W (tst T)) :
    still_task live T -> (forall r, still live (f r)) -> direct live 0 (service_fn T f)
| dr_apart W Req Resp Err live (svc : Service W Req Resp Err) : apart live svc -> direct live 0 svc
| dr_weaken W Req Resp Err live k k' (svc : Service W Req Resp Err) :
    direct live k svc -> k <= k' -> direct live k' svc
(* tower::util *)
| dr_boxed W Req Resp Err live k (svc : Service W Req Resp Err) : direct live k svc -> direct live k (boxed svc)
| dr_map_request W Req Req' Resp Err live k (svc : Service W Req Resp Err) (f : Req' -> M W Req) :
    direct live k svc -> (forall r, still live (f r)) -> direct live k (map_request f svc)
| dr_map_response W Req Resp Resp' Err live k (svc : Service W Req Resp Err) (f : Resp -> M W Resp') :
    direct live k svc -> (forall r, still live (f r)) -> direct live k (map_response f svc)
| dr_map_err W Req Resp Err Err' live k (svc : Service W Req Resp Err) (f : Err -> M W Err') :
    direct live k svc -> (forall r, still live (f r)) -> direct live k (map_err f svc)
| dr_map_result W Req Resp Err Resp' Err' live k (svc : Service W Req Resp Err)
    (into : Err -> Err') (f : result Resp Err -> M W (result Resp' Err')) :
    direct live k svc -> (forall r, still live (f r)) -> direct live k (map_result into f svc)
| dr_then W Req Resp Err Resp' Err' live k (svc : Service W Req Resp Err)
    (into : Err -> Err') (T : Task W (result Resp' Err')) (f : result Resp Err -> M W (tst T)) :
    direct live k svc -> still_task live T -> (forall x, still live (f x)) -> direct live k (then_ into T f svc)
| dr_and_then W Req Resp Err Resp' Err' live k (svc : Service W Req Resp Err)
    (into : Err -> Err') (T : Task W (result Resp' Err')) (f : Resp -> M W (tst T)) :
    direct live k svc -> still_task live T -> (forall x, still live (f x)) -> direct live k (and_then into T f svc)
| dr_either W Req Resp Err live k (a b : Service W Req Resp Err) :
    direct live k a -> direct live k b -> direct live k (either a b)
| dr_optional W Req Resp Err live k (svc : Service W Req Resp Err) :
    direct live k svc -> direct live k (optional svc)
| dr_future_service W Req Resp Err live k (svc : Service W Req Resp Err)
    (T : Task W (result (st svc) Err)) (tclone : tst T -> M W (tst T)) :
    direct live k svc -> still_task live T -> (forall t, still live (tclone t)) ->
    direct live k (future_service svc T tclone)
(* middleware *)
| dr_timeout W Req Resp Err live k (svc : Service W Req Resp Err) (rt : Rt W) dur :
    direct live k svc -> (forall d, same live (nap rt d)) -> direct live k (timeout rt dur svc)
| dr_load_shed W Req Resp Err live k (svc : Service W Req Resp Err) :
    direct live k svc -> direct live k (load_shed svc)
| dr_filter W Req Req' Resp Err P PErr live k (svc : Service W Req Resp Err)
    (check : P -> Req' -> M W (P * result Req PErr)) pclone :
    direct live k svc -> (forall p r, still live (check p r)) -> (forall p, still live (pclone p)) ->
    direct live k (filter svc check pclone)
| dr_async_filter W Req Req' Resp Err P PErr live k (svc : Service W Req Resp Err)
    (T : Task W (result Req PErr)) (check : P -> Req' -> M W (P * tst T)) pclone :
    direct live k svc -> still_task live T ->
    (forall p r, still live (check p r)) -> (forall p, still live (pclone p)) ->
    direct live k (async_filter svc T check pclone)
| dr_retry W Req Resp Err live k (svc : Service W Req Resp Err) (pol : Policy W Req Resp Err) fuel :
    direct live k svc -> still_task live (pfut pol) ->
    (forall p r, still live (clone_request pol p r)) -> (forall p r v, still live (retry_decide pol p r v)) ->
    (forall p, still live (pol_clone pol p)) ->
    direct live k (retry pol svc fuel)
| dr_steer W Req Resp Err P live k (svc : Service W Req Resp Err)
    (pick : P -> Req -> list (st svc) -> M W (P * nat)) pclone :
    direct live k svc -> (forall q r l, still live (pick q r l)) -> (forall q, still live (pclone q)) ->
    direct live k (steer svc pick pclone)
| dr_reconnect W Tgt Req Resp Err MErr live k (svc : Service W Req Resp Err)
    (mk : Service W Tgt (st svc) MErr) target fuel :
    direct live k svc -> apart live mk -> direct live k (reconnect svc mk target fuel)
| dr_rate_limit W Req Resp Err live k (svc : Service W Req Resp Err) (rt : Rt W) rate :
    direct live k svc -> (forall d, same live (nap rt d)) -> direct live k (rate_limit rt rate svc)
| dr_conc_limit W Req Resp Err live k (svc : Service W Req Resp Err) closed debug :
    direct live k svc -> direct (fun x => live (snd x)) k (conc_limit svc closed debug)
| dr_hedge W Req Resp Err live k (svc : Service W Req Resp Err) (rt : Rt W)
    clone_request can_retry mdp quantile getH setH :
    direct live k svc -> (forall d, same live (nap rt d)) -> (forall h, same live (setH h)) ->
    direct live (k * 2) (hedge rt svc clone_request can_retry mdp quantile getH setH)
(* makers *)
| dr_shared W Tgt Req Resp Err live k (svc : Service W Req Resp Err) :
    direct live k svc -> direct live 0 (shared (Tgt := Tgt) svc)
| dr_into_service W Tgt Made MErr live k (mk : Service W Tgt Made MErr) :
    direct live k mk -> direct live k (into_service mk)
| dr_as_service W Tgt Made MErr live k (mk : Service W Tgt Made MErr) :
    direct live k mk -> direct live k (as_service mk)
| dr_make_balance W K Req Resp Err DErr G Tgt MErr live k (svc : Service W Req Resp Err)
    (D : Discover W K (st svc) DErr) (mk : Service W Tgt (dst D) MErr) (g0 : M W G) :
    direct live k mk -> still live g0 -> direct live k (make_balance svc D mk g0)
(* load measurement *)
| dr_constant W Req Resp Err Met live k (svc : Service W Req Resp Err) :
    direct live k svc -> direct live k (constant (M' := Met) svc)
| dr_tracked_load W Req Resp Err C T live k (svc : Service W Req Resp Err)
    (start : M W T) (finish : T -> C -> W -> C * W) (keep : Resp -> W -> W * bool) :
    direct live k svc -> still live start ->
    (forall t c, same live (fun w => snd (finish t c w))) -> (forall v, same live (fun w => fst (keep v w))) ->
    direct (fun x => live (snd x)) k (tracked_load svc start finish keep)
| dr_spawn_ready W Req Resp Err live k (svc : Service W Req Resp Err) (bg : W -> W * nat) fuel :
    direct live k svc -> same live (fun w => fst (bg w)) -> direct live k (spawn_ready svc bg fuel)
| dr_balance W K Req Resp Err DErr Met G (keq : forall a b : K, {a = b} + {a <> b}) live k
    (svc : Service W Req Resp Err) (D : Discover W K (st svc) DErr) sched
    (next_u64 : G -> M W (G * Z)) debug (load : st svc -> M W Met) le fuel :
    direct live k svc ->
    (forall d, still live (poll_discover D d)) -> (forall d, same live (ddrop D d)) ->
    (forall l, same live (fun w => fst (sched l w))) ->
    (forall g, still live (next_u64 g)) -> (forall s, still live (load s)) ->
    direct live k (balance keq svc D sched next_u64 debug load le fuel).

(** A program (MeterSpec.v) none of whose operations panicked (unwinding is not modelled) or failed to return. *)
Section Calm.
  Context {W Req Resp Err : Type} (svc : Service W Req Resp Err).
  Definition came_back {A} (o : out A) : Prop := match o with Val _ => True | _ => False end.
  Definition op_ok (y : prog svc) (o : @uop W Req) : Prop :=
    match o with
    | UReady i => match held_at (u_svcs y) i with Some s => came_back (snd (poll_ready svc s (u_world y))) | None => True end
    | UCall i r => match held_at (u_svcs y) i with Some s => came_back (snd (call svc s r (u_world y))) | None => True end
    | UClone i => match held_at (u_svcs y) i with Some s => came_back (snd (clone svc s (u_world y))) | None => True end
    | UPoll j => match held_at (u_futs y) j with Some f => came_back (snd (poll_fut svc f (u_world y))) | None => True end
    | _ => True
    end.
  Fixpoint calm (y : prog svc) (l : list (@uop W Req)) : Prop :=
    match l with [] => True | o :: l' => op_ok y o /\ calm (ustep y o) l' end.
  (** How many response futures the program holds. *)
  Fixpoint holding (l : list (option (fut svc))) : Z :=
    match l with [] => 0 | Some _ :: l' => 1 + holding l' | None :: l' => holding l' end.
End Calm.
(** The rest of the world does not use the service at the bottom. *)
Definition env_same_z {W Req} (live : W -> Z) (l : list (@uop W Req)) : Prop :=
  Forall (fun o => match o with UEnv g => same live g | _ => True end) l.
