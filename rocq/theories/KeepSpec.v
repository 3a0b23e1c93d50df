(** Specification for C69: what the instances and the response futures of a stack hold of the service at its bottom.

    [live w] counts something that instances or response futures of the bottom service hold: themselves, say, or the
    references to a shared counter.  [osv s] and [own f] say how much of it the instance [s] and the future [f] hold;
    [orp v] how much the response [v] does (a maker's response is an instance). *)
From Verif Require Import Base Util ReadyCache SpawnReady Load Make Middleware Limits Hedge MeterSpec.
Set Implicit Arguments.
Local Open Scope Z_scope.

(** If [m], given [b] of it, returns a value, the value holds the rest of what there was and what has come to exist. *)
Definition bal {W A} (live : W -> Z) (b : Z) (m : M W A) (holds : A -> Z) : Prop :=
  forall w w1 a, b <= live w -> m w = (w1, Val a) -> live w1 - live w = holds a - b.
Definition gone {W} (live : W -> Z) (n : Z) (g : W -> W) : Prop :=
  forall w, n <= live w -> live (g w) = live w - n.

Definition in_resp {Resp Err} (orp : Resp -> Z) (p : poll (result Resp Err)) : Z :=
  match p with Ready (Ok v) => orp v | _ => 0 end.
Record holds {W Req Resp Err} (live : W -> Z) (svc : Service W Req Resp Err)
  (osv : st svc -> Z) (own : fut svc -> Z) (orp : Resp -> Z) : Prop := {
  ho_ready : forall s, bal live (osv s) (poll_ready svc s) (fun x => osv (fst x));
  ho_call : forall s r, bal live (osv s) (call svc s r) (fun x => osv (fst x) + own (snd x));
  ho_poll : forall f, bal live (own f) (poll_fut svc f) (fun x => own (fst x) + in_resp orp (snd x));
  ho_clone : forall s, bal live (osv s) (clone svc s) (fun x => osv s + osv x);
  ho_drop_svc : forall s, gone live (osv s) (drop_svc svc s);
  ho_drop_fut : forall f, gone live (own f) (drop_fut svc f);
  ho_svc0 : forall s, 0 <= osv s;
  ho_fut0 : forall f, 0 <= own f;
  ho_resp0 : forall v, 0 <= orp v }.
(** Other futures: [oa] of their answer. *)
Record task_holds {W A} (live : W -> Z) (T : Task W A) (ot : tst T -> Z) (oa : A -> Z) : Prop := {
  to_poll : forall t, bal live (ot t) (tpoll T t) (fun x => ot (fst x) + match snd x with Ready a => oa a | Pending => 0 end);
  to_drop : forall t, gone live (ot t) (tdrop T t);
  to_0 : forall t, 0 <= ot t }.
(** Discovery: what it holds are the instances it has yet to announce. *)
Definition in_change {K S E} (osv : S -> Z) (p : poll (option (result (change K S) E))) : Z :=
  match p with Ready (Some (Ok (Insert _ s))) => osv s | _ => 0 end.
Record disc_holds {W K S E} (live : W -> Z) (D : Discover W K S E) (osv : S -> Z) (od : dst D -> Z) : Prop := {
  do_poll : forall d, bal live (od d) (poll_discover D d) (fun x => od (fst x) + in_change osv (snd x));
  do_drop : forall d, gone live (od d) (ddrop D d);
  do_0 : forall d, 0 <= od d }.

(** Two things to count.  The instances of a service (as [in_the_air], FlightSpec.v, counts its response futures): *)
Definition lift_k {W A} (m : M W A) : M (Z * W) A :=
  fun x => match m (snd x) with (w1, o) => ((fst x, w1), o) end.
Definition census {W Req Resp Err} (svc : Service W Req Resp Err) : Service (Z * W) Req Resp Err :=
  MkService (st svc) (fut svc)
    (fun s => lift_k (poll_ready svc s))
    (fun s r => lift_k (call svc s r))
    (fun f => lift_k (poll_fut svc f))
    (fun s => x <- lift_k (clone svc s) ;; modify (fun y => (fst y + 1, snd y)) ;;; ret x)
    (fun s x => (fst x - 1, drop_svc svc s (snd x)))
    (fun f x => (fst x, drop_fut svc f (snd x))).
(** A connector for it: every connection is a new instance. *)
Definition census_mk {W Tgt Made MErr} (mk : Service W Tgt Made MErr) : Service (Z * W) Tgt Made MErr :=
  MkService (st mk) (fut mk)
    (fun s => lift_k (poll_ready mk s))
    (fun s r => lift_k (call mk s r))
    (fun f => x <- lift_k (poll_fut mk f) ;;
              modify (fun y => (fst y + match snd x with Ready (Ok _) => 1 | _ => 0 end, snd y)) ;;; ret x)
    (fun s => lift_k (clone mk s))
    (fun s x => (fst x, drop_svc mk s (snd x)))
    (fun f x => (fst x, drop_fut mk f (snd x))).

(** ** What the objects of each layer hold. *)
Fixpoint osum {A} (o : A -> Z) (l : list A) : Z := match l with [] => 0 | x :: l' => o x + osum o l' end.
Definition oopt {A} (o : A -> Z) (x : option A) : Z := match x with Some a => o a | None => 0 end.
Definition osums {A B} (o : A -> Z) (o' : B -> Z) (x : A + B) : Z := match x with inl a => o a | inr b => o' b end.
Section Of.
  Context {W Req Resp Err : Type} {svc : Service W Req Resp Err} (osv : st svc -> Z) (own : fut svc -> Z).
  Definition ochain {T} (ot : T -> Z) (c : chain (fut svc) T) : Z :=
    match c with First f => own f | Second t => ot t | Empty => 0 end.
  (** An AsyncFilter's future has the instance it will call, or has called. *)
  Definition oaf {C} (f : afilter_fut svc C) : Z :=
    osv (af_svc f) + match af_state f with AfCheck _ => 0 | AfWait x => own x end.
  (** A Retry's future has an instance for the next attempts, and the future of the present one. *)
  Definition oretry {pol : Policy W Req Resp Err} (f : retry_fut pol svc) : Z :=
    osv (rf_svc f) + match rf_state f with RCalled x => own x | _ => 0 end.
  Definition oreconnect {Tgt MErr} {mk : Service W Tgt (st svc) MErr} (om : st mk -> Z) (ofm : fut mk -> Z)
    (s : reconnect_st svc mk) : Z :=
    om (rc_mk s) + match rc_st s with RcIdle => 0 | RcConnecting f => ofm f | RcConnected c => osv c end.
  (** [Oneshot]: the instance, then the future. *)
  Definition oos (o : oneshot_st svc) : Z := match o with OsNotReady _ s _ => osv s | OsCalled _ f => own f | OsDone _ => 0 end.
  Definition odelay (f : delay_fut svc) : Z :=
    oopt osv (df_svc f) + match df_state f with DDelaying _ _ _ => 0 | DCalled o => oos o end.
  Definition ocache {K} (c : cache (K := K) svc) : Z :=
    osum (fun p => osv (pd_svc p)) (rc_pending c) + osum (fun x => osv (fst (snd x))) (rc_ready c).
  Definition obalance {K DErr G} {D : Discover W K (st svc) DErr} (od : dst D -> Z) (s : balance_st (R := G) svc D) : Z :=
    od (bl_disc s) + ocache (bl_cache s).
  Definition ospawn (s : sr_st svc) : Z :=
    match s with SrSvc x => osv x | SrFut (TRun x) => osv x | SrFut (TDone (Ok x)) => osv x | SrFut _ => 0 end.
End Of.
Definition osel {W Req Resp EA EB} {a : Service W Req Resp EA} {b : Service W Req Resp EB}
  (oa : fut a -> Z) (ob : fut b -> Z) (f : select_fut a b) : Z := oa (sel_a f) + oopt ob (sel_b f).

(** [kept live svc osv own orp]: a stack. *)
Definition none {A} (_ : A) : Z := 0.
Inductive kept : forall (W Req Resp Err : Type) (live : W -> Z) (svc : Service W Req Resp Err)
  (osv : st svc -> Z) (own : fut svc -> Z) (orp : Resp -> Z), Prop :=
| kp_base W Req Resp Err live (svc : Service W Req Resp Err) osv own orp : holds live svc osv own orp -> kept live svc osv own orp
| kp_service_fn W Req Resp Err live (T : Task W (result Resp Err)) (f : Req -> M W (tst T)) :
    still_task live T -> (forall r, still live (f r)) -> kept live (service_fn T f) none none none
(* tower::util *)
| kp_boxed W Req Resp Err live (svc : Service W Req Resp Err) osv own orp :
    kept live svc osv own orp -> kept live (boxed svc) osv own orp
| kp_map_request W Req Req' Resp Err live (svc : Service W Req Resp Err) osv own orp (f : Req' -> M W Req) :
    kept live svc osv own orp -> (forall r, still live (f r)) -> kept live (map_request f svc) osv own orp
| kp_map_response W Req Resp Resp' Err live (svc : Service W Req Resp Err) osv own (f : Resp -> M W Resp') :
    kept live svc osv own none -> (forall r, still live (f r)) -> kept live (map_response f svc) osv (oopt own) none
| kp_map_err W Req Resp Err Err' live (svc : Service W Req Resp Err) osv own (f : Err -> M W Err') :
    kept live svc osv own none -> (forall r, still live (f r)) -> kept live (map_err f svc) osv (oopt own) none
| kp_map_result W Req Resp Err Resp' Err' live (svc : Service W Req Resp Err) osv own
    (into : Err -> Err') (f : result Resp Err -> M W (result Resp' Err')) :
    kept live svc osv own none -> (forall r, still live (f r)) -> kept live (map_result into f svc) osv (oopt own) none
| kp_then W Req Resp Err Resp' Err' live (svc : Service W Req Resp Err) osv own
    (into : Err -> Err') (T : Task W (result Resp' Err')) (f : result Resp Err -> M W (tst T)) :
    kept live svc osv own none -> still_task live T -> (forall x, still live (f x)) ->
    kept live (then_ into T f svc) osv (ochain own none) none
| kp_and_then W Req Resp Err Resp' Err' live (svc : Service W Req Resp Err) osv own
    (into : Err -> Err') (T : Task W (result Resp' Err')) (f : Resp -> M W (tst T)) :
    kept live svc osv own none -> still_task live T -> (forall x, still live (f x)) ->
    kept live (and_then into T f svc) osv (ochain own none) none
| kp_either W Req Resp Err live (a b : Service W Req Resp Err) osa oa osb ob orp :
    kept live a osa oa orp -> kept live b osb ob orp -> kept live (either a b) (osums osa osb) (osums oa ob) orp
| kp_optional W Req Resp Err live (svc : Service W Req Resp Err) osv own orp :
    kept live svc osv own orp -> kept live (optional svc) (oopt osv) (oopt own) orp
| kp_future_service W Req Resp Err live (svc : Service W Req Resp Err) osv own orp
    (T : Task W (result (st svc) Err)) (ot : tst T -> Z) (tclone : tst T -> M W (tst T)) :
    kept live svc osv own orp -> task_holds live T ot (fun r => match r with Ok s => osv s | Er _ => 0 end) ->
    (forall t, bal live (ot t) (tclone t) (fun t1 => ot t + ot t1)) ->
    kept live (future_service svc T tclone) (osums ot osv) own orp
(* middleware *)
| kp_timeout W Req Resp Err live (svc : Service W Req Resp Err) osv own orp (rt : Rt W) dur :
    kept live svc osv own orp -> (forall d, same live (nap rt d)) ->
    kept live (timeout rt dur svc) osv (fun f => own (to_inner f)) orp
| kp_load_shed W Req Resp Err live (svc : Service W Req Resp Err) osv own orp :
    kept live svc osv own orp -> kept live (load_shed svc) (fun s => osv (ls_inner s)) (oopt own) orp
| kp_filter W Req Req' Resp Err P PErr live (svc : Service W Req Resp Err) osv own
    (check : P -> Req' -> M W (P * result Req PErr)) pclone :
    kept live svc osv own none -> (forall p r, still live (check p r)) -> (forall p, still live (pclone p)) ->
    kept live (filter svc check pclone) (fun s => osv (fst s)) (osums none (oopt own)) none
| kp_async_filter W Req Req' Resp Err P PErr live (svc : Service W Req Resp Err) osv own orp
    (T : Task W (result Req PErr)) (check : P -> Req' -> M W (P * tst T)) pclone :
    kept live svc osv own orp -> still_task live T ->
    (forall p r, still live (check p r)) -> (forall p, still live (pclone p)) ->
    kept live (async_filter svc T check pclone) (fun s => osv (fst s)) (oaf osv own (C := tst T)) orp
| kp_retry W Req Resp Err live (svc : Service W Req Resp Err) osv own (pol : Policy W Req Resp Err) fuel :
    kept live svc osv own none -> still_task live (pfut pol) ->
    (forall p r, still live (clone_request pol p r)) -> (forall p r v, still live (retry_decide pol p r v)) ->
    (forall p, still live (pol_clone pol p)) ->
    kept live (retry pol svc fuel) (fun s => osv (snd s)) (oretry osv own (pol := pol)) none
| kp_steer W Req Resp Err P live (svc : Service W Req Resp Err) osv own orp
    (pick : P -> Req -> list (st svc) -> M W (P * nat)) pclone :
    kept live svc osv own orp -> (forall q r l, still live (pick q r l)) -> (forall q, still live (pclone q)) ->
    kept live (steer svc pick pclone) (fun s => osum osv (sr_services s)) own orp
| kp_reconnect W Tgt Req Resp Err MErr live (svc : Service W Req Resp Err) osv own orp
    (mk : Service W Tgt (st svc) MErr) om ofm target fuel :
    kept live svc osv own orp -> kept live mk om ofm osv ->
    kept live (reconnect svc mk target fuel) (oreconnect osv om ofm) (osums own none) orp
| kp_rate_limit W Req Resp Err live (svc : Service W Req Resp Err) osv own orp (rt : Rt W) rate :
    kept live svc osv own orp -> (forall d, same live (nap rt d)) ->
    kept live (rate_limit rt rate svc) (fun s => osv (rl_inner s)) own orp
| kp_conc_limit W Req Resp Err live (svc : Service W Req Resp Err) osv own orp closed debug :
    kept live svc osv own orp ->
    kept (fun x => live (snd x)) (conc_limit svc closed debug) (fun s => osv (cl_inner s)) own orp
| kp_hedge W Req Resp Err live (svc : Service W Req Resp Err) osv own orp (rt : Rt W)
    clone_request can_retry mdp quantile getH setH :
    kept live svc osv own orp -> (forall d, same live (nap rt d)) -> (forall h, same live (setH h)) ->
    kept live (hedge rt svc clone_request can_retry mdp quantile getH setH)
      (fun s => osv (fst s) + osv (fst (snd s)))
      (osel (a := hedge_a rt svc getH setH) (b := hedge_b rt svc can_retry quantile getH setH)
        (fun f => own (lf_inner f))
        (odelay (svc := hedge_filtered rt svc can_retry getH setH) (fun s => osv (fst s))
          (oaf (svc := hedge_a rt svc getH setH) osv (fun f => own (lf_inner f)) (C := option Req + unit)))) orp
(* makers: their responses are instances *)
| kp_shared W Tgt Req Resp Err live (svc : Service W Req Resp Err) osv own orp :
    kept live svc osv own orp -> kept live (shared (Tgt := Tgt) svc) osv (oopt osv) osv
| kp_into_service W Tgt Made MErr live (mk : Service W Tgt Made MErr) om ofm orp :
    kept live mk om ofm orp -> kept live (into_service mk) om ofm orp
| kp_make_balance W K Req Resp Err DErr G Tgt MErr live (svc : Service W Req Resp Err) osv
    (D : Discover W K (st svc) DErr) od (mk : Service W Tgt (dst D) MErr) om ofm (g0 : M W G) :
    kept live mk om ofm od -> (forall s, 0 <= osv s) -> still live g0 -> kept live (make_balance svc D mk g0) om ofm (obalance osv od)
(* load measurement *)
| kp_constant W Req Resp Err Met live (svc : Service W Req Resp Err) osv own orp :
    kept live svc osv own orp -> kept live (constant (M' := Met) svc) (fun s => osv (fst s)) own orp
| kp_tracked_load W Req Resp Err C T live (svc : Service W Req Resp Err) osv own
    (start : M W T) (finish : T -> C -> W -> C * W) (keep : Resp -> W -> W * bool) :
    kept live svc osv own none -> still live start ->
    (forall t c, same live (fun w => snd (finish t c w))) -> (forall v, same live (fun w => fst (keep v w))) ->
    kept (fun x => live (snd x)) (tracked_load svc start finish keep) osv (fun f => own (tc_inner f)) none
(* The task of a SpawnReady has the instance meanwhile. *)
| kp_spawn_ready W Req Resp Err live (svc : Service W Req Resp Err) osv own (bg : W -> W * nat) fuel :
    kept live svc osv own none -> same live (fun w => fst (bg w)) ->
    (forall s w, snd (poll_ready svc s w) <> Panic) ->
    kept live (spawn_ready svc bg fuel) (ospawn (svc := svc) osv) (oopt own) none
| kp_balance W K Req Resp Err DErr Met G (keq : forall a b : K, {a = b} + {a <> b}) live
    (svc : Service W Req Resp Err) osv own (D : Discover W K (st svc) DErr) od sched
    (next_u64 : G -> M W (G * Z)) debug (load : st svc -> M W Met) le fuel :
    kept live svc osv own none -> disc_holds live D osv od ->
    (forall l, same live (fun w => fst (sched l w))) ->
    (forall g, still live (next_u64 g)) -> (forall s, still live (load s)) ->
    kept live (balance keq svc D sched next_u64 debug load le fuel) (obalance osv od) (oopt own) none.

(** What a program (MeterSpec.v) holds. *)
Definition holding_in {W Req Resp Err} {svc : Service W Req Resp Err} (osv : st svc -> Z) (own : fut svc -> Z) (y : prog svc) : Z :=
  osum (oopt osv) (u_svcs y) + osum (oopt own) (u_futs y).
