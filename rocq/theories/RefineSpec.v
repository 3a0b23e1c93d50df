(** Refinement (C74): the cache and the Balance of ReadyCache.v, whose polling orders come from a tape. *)
From Verif Require Import Base ReadyCache WakeCache RingSpec.
Set Implicit Arguments.

Definition tape := list (list nat).
(** Something that does not look at the tape. *)
Definition off {W A} (m : M W A) : M (W * tape) A := fun x => let '(w1, o) := m (fst x) in ((w1, snd x), o).
Definition offw {W} (g : W -> W) (x : W * tape) : W * tape := (g (fst x), snd x).
Definition taped {W Req Resp Err} (svc : Service W Req Resp Err) : Service (W * tape) Req Resp Err :=
  MkService (st svc) (fut svc) (fun s => off (poll_ready svc s)) (fun s r => off (call svc s r)) (fun f => off (poll_fut svc f))
    (fun s => off (clone svc s)) (fun s => offw (drop_svc svc s)) (fun f => offw (drop_fut svc f)).
Definition tdisc {W K S E} (D : Discover W K S E) : Discover (W * tape) K S E :=
  MkDiscover (dst D) (fun d => off (poll_discover D d)) (fun d => offw (ddrop D d)).
(** The next order is read from the tape. *)
Definition tsched {W} (n : nat) (x : W * tape) : (W * tape) * list nat :=
  match snd x with [] => (x, []) | o :: r => ((fst x, r), o) end.

Section Refine.
  Context {W K Req Resp Err : Type} (keq : forall a b : K, {a = b} + {a <> b}).
  Context (svc : Service W Req Resp Err).
  Notation ocache := (cache (K := K) (taped svc)).
  (** A cache without its wakers. *)
  Definition forget_ready (x : K * (nat * st svc * nat)) : K * (st (taped svc) * nat) := let '(k, (_, s, t)) := x in (k, (s, t)).
  Definition forget_pend (p : wtask svc) : pend (K := K) (taped svc) := Pend (svc := taped svc) (wt_key p) (wt_pair p) (wt_svc p).
  Definition forget (c : wcache (K := K) svc) : ocache :=
    Cache (svc := taped svc) (map forget_pend (fu_tasks (wc_fu c))) (ix_txs (wc_ix c)) (map forget_ready (ix_ready (wc_ix c)))
      (ix_canceled (wc_ix c)) (ix_fresh (wc_ix c)).

  Definition odo {A} (m : M (W * tape) A) (x : W * tape) : option (A * (W * tape)) :=
    match m x with (x1, Val a) => Some (a, x1) | _ => None end.
  (** The operations of RingSpec.v; a waker does nothing here. *)
  Definition ostep (o : wop (K := K) svc) (x : ocache * (W * tape)) : option (wobs (K := K) (Err := Err) * ocache * (W * tape)) :=
    let '(c, w) := x in
    match o with
    | CPush k s => Some (OPushed, push keq c k s, w)
    | CEvict k => match odo (evict keq c k) w with Some ((c1, b), w1) => Some (OEvicted b, c1, w1) | None => None end
    | CPoll => match odo (poll_pending keq tsched c) w with Some ((c1, a), w1) => Some (OPolled a, c1, w1) | None => None end
    | CCheck n => match odo (check_ready_index keq c n) w with Some ((c1, a), w1) => Some (OChecked a, c1, w1) | None => None end
    | CCall n r => match odo (call_ready_index keq c n r) w with Some ((c1, _), w1) => Some (OCalled, c1, w1) | None => None end
    | CRing k => Some (ORang, c, w)
    | CEnv g => Some (OEnv, c, offw g w)
    end.
  Fixpoint orun (x : ocache * (W * tape)) (l : list (wop (K := K) svc)) : list (wobs (K := K) (Err := Err) * ocache * (W * tape)) :=
    match l with
    | [] => []
    | o :: l' =>
        match ostep o x with
        | None => []
        | Some (b, c1, w1) => (b, c1, w1) :: orun (c1, w1) l'
        end
    end.

  Context {DErr Metric R : Type} (D : Discover W K (st svc) DErr).
  Context (next_u64 : R -> M W (R * Z)) (debug : bool).
  Context (load : st svc -> M W Metric) (le : Metric -> Metric -> bool) (fuel : nat).
  Definition obalance : Service (W * tape) Req Resp (Err + DErr) :=
    balance keq (taped svc) (tdisc D : Discover (W * tape) K (st (taped svc)) DErr) tsched (fun g => off (next_u64 g)) debug (fun s => off (load s)) le fuel.
  Definition forget_bal (s : wbalance_st (R := R) D) : st obalance :=
    BalSt (svc := taped svc) (D := tdisc D : Discover (W * tape) K (st (taped svc)) DErr) (wb_disc s) (forget (wb_cache s)) (wb_index s) (wb_rng s).
  Definition bostep (o : bwop (W := W) (Req := Req)) (x : st obalance * (W * tape)) : option (bwobs (Err := Err) (DErr := DErr) * st obalance * (W * tape)) :=
    let '(s, w) := x in
    match o with
    | BwPoll => match odo (poll_ready obalance s) w with Some ((s1, a), w1) => Some (BwPolled a, s1, w1) | None => None end
    | BwCall r => match odo (call obalance s r) w with Some ((s1, _), w1) => Some (@BwCalled Err DErr, s1, w1) | None => None end
    | BwRing k => Some (@BwRang Err DErr, s, w)
    | BwEnv g => Some (@BwEnved Err DErr, s, offw g w)
    end.
  Fixpoint borun (x : st obalance * (W * tape)) (l : list bwop) : list (bwobs (Err := Err) (DErr := DErr) * st obalance * (W * tape)) :=
    match l with
    | [] => []
    | o :: l' =>
        match bostep o x with
        | None => []
        | Some (b, s1, w1) => (b, s1, w1) :: borun (s1, w1) l'
        end
    end.
End Refine.

Arguments bostep {W K Req Resp Err} keq {svc} {DErr Metric R} D next_u64 debug load le fuel o x.
Arguments borun {W K Req Resp Err} keq {svc} {DErr Metric R} D next_u64 debug load le fuel x l.
Arguments forget_bal {W K Req Resp Err} keq {svc} {DErr Metric R} D next_u64 debug load le fuel s.
