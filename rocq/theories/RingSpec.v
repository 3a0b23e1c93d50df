(** Specification of waking (C74): histories of a ReadyCache or a Balance, its task and its wakers. *)
From Verif Require Import Base ReadyCache WakeCache.
Set Implicit Arguments.

(** Service [i] waits: the last time it was asked for readiness it was given waker [k] and answered [Pending], and
    [k] has not fired since.  (Newest event first.) *)
Fixpoint waiting (log : list wevent) (i : nat) (k : waker) : Prop :=
  match log with
  | [] => False
  | EPoll j k' b :: l => if j =? i then b = true /\ k' = k else waiting l i k
  | ERing k' :: l => k' <> k /\ waiting l i k
  | EDisc _ :: l => waiting l i k
  end.
(** Discovery waits: its last answer was [Pending] and the task's waker has not fired since ([rung]); or it has
    ended. *)
Fixpoint disc_waits (rung : bool) (log : list wevent) : Prop :=
  match log with
  | [] => False
  | EDisc DPending :: _ => rung = false
  | EDisc DEnd :: _ => True
  | EDisc DChange :: _ => False
  | ERing WkTask :: l => disc_waits true l
  | _ :: l => disc_waits rung l
  end.

Section Cache.
  Context {W K Req Resp Err : Type} (keq : forall a b : K, {a = b} + {a <> b}).
  Context (svc : Service W Req Resp Err).
  Context (rings : W -> list waker) (stop : nat -> nat -> nat -> bool).
  Notation wcache := (wcache (K := K) svc).

  (** ** What can happen to a cache.  [CPoll]: its task runs and polls it. *)
  Inductive wop :=
  | CPush (k : K) (s : st svc) | CEvict (k : K) | CPoll | CCheck (n : nat) | CCall (n : nat) (r : Req)
  | CRing (k : waker) | CEnv (g : W -> W).
  Inductive wobs :=
  | OPushed | OEvicted (hit : bool) | OPolled (a : poll (result unit (K * Err))) | OChecked (a : result bool (K * Err))
  | OCalled | ORang | OEnv.
  (** [None]: a panic, or an operation that does not return; it ends the history. *)
  Definition wdo {A} (m : M W A) (w : W) : option (A * W) :=
    match m w with (w1, Val a) => Some (a, w1) | _ => None end.
  Definition wstep (o : wop) (x : wcache * W) : option (wobs * wcache * W) :=
    let '(c, w) := x in
    match o with
    | CPush k s => Some (OPushed, wpush keq c k s, w)
    | CEvict k => match wdo (wevict keq rings c k) w with Some ((c1, b), w1) => Some (OEvicted b, c1, w1) | None => None end
    | CPoll => match wdo (wpoll_pending keq rings stop (with_woken false c)) w with
               | Some ((c1, a), w1) => Some (OPolled a, c1, w1) | None => None end
    | CCheck n => match wdo (wcheck_ready_index keq rings c n) w with
                  | Some ((c1, a), w1) => Some (OChecked a, c1, w1) | None => None end
    | CCall n r => match wdo (wcall_ready_index keq rings c n r) w with
                   | Some ((c1, _), w1) => Some (OCalled, c1, w1) | None => None end
    | CRing k => Some (ORang, ring k c, w)
    | CEnv g => Some (OEnv, c, g w)
    end.
  Fixpoint wrun (x : wcache * W) (l : list wop) : list (wobs * wcache * W) :=
    match l with
    | [] => []
    | o :: l' =>
        match wstep o x with
        | None => []
        | Some (b, c1, w1) => (b, c1, w1) :: wrun (c1, w1) l'
        end
    end.
  Definition whistory (w : W) (l : list wop) : list (wobs * wcache * W) := wrun (wcache_new svc, w) l.

  (** The pending services of a cache. *)
  Definition pending_of (c : wcache) : list (wtask svc) := fu_tasks (wc_fu c).

  (** ** The same for a Balance. *)
  Context {DErr Metric R : Type} (D : Discover W K (st svc) DErr).
  Context (next_u64 : R -> M W (R * Z)) (debug : bool).
  Context (load : st svc -> M W Metric) (le : Metric -> Metric -> bool) (fuel : nat).
  Inductive bwop := BwPoll | BwCall (r : Req) | BwRing (k : waker) | BwEnv (g : W -> W).
  Inductive bwobs := BwPolled (a : poll (result unit (Err + DErr))) | BwCalled | BwRang | BwEnved.
  Notation wbal := (wbalance_st (R := R) D).
  Definition bwstep (o : bwop) (x : wbal * W) : option (bwobs * wbal * W) :=
    let '(s, w) := x in
    match o with
    | BwPoll => match wdo (wbalance_poll_ready keq rings stop next_u64 debug load le fuel s) w with
                | Some ((s1, a), w1) => Some (BwPolled a, s1, w1) | None => None end
    | BwCall r => match wdo (wbalance_call keq rings s r) w with
                  | Some ((s1, _), w1) => Some (BwCalled, s1, w1) | None => None end
    | BwRing k => Some (BwRang, WBalSt (wb_disc s) (ring k (wb_cache s)) (wb_index s) (wb_rng s), w)
    | BwEnv g => Some (BwEnved, s, g w)
    end.
  Fixpoint bwrun (x : wbal * W) (l : list bwop) : list (bwobs * wbal * W) :=
    match l with
    | [] => []
    | o :: l' =>
        match bwstep o x with
        | None => []
        | Some (b, s1, w1) => (b, s1, w1) :: bwrun (s1, w1) l'
        end
    end.
  Definition bwhistory (d : dst D) (g : R) (w : W) (l : list bwop) : list (bwobs * wbal * W) := bwrun (wbalance_new (svc := svc) D d g, w) l.
End Cache.
Arguments CPush {W K Req Resp Err svc} _ _.
Arguments CEvict {W K Req Resp Err svc} _.
Arguments CPoll {W K Req Resp Err svc}.
Arguments CCheck {W K Req Resp Err svc} _.
Arguments CCall {W K Req Resp Err svc} _ _.
Arguments CRing {W K Req Resp Err svc} _.
Arguments CEnv {W K Req Resp Err svc} _.
