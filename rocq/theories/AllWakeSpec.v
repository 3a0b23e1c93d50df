(** Specification for C89: histories of a CallAll, the task that polls it, and their wakers. *)
From Verif Require Import Base Middleware ReadyCache CallAll WakeCache WakeAll RefineSpec.
Set Implicit Arguments.

(** Child [t] waits: when it was last polled it answered [Pending], and the waker it was given then has not fired since.
    (Newest event first.) *)
Fixpoint fut_waits (log : list aevent) (t : nat) : Prop :=
  match log with
  | [] => False
  | AFut t' b :: l => if t' =? t then b = true else fut_waits l t
  | ARang k :: l => k <> WkChild t /\ fut_waits l t
  | _ :: l => fut_waits l t
  end.
(** No child was polled while it waited: each was polled for the first time, or because the waker it had been given fired. *)
Fixpoint when_called (log : list aevent) : Prop :=
  match log with
  | [] => True
  | AFut t _ :: l => ~ fut_waits l t /\ when_called l
  | _ :: l => when_called l
  end.
(** The stream of requests waits; the service does: both are given the waker of the task. *)
Fixpoint stream_waits (log : list aevent) : Prop :=
  match log with
  | [] => False
  | AStream b :: _ => b = true
  | ARang k :: l => k <> WkTask /\ stream_waits l
  | _ :: l => stream_waits l
  end.
Fixpoint svc_waits (log : list aevent) : Prop :=
  match log with
  | [] => False
  | AReady b :: _ => b = true
  | ARang k :: l => k <> WkTask /\ svc_waits l
  | _ :: l => svc_waits l
  end.

Section History.
  Context {W Req Resp Err : Type} (svc : Service W Req Resp Err) (S : Stream W Req).
  Context (rings : W -> list waker) (fuel : nat).
  Context (Q : Drive (W * ringer) (fut svc) (result Resp Err)).
  Notation X := (W * ringer)%type.
  Notation ca := (call_all (rung_svc rings svc) (rung_stream rings S) Q).

  (** The task runs and polls the CallAll; a waker fires; anything else happens. *)
  Inductive aop := LPoll | LRing (k : waker) | LEnv (g : W -> W).
  Inductive aobs := LPolled (a : poll (option (result Resp Err))) | LMoved.
  Definition lstep (o : aop) (y : ca * X) : option (aobs * ca * X) :=
    let '(c, x) := y in
    match o with
    | LPoll =>
        match ca_next fuel c (fst x, Ringer (rg_queue (snd x)) (rg_live (snd x)) (rg_parent (snd x)) false (rg_log (snd x))) with
        | (x1, Val (c1, a)) => Some (LPolled a, c1, x1)
        | _ => None
        end
    | LRing k => Some (LMoved, c, (fst x, aring k (snd x)))
    | LEnv g => Some (LMoved, c, (g (fst x), snd x))
    end.
  (** Until a panic, or an operation that does not return. *)
  Fixpoint lrun (y : ca * X) (l : list aop) : list (aobs * ca * X) :=
    match l with
    | [] => []
    | o :: l' =>
        match lstep o y with
        | None => []
        | Some (b, c1, x1) => (b, c1, x1) :: lrun (c1, x1) l'
        end
    end.
  Definition lhistory (s : st svc) (t : sst S) (w : W) (l : list aop) : list (aobs * ca * X) :=
    lrun (ca_new (rung_svc rings svc) (rung_stream rings S) Q s t, (w, ringer0)) l.
End History.
Arguments LPoll {W}.
Arguments LRing {W} _.
Arguments LEnv {W} _.
Arguments lhistory {W Req Resp Err} svc S rings fuel Q s t w l.
Arguments lstep {W Req Resp Err} svc S rings fuel Q o y.

(** The response futures in progress. *)
Definition unordered_ids {F} (q : wfu F unit) : list nat := map fst (wf_tasks q).
Definition ordered_ids {F O} (q : wordq (F := F) (O := O)) : list nat := map fst (wf_tasks (wo_fu q)).

(** Forgetting the wakers: the collections and the CallAll of CallAll.v, whose polling orders come from a tape (RefineSpec.v). *)
Definition tunordered {W F O} (fpoll : F -> M W (F * poll O)) (fdrop : F -> W -> W) : Drive (W * tape) F O :=
  unordered_drive (fun f => off (fpoll f)) (fun f => offw (fdrop f)) tsched.
Definition tordered {W F O} (fpoll : F -> M W (F * poll O)) (fdrop : F -> W -> W) : Drive (W * tape) F O :=
  ordered_drive (fun f => off (fpoll f)) (fun f => offw (fdrop f)) tsched.
Definition forget_unordered {F} (q : wfu F unit) : list (unit * F) := map snd (wf_tasks q).
Definition forget_ordered {F O} (q : wordq (F := F) (O := O)) : ordq (F := F) (O := O) :=
  OrdQ (map snd (wf_tasks (wo_fu q))) (wo_done q) (wo_in q) (wo_out q).
Definition tstream {W A} (S : Stream W A) : Stream (W * tape) A := MkStream (sst S) (fun t => off (snext S t)).

Section Forget.
  Context {W Req Resp Err : Type} (svc : Service W Req Resp Err) (S : Stream W Req) (rings : W -> list waker) (fuel : nat).
  Context (Q : Drive (W * ringer) (fut svc) (result Resp Err)) (Q0 : Drive (W * tape) (fut svc) (result Resp Err)).
  Context (fq : qst Q -> qst Q0).
  Notation ca := (call_all (rung_svc rings svc) (rung_stream rings S) Q).
  Notation ca0 := (call_all (taped svc) (tstream S) (Q0 : Drive (W * tape) (fut (taped svc)) (result Resp Err))).
  Definition forget_all (c : ca) : ca0 :=
    CA (svc := taped svc) (S := tstream S) (Q := (Q0 : Drive (W * tape) (fut (taped svc)) (result Resp Err)))
      (ca_svc c) (ca_stream c) (fq (ca_queue c)) (ca_eof c) (ca_req c).
  (** The operations above; a waker does nothing here. *)
  Definition tlstep (o : aop (W := W)) (y : ca0 * (W * tape)) : option (aobs (Resp := Resp) (Err := Err) * ca0 * (W * tape)) :=
    let '(c, x) := y in
    match o with
    | LPoll => match ca_next fuel c x with (x1, Val (c1, a)) => Some (LPolled a, c1, x1) | _ => None end
    | LRing k => Some (LMoved, c, x)
    | LEnv g => Some (LMoved, c, offw g x)
    end.
  Fixpoint tlrun (y : ca0 * (W * tape)) (l : list aop) : list (aobs (Resp := Resp) (Err := Err) * ca0 * (W * tape)) :=
    match l with
    | [] => []
    | o :: l' =>
        match tlstep o y with
        | None => []
        | Some (b, c1, x1) => (b, c1, x1) :: tlrun (c1, x1) l'
        end
    end.
  Definition tlhistory (s : st svc) (t : sst S) (w : W) (tp : tape) (l : list aop) : list (aobs (Resp := Resp) (Err := Err) * ca0 * (W * tape)) :=
    tlrun (ca_new (taped svc) (tstream S) (Q0 : Drive (W * tape) (fut (taped svc)) (result Resp Err)) s t, (w, tp)) l.
End Forget.
Arguments tlhistory {W Req Resp Err} svc S fuel Q0 s t w tp l.
Arguments forget_all {W Req Resp Err} svc S rings {Q Q0} fq c.
