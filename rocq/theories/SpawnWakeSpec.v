(** Specification for C88: histories of a SpawnReady, its owner, its background task and their wakers. *)
From Verif Require Import Base WakeCache RingSpec SpawnReady WakeSpawn RefineSpec.
Set Implicit Arguments.

Section History.
  Context {W Req Resp Err : Type} (svc : Service W Req Resp Err).
  Context (rings : W -> list waker) (gap : W -> W * list gmove) (coop : W -> bool) (fuel : nat).
  Notation ws := (wspawn svc).

  (** The owner runs and polls it; calls it; the runtime gets round to the background task; drops it (shutdown); a
      waker fires; anything else happens. *)
  Inductive sop := SPoll | SCall (r : Req) | SRun | SKill | SRing (k : waker) | SEnv (g : W -> W).
  Inductive sobs := SPolled (a : poll (result unit (sr_err (Err := Err)))) | SCalled | SMoved.
  (** [None]: a panic, or an operation that does not return; it ends the history. *)
  Definition sstep (o : sop) (x : ws * W) : option (sobs * ws * W) :=
    let '(c, w) := x in
    match o with
    | SPoll => match wdo (ws_ready rings gap coop fuel (swoken false c)) w with
               | Some ((c1, a), w1) => Some (SPolled a, c1, w1) | None => None end
    | SCall r => match wdo (ws_call rings c r) w with Some ((c1, _), w1) => Some (SCalled, c1, w1) | None => None end
    | SRun => match wdo (srun rings c) w with Some (c1, w1) => Some (SMoved, c1, w1) | None => None end
    | SKill => match wdo (skill c) w with Some (c1, w1) => Some (SMoved, c1, w1) | None => None end
    | SRing k => Some (SMoved, sring k c, w)
    | SEnv g => Some (SMoved, c, g w)
    end.
  Fixpoint srun_all (x : ws * W) (l : list sop) : list (sobs * ws * W) :=
    match l with
    | [] => []
    | o :: l' =>
        match sstep o x with
        | None => []
        | Some (b, c1, w1) => (b, c1, w1) :: srun_all (c1, w1) l'
        end
    end.
  Definition shistory (s : st svc) (w : W) (l : list sop) : list (sobs * ws * W) := srun_all (wspawn_new svc s, w) l.

  (** The background task at work, and whether it is in the run queue. *)
  Definition at_work (c : ws) : option (nat * bool) :=
    match ws_in c with WsFut t (TRun _) queued _ => Some (t, queued) | _ => None end.
  (** The service waits: its last answer was [Pending], and the background task's waker, given with that question, has not
      fired since. *)
  Definition service_waits (c : ws) (t : nat) : Prop := waiting (ws_log c) 0 (WkChild t).
End History.
Arguments SPoll {W Req}.
Arguments SRun {W Req}.
Arguments SKill {W Req}.
Arguments SRing {W Req} _.
Arguments SEnv {W Req} _.
Arguments SCall {W Req} _.

(** ** Without wakers: the SpawnReady of SpawnReady.v, the number of background polls read from a tape. *)
Section Forget.
  Context {W Req Resp Err : Type} (svc : Service W Req Resp Err).
  Definition task_off (t : rtask svc) : rtask (taped svc) :=
    match t with
    | TRun s => TRun (svc := taped svc) s
    | TDone (Ok s) => TDone (svc := taped svc) (Ok s)
    | TDone (Er e) => TDone (svc := taped svc) (Er e)
    | TLost => TLost | TTaken => TTaken
    end.
  Definition forget_spawn (c : wspawn svc) : sr_st (taped svc) :=
    match ws_in c with
    | WsSvc s => SrSvc (svc := taped svc) s
    | WsFut _ t _ _ => SrFut (task_off t)
    end.
  (** The number of polls is that of the next entry of the tape; [gap]'s effect on the world stays. *)
  Definition tnext (x : W * tape) : (W * tape) * nat :=
    match snd x with [] => (x, 0) | o :: r => ((fst x, r), length o) end.
  Definition tbg (gap : W -> W * list gmove) (x : W * tape) : (W * tape) * nat := tnext (fst (gap (fst x)), snd x).

  Context (gap : W -> W * list gmove) (fuel : nat).
  (** The operations above; a waker does nothing here. *)
  Definition fstep (o : sop (W := W) (Req := Req)) (x : sr_st (taped svc) * (W * tape)) : option (sobs (Err := Err) * sr_st (taped svc) * (W * tape)) :=
    let '(s, w) := x in
    let background (m : rtask (taped svc) -> M (W * tape) (rtask (taped svc))) :=
      match s with
      | SrFut t => match odo (m t) w with Some (t1, w1) => Some (SMoved, SrFut t1, w1) | None => None end
      | _ => Some (SMoved, s, w)
      end in
    match o with
    | SPoll => match odo (sr_ready (tbg gap) fuel s) w with Some ((s1, a), w1) => Some (SPolled a, s1, w1) | None => None end
    | SCall r => match odo (sr_call s r) w with Some ((s1, _), w1) => Some (SCalled, s1, w1) | None => None end
    | SRun => background (fun t => k <- (fun w => let '(w1, k) := tnext w in (w1, Val k)) ;; task_polls k t)
    | SKill => background (task_cancel (svc := taped svc))
    | SRing k => Some (SMoved, s, w)
    | SEnv g => Some (SMoved, s, offw g w)
    end.
  Fixpoint frun (x : sr_st (taped svc) * (W * tape)) (l : list (sop (W := W) (Req := Req))) : list (sobs (Err := Err) * sr_st (taped svc) * (W * tape)) :=
    match l with
    | [] => []
    | o :: l' =>
        match fstep o x with
        | None => []
        | Some (b, s1, w1) => (b, s1, w1) :: frun (s1, w1) l'
        end
    end.
End Forget.
