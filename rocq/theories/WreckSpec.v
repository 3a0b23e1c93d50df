(** Specification for C83: load tracking (the system of C53-C55, LoadSpec.v) of which some operations panic.  Whoever
    owns the service or the future that panicked may catch that and go on using it, or drop it (as unwinding does); the
    owners of the others go on. *)
From Verif Require Import Base Middleware Load LoadSpec.
Set Implicit Arguments.

Section Wreck.
  Context {W Req Resp Err C T Met : Type} (svc : Service W Req Resp Err).
  Context (start : M W T) (finish : T -> C -> W -> C * W) (keep : Resp -> W -> W * bool).
  (** The state in which a panic leaves the wrapped service, or a future of it: anything. *)
  Context (ruin : st svc -> st svc) (ruin_fut : fut svc -> fut svc).
  Notation lop := (lop W Req).
  Notation lobs := (lobs Resp Err Met).
  Notation tl := (tracked_load svc start finish keep).

  (** ** The model, of which a panic is not the end.  PendingRequests, PeakEwma and TrackCompletionFuture keep nothing
      in local variables across the calls into the wrapped service, except the new handle in [call] (see [tl_call]):
      pending_requests.rs:91-97, peak_ewma.rs:122-128, completion.rs:76-84. *)
  Context (load : M (arc (C := C) * W) Met).
  Notation lsys := (lsys svc start finish keep).
  Definition wreck_step (o : lop) (y : lsys) : lsys * lobs :=
    match lsys_step load o y with
    | (y1, LoPanic) =>
        match o with
        | LReady | LCall _ => (LSys (option_map ruin (l_svc y1)) (l_futs y1) (l_kept y1) (l_w y1), LoPanic)
        | LPoll j =>
            match nth_error (l_futs y1) j with
            | Some (Some f) =>
                (LSys (l_svc y1) (set_nth j (Some (TcFut (ruin_fut (tc_inner f)) (tc_handle f))) (l_futs y1)) (l_kept y1) (l_w y1), LoPanic)
            | _ => (y1, LoPanic)
            end
        | _ => (y1, LoPanic)
        end
    | r => r
    end.
  Fixpoint wreck_run (y : lsys) (l : list lop) : list (lop * lobs * W) :=
    match l with
    | [] => []
    | o :: l' =>
        let '(y1, b) := wreck_step o y in
        (o, b, snd (l_w y1)) :: match b with LoDiverge => [] | _ => wreck_run y1 l' end
    end.

  (** ** The reference (no reference count, no handles: LoadSpec.v), of which a panic is not the end. *)
  Context (rload : nat -> C -> W -> C * W * Met).
  Notation rsys := (rsys (C := C) (T := T) svc).
  Definition rwreck_step (o : lop) (z : rsys) : rsys * lobs :=
    match rsys_step start finish keep rload o z with
    | (z1, LoPanic) =>
        match o with
        | LReady | LCall _ => (RSys svc (option_map ruin (r_svc z1)) (r_futs z1) (r_reqs z1) (r_est z1) (r_w z1), LoPanic)
        | LPoll j =>
            match nth_error (r_futs z1) j with
            | Some (Some f) =>
                (RSys svc (r_svc z1) (set_nth j (Some (ruin_fut f)) (r_futs z1)) (r_reqs z1) (r_est z1) (r_w z1), LoPanic)
            | _ => (z1, LoPanic)
            end
        | _ => (z1, LoPanic)
        end
    | r => r
    end.
  Fixpoint rwreck_run (z : rsys) (l : list lop) : list (lop * lobs * W) :=
    match l with
    | [] => []
    | o :: l' =>
        let '(z1, b) := rwreck_step o z in
        (o, b, r_w z1) :: match b with LoDiverge => [] | _ => rwreck_run z1 l' end
    end.
End Wreck.

(** The calls that returned. *)
Definition made_calls {W Req Resp Err Met : Type} (h : list (lop W Req * lobs Resp Err Met * W)) : nat :=
  length (List.filter (fun e => match fst e with (LCall _, LoCalled) => true | _ => false end) h).
(** Everything that was handed out has been dropped: each future, and each handle that was kept. *)
Definition all_dropped {W Req Resp Err Met : Type} (h : list (lop W Req * lobs Resp Err Met * W)) : Prop :=
  forall j, j < made_calls h ->
    (exists w, In (LDropFut j, LoDone, w) h) /\
    ((exists v w, In (LPoll j, LoPolled (Ready (Ok (v, true))), w) h) -> exists w, In (LDropHandle j, LoDone, w) h).
