(** Specifications for C05 (Timeout), C06 (LoadShed), C07 (Filter), C08 (AsyncFilter). *)
From Verif Require Import Base DriveSpec Util Middleware Track.
Set Implicit Arguments.

(** C05.  The history [d] of a [Timeout] future with deadline [dl] around the
    inner future [f], polled under [gs] from world [w].  "Late" means that the
    timer had fired when looked at. *)
Section TimeoutSpec.
  Context {W Req Resp Err : Type} (svc : Service W Req Resp Err) (rt : Rt W).

  (** Poll the inner future; when it is pending, also poll the timer. *)
  Definition poll_and_nap (dl : Z) (f : fut svc) : M W (fut svc * poll (result Resp Err)) :=
    x <- poll_fut svc f ;;
    match snd x with Pending => modify (nap rt dl) ;;; ret x | Ready _ => ret x end.

  Definition timeout_history_ok (f : fut svc) (dl : Z) (w : W) (gs : list (W -> W))
    (d : list W * fin W (timeout_fut svc) (result Resp (Err + unit))) : Prop :=
    let late x := fired rt x dl = true in
    (* it never stays pending once late *)
    Forall (fun x => ~ late x) (fst d) /\
    match snd d with
    | Unfinished x w1 =>
        drive (poll_and_nap dl) f w gs = (fst d, Unfinished (to_inner x) w1)
    | Finished x w1 (Er (inr tt)) =>
        (* Elapsed: the inner future answered Pending in this very poll, and it is late *)
        drive (poll_and_nap dl) f w (firstn (S (length (fst d))) gs)
          = (fst d ++ [w1], Unfinished (to_inner x) w1) /\ late w1
    | Finished x w1 (Ok a) =>
        drive (poll_and_nap dl) f w (firstn (S (length (fst d))) gs)
          = (fst d, Finished (to_inner x) w1 (Ok a))
    | Finished x w1 (Er (inl e)) =>
        drive (poll_and_nap dl) f w (firstn (S (length (fst d))) gs)
          = (fst d, Finished (to_inner x) w1 (Er e))
    | Panicked w1 => drive (poll_and_nap dl) f w gs = (fst d, Panicked w1)
    | Spun w1 => drive (poll_and_nap dl) f w gs = (fst d, Spun w1)
    end.
End TimeoutSpec.

(** C06.  One entry of the history of a [LoadShed] around a recorded service:
    world before, what the owner saw, world after. *)
Section LoadShedSpec.
  Context {W Req Resp Err : Type} (svc : Service W Req Resp Err).
  Let tsvc := tracked (fun e => e) svc.

  Definition shed_entry (x : (W * tk (tev Req Resp Err)) * sobs (load_shed tsvc) * (W * tk (tev Req Resp Err))) : Prop :=
    match x with
    | (w, o, w1) =>
        match o with
        (* never Pending; each poll asks the inner service exactly once *)
        | ObsReady Pending => False
        | ObsReady (Ready (Ok _)) =>
            log_of w1 = TReady 0 Pending :: log_of w \/ log_of w1 = TReady 0 (Ready (Ok tt)) :: log_of w
        | ObsReady (Ready (Er (inl e))) => log_of w1 = TReady 0 (Ready (Er e)) :: log_of w
        | ObsReady (Ready (Er (inr _))) => False
        (* passed on: the inner service had just said it is ready *)
        | ObsCall r (Some f) =>
            (exists l, log_of w = TReady 0 (Ready (Ok tt)) :: l) /\
            log_of w1 = TCall 0 r (fst f) :: log_of w
        (* rejected: it had not; and nothing at all happens to it *)
        | ObsCall r None => (exists l, log_of w = TReady 0 Pending :: l) /\ w1 = w
        | ObsSkip => w1 = w
        | ObsPanic | ObsDiverge => log_of w1 = log_of w
        end
    end.
End LoadShedSpec.

(** C07.  Likewise for [Filter].  The log also records every run of the
    predicate: state before, request, state after, verdict. *)
Section FilterSpec.
  Context {W Req Req' Resp Err PErr P : Type} (svc : Service W Req Resp Err).
  Context (check : P -> Req' -> M W (P * result Req PErr)) (pclone : P -> M W P).

  Definition fev : Type := tev Req Resp Err + (P * Req' * P * result Req PErr).
  Definition check_logged (p : P) (r : Req') : M (W * tk fev) (P * result Req PErr) :=
    '(p1, v) <- tk_lift (L := fev) (check p r) ;; tk_emit (L := fev) (inr (p, r, p1, v)) ;;; ret (p1, v).
  Definition tfilter : Service (W * tk fev) Req' Resp (Err + PErr) :=
    filter (tracked (L := fev) inl svc) check_logged (fun p => tk_lift (pclone p)).

  Definition filter_entry (x : (W * tk fev) * sobs tfilter * (W * tk fev)) : Prop :=
    match x with
    | (w, o, w1) =>
        match o with
        | ObsReady a =>
            exists a0, a = poll_map (map_er inl) a0 /\ log_of w1 = inl (TReady 0 a0) :: log_of w
        (* accepted: the predicate ran once, then the inner service was called once
           with the request the predicate returned *)
        | ObsCall r (inr (Some f)) =>
            exists p p1 r1, log_of w1 = inl (TCall 0 r1 (fst f)) :: inr (p, r, p1, Ok r1) :: log_of w
        (* rejected: the predicate ran once, nothing else happened *)
        | ObsCall r (inl (Some e)) =>
            exists p p1, log_of w1 = inr (p, r, p1, Er e) :: log_of w
        | ObsCall r (inr None) | ObsCall r (inl None) => False
        | ObsSkip => w1 = w
        | ObsPanic | ObsDiverge => True
        end
    end.

  (** The predicate's state is threaded from each run to the next: oldest run
      last in the log. *)
  Fixpoint pred_runs (l : list fev) : list (P * Req' * P * result Req PErr) :=
    match l with
    | [] => []
    | inl _ :: l' => pred_runs l'
    | inr x :: l' => x :: pred_runs l'
    end.
  Fixpoint threaded (p0 : P) (l : list (P * Req' * P * result Req PErr)) : Prop :=
    match l with
    | [] => True
    | (p, _, _, _) :: l' =>
        match l' with
        | [] => p = p0
        | (_, _, p1, _) :: _ => p = p1
        end /\ threaded p0 l'
    end.
End FilterSpec.
