(** Specification for closures with effects (C03): the log records every use of the wrapped service and, marked [inr],
    every run of the closure with what it was given and what it returned.  Newest event first. *)
From Verif Require Import Base Util Track.
Set Implicit Arguments.

Section Spec.
  Context {W Req Req' Resp Resp' Err Err' : Type} (svc : Service W Req Resp Err).

  (** A closure that records its runs. *)
  Definition noted {A B C} (n : A -> B -> C) (f : A -> M W B) (a : A) : M (W * tk (tev Req Resp Err + C)) B :=
    b <- tk_lift (f a) ;; tk_emit (inr (n a b)) ;;; ret b.

  (** MapRequest: one run per call, before the inner call, which gets its result. *)
  Definition req_svc (f : Req' -> M W Req) := map_request (noted pair f) (tracked (L := tev Req Resp Err + Req' * Req) inl svc).
  Definition req_entry (f : Req' -> M W Req) (x : (W * tk (tev Req Resp Err + Req' * Req)) * sobs (req_svc f) * (W * tk (tev Req Resp Err + Req' * Req))) : Prop :=
    match x with
    | (w, o, w1) =>
        match o with
        | ObsReady a => log_of w1 = inl (TReady 0 a) :: log_of w
        | ObsCall r x => exists r1, log_of w1 = inl (TCall 0 r1 (fst x)) :: inr (r, r1) :: log_of w
        | ObsSkip => w1 = w
        | ObsPanic | ObsDiverge => log_of w1 = log_of w \/ exists r r1, log_of w1 = inr (r, r1) :: log_of w
        end
    end.

  (** MapErr: readiness errors go through the closure, once; nothing else does. *)
  Definition err_svc (f : Err -> M W Err') := map_err (noted pair f) (tracked (L := tev Req Resp Err + Err * Err') inl svc).
  Definition err_entry (f : Err -> M W Err') (x : (W * tk (tev Req Resp Err + Err * Err')) * sobs (err_svc f) * (W * tk (tev Req Resp Err + Err * Err'))) : Prop :=
    match x with
    | (w, o, w1) =>
        match o with
        | ObsReady (Ready (Er e1)) => exists e, log_of w1 = inr (e, e1) :: inl (TReady 0 (Ready (Er e))) :: log_of w
        | ObsReady (Ready (Ok u)) => log_of w1 = inl (TReady 0 (Ready (Ok u))) :: log_of w
        | ObsReady Pending => log_of w1 = inl (TReady 0 Pending) :: log_of w
        | ObsCall r (Some x) => log_of w1 = inl (TCall 0 r (fst x)) :: log_of w
        | ObsCall _ None => False
        | ObsSkip => w1 = w
        | ObsPanic | ObsDiverge => log_of w1 = log_of w \/ exists e, log_of w1 = inl (TReady 0 (Ready (Er e))) :: log_of w
        end
    end.

  (** MapFuture: one run per call, on the future just obtained (recorded by its number). *)
  Section Future.
    Context (into : Err -> Err') (T : Task (W * tk (tev Req Resp Err + nat)) (result Resp' Err')).
    Let tsvc := tracked (L := tev Req Resp Err + nat) inl svc.
    Context (f : fut tsvc -> M (W * tk (tev Req Resp Err + nat)) (tst T)).
    Definition fut_noted (x : fut tsvc) : M (W * tk (tev Req Resp Err + nat)) (tst T) := tk_emit (inr (fst x)) ;;; f x.
    Definition fut_svc := map_future into tsvc T fut_noted.
    (** [f] itself does not write the log. *)
    Definition silent : Prop := forall x w, log_of (fst (f x w)) = log_of w.
    Definition fut_entry (x : (W * tk (tev Req Resp Err + nat)) * sobs fut_svc * (W * tk (tev Req Resp Err + nat))) : Prop :=
      match x with
      | (w, o, w1) =>
          match o with
          | ObsReady a => exists a0, a = poll_map (map_er into) a0 /\ log_of w1 = inl (TReady 0 a0) :: log_of w
          | ObsCall r _ => exists j, log_of w1 = inr j :: inl (TCall 0 r j) :: log_of w
          | ObsSkip => w1 = w
          | ObsPanic | ObsDiverge => log_of w1 = log_of w \/ exists r j, log_of w1 = inr j :: inl (TCall 0 r j) :: log_of w
          end
      end.
  End Future.
End Spec.

(** service_fn: one run per call, none otherwise. *)
Section Fn.
  Context {W Req Resp Err : Type} (T : Task (W * tk Req) (result Resp Err)) (f : Req -> M W (tst T)).
  Definition fn_noted (r : Req) : M (W * tk Req) (tst T) := tk_emit r ;;; tk_lift (f r).
  Definition fn_entry (x : (W * tk Req) * sobs (service_fn T fn_noted) * (W * tk Req)) : Prop :=
    match x with
    | (w, o, w1) =>
        match o with
        | ObsReady a => a = Ready (Ok tt) /\ w1 = w
        | ObsCall r _ => log_of w1 = r :: log_of w
        | ObsSkip => w1 = w
        | ObsPanic | ObsDiverge => exists r, log_of w1 = r :: log_of w
        end
    end.
End Fn.
