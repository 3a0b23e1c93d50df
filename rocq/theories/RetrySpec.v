(** Specification for C09-C11: what one [Retry] request does, as a protocol over
    the events at the wrapped service and at the policy. *)
From Verif Require Import Base Middleware Track.
Set Implicit Arguments.

Section RetrySpec.
  Context {W Req Resp Err : Type} (pol : Policy W Req Resp Err) (svc : Service W Req Resp Err).

  (** Events: the wrapped service's, and the policy's. *)
  Inductive rev_ :=
  | RIn (e : tev Req Resp Err)
  | RSave (p p1 : pst pol) (r : Req) (saved : option Req)   (* clone_request(&r) answered [saved] *)
  | RAsk (p p1 : pst pol) (q q1 : Req) (res res1 : result Resp Err) (granted : bool)
      (* retry(&mut q, &mut res): left [q1], [res1]; [granted]: returned Some(future) *)
  | RWait (a : poll unit)                                  (* the policy's future was polled *)
  | RWaitDrop
  | RPolClone (p p1 : pst pol).

  (** The policy with its operations recorded. *)
  Definition rpol : Policy (W * tk rev_) Req Resp Err :=
    MkPolicy (W := W * tk rev_)
      (MkTask (W := W * tk rev_) (tst (pfut pol))
         (fun t => '(t1, a) <- tk_lift (tpoll (pfut pol) t) ;; tk_emit (RWait a) ;;; ret (t1, a))
         (fun t x => (tdrop (pfut pol) t (fst x), Tk (tk_next (snd x)) (RWaitDrop :: tk_log (snd x)))))
      (fun p r => '(p1, saved) <- tk_lift (clone_request pol p r) ;;
                  tk_emit (RSave p p1 r saved) ;;; ret (p1, saved))
      (fun p q res =>
         '(p1, q1, res1, d) <- tk_lift (retry_decide pol p q res) ;;
         tk_emit (RAsk p p1 q q1 res res1 (match d with Some _ => true | None => false end)) ;;;
         ret (p1, q1, res1, d))
      (fun p => p1 <- tk_lift (pol_clone pol p) ;; tk_emit (RPolClone p p1) ;;; ret p1).

  Definition tretry (fuel : nat) : Service (W * tk rev_) Req Resp Err :=
    retry rpol (tracked (L := rev_) RIn svc) fuel.

  (** Where a request stands. *)
  Inductive rphase :=
  | PRunning (j : nat) (saved : option Req)         (* attempt [j] under way *)
  | PAnswered (j : nat) (q : Req) (res : result Resp Err)   (* it answered, the policy is to be asked *)
  | PGranted (j : nat) (q : Req)                     (* the old attempt is to be let go *)
  | PWaiting (q : Req)                               (* waiting for the policy's future *)
  | PWaited (q : Req)
  | PReadying (q : Req)                              (* waiting for the service *)
  | PSaving (q : Req)                                (* service ready; a copy of [q] is to be taken *)
  | PCalling (q : Req) (saved : option Req)          (* and [q] is to be sent *)
  | PDone (res : result Resp Err).

  (** One event.  [p]: the policy's current state; [i]: the instance of the
      wrapped service used for further attempts.  [None]: not allowed. *)
  Inductive rstep (i : nat) : pst pol * rphase -> rev_ -> pst pol * rphase -> Prop :=
  | s_pending p j saved :
      rstep i (p, PRunning j saved) (RIn (TPoll j Pending)) (p, PRunning j saved)
  (* nothing saved: the response is final as it is *)
  | s_final p j res :
      rstep i (p, PRunning j None) (RIn (TPoll j (Ready res))) (p, PDone res)
  | s_answer p j q res :
      rstep i (p, PRunning j (Some q)) (RIn (TPoll j (Ready res))) (p, PAnswered j q res)
  (* the policy declines: the response is final as the policy left it *)
  | s_decline p p1 j q q1 res res1 :
      rstep i (p, PAnswered j q res) (RAsk p p1 q q1 res res1 false) (p1, PDone res1)
  | s_grant p p1 j q q1 res res1 :
      rstep i (p, PAnswered j q res) (RAsk p p1 q q1 res res1 true) (p1, PGranted j q1)
  | s_letgo p j q :
      rstep i (p, PGranted j q) (RIn (TDropFut j)) (p, PWaiting q)
  | s_wait p q :
      rstep i (p, PWaiting q) (RWait Pending) (p, PWaiting q)
  | s_waited p q :
      rstep i (p, PWaiting q) (RWait (Ready tt)) (p, PWaited q)
  | s_waitdrop p q :
      rstep i (p, PWaited q) RWaitDrop (p, PReadying q)
  | s_unready p q :
      rstep i (p, PReadying q) (RIn (TReady i Pending)) (p, PReadying q)
  | s_ready_err p q e :
      rstep i (p, PReadying q) (RIn (TReady i (Ready (Er e)))) (p, PDone (Er e))
  | s_ready p q :
      rstep i (p, PReadying q) (RIn (TReady i (Ready (Ok tt)))) (p, PSaving q)
  | s_save p p1 q saved :
      rstep i (p, PSaving q) (RSave p p1 q saved) (p1, PCalling q saved)
  | s_call p q saved j :
      rstep i (p, PCalling q saved) (RIn (TCall i q j)) (p, PRunning j saved).

  (** A chronological list of events. *)
  Inductive rsteps (i : nat) : pst pol * rphase -> list rev_ -> pst pol * rphase -> Prop :=
  | rsteps_nil a : rsteps i a [] a
  | rsteps_cons a e b l c : rstep i a e b -> rsteps i b l c -> rsteps i a (e :: l) c.

  (** Something the future depends on has just answered [Pending]. *)
  Definition is_pending (e : rev_) : Prop :=
    match e with
    | RIn (TPoll _ Pending) | RIn (TReady _ Pending) | RWait Pending => True
    | _ => False
    end.

  Definition is_call (e : rev_) : bool := match e with RIn (TCall _ _ _) => true | _ => false end.
  Definition is_grant (e : rev_) : bool := match e with RAsk _ _ _ _ _ _ g => g | _ => false end.
  Definition count (f : rev_ -> bool) (l : list rev_) : nat := length (List.filter f l).
End RetrySpec.
Arguments RIn {W Req Resp Err pol} e.
Arguments RSave {W Req Resp Err pol} p p1 r saved.
Arguments RAsk {W Req Resp Err pol} p p1 q q1 res res1 granted.
Arguments RWait {W Req Resp Err pol} a.
Arguments RWaitDrop {W Req Resp Err pol}.
Arguments RPolClone {W Req Resp Err pol} p p1.
Arguments rsteps {W Req Resp Err pol} i _ _ _.
Arguments is_pending {W Req Resp Err pol} e.
Arguments is_call {W Req Resp Err pol} e.
Arguments is_grant {W Req Resp Err pol} e.
Arguments count {W Req Resp Err pol} f l.
