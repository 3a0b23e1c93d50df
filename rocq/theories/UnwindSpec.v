(** C67: ConcurrencyLimits of which some operations panic.  A panic unwinds into the owner of the instance or
    future - a task, say - and takes it along; the other owners go on. *)
From Verif Require Import Base Middleware Limits ConcSpec.
Set Implicit Arguments.

Section Unwind.
  Context {W Req Resp Err : Type} (svc : Service W Req Resp Err) (max : nat).
  Notation cl := (conc_limit svc (fun _ => false) true).

  (** ** The model: the semaphore after the unwinding.

      limit/concurrency/service.rs:66-83: the wrapped service's [poll_ready] panics with the permit already stored
      in [self]; [self] is dropped by its owner. *)
  Definition ready_unwound (c : conc_st svc) (m : sem) : sem :=
    let '(m1, wait1, permit) :=
      if cl_permit c then (m, cl_wait c, true) else sem_poll (cl_wait c) m in
    let m2 := sem_forget wait1 m1 in
    if permit then sem_release m2 else m2.
  (** service.rs:85-96: the permit is a local variable when the wrapped service's [call] panics; it is dropped
      first, then [self] by its owner.  Without a permit [expect] panics. *)
  Definition call_unwound (c : conc_st svc) (m : sem) : sem :=
    let m1 := if cl_permit c then sem_release m else m in
    sem_forget (cl_wait c) m1.
  (** service.rs:99-109: [clone] panics; the original is dropped by its owner. *)
  Definition clone_unwound (c : conc_st svc) (m : sem) : sem :=
    let m1 := sem_forget (cl_wait c) m in if cl_permit c then sem_release m1 else m1.
  (** limit/concurrency/future.rs:12-20: the future owns the permit. *)
  Definition poll_unwound (m : sem) : sem := sem_release m.

  (** The system of C34-C36, except that a panic does not end it.  [CEnv] can follow: the drop of the wreck may have
      done anything to the rest of the world. *)
  Definition crash_step (o : cop svc) (y : sys svc) : sys svc * cobs :=
    match sys_step o y with
    | (y1, CoPanic) =>
        let w1 := snd (y_w y1) in
        let m := fst (y_w y) in
        match o with
        | CReady i => match nth_error (y_insts y) i with
                      | Some (Some c) => (Sys (set_nth i None (y_insts y)) (y_futs y) (ready_unwound c m, w1), CoPanic)
                      | _ => (y, CoPanic)
                      end
        | CCall i r => match nth_error (y_insts y) i with
                      | Some (Some c) => (Sys (set_nth i None (y_insts y)) (y_futs y) (call_unwound c m, w1), CoPanic)
                      | _ => (y, CoPanic)
                      end
        | CClone i => match nth_error (y_insts y) i with
                      | Some (Some c) => (Sys (set_nth i None (y_insts y)) (y_futs y) (clone_unwound c m, w1), CoPanic)
                      | _ => (y, CoPanic)
                      end
        | CPoll j => (Sys (y_insts y) (set_nth j None (y_futs y)) (poll_unwound m, w1), CoPanic)
        | _ => (y1, CoPanic)
        end
    | r => r
    end.
  Fixpoint crash_run (y : sys svc) (l : list (cop svc)) : list (cobs * W) * sys svc :=
    match l with
    | [] => ([], y)
    | o :: l' =>
        let '(y1, b) := crash_step o y in
        match b with
        | CoDiverge => ([(b, snd (y_w y1))], y1)
        | _ => let '(h, y2) := crash_run y1 l' in ((b, snd (y_w y1)) :: h, y2)
        end
    end.

  (** ** The specification: as in C36; an instance or request that panics is gone, and its permit or its place in
      the line with it. *)
  Definition crash_spec_step (o : cop svc) (sp : spec svc) : spec svc * cobs :=
    match spec_step max o sp with
    | (sp1, CoPanic) =>
        match o with
        | CReady i | CCall i _ | CClone i =>
            (Spec (set_nth i None (p_insts sp)) (leave i (p_line sp)) (p_futs sp) (p_w sp1), CoPanic)
        | CPoll j => (Spec (p_insts sp) (p_line sp) (set_nth j None (p_futs sp)) (p_w sp1), CoPanic)
        | _ => (sp1, CoPanic)
        end
    | r => r
    end.
  Fixpoint crash_spec_run (sp : spec svc) (l : list (cop svc)) : list (cobs * W) * spec svc :=
    match l with
    | [] => ([], sp)
    | o :: l' =>
        let '(sp1, b) := crash_spec_step o sp in
        match b with
        | CoDiverge => ([(b, p_w sp1)], sp1)
        | _ => let '(h, sp2) := crash_spec_run sp1 l' in ((b, p_w sp1) :: h, sp2)
        end
    end.
End Unwind.
