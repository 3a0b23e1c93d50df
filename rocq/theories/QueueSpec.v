(** Specification for C76: the instances under one concurrency limit together with the wakers of the tasks that own them.

    What is assumed of tokio: the semaphore keeps the waker of an instance it answered [Pending] and fires it when it
    hands that instance a permit; if it answered [Pending] only because the task's cooperative budget was used up, the
    task is woken at once. *)
From Verif Require Import Base Limits ConcSpec.
Set Implicit Arguments.

Definition mark (f : nat -> bool) (i : nat) (b : bool) : nat -> bool := fun k => if k =? i then b else f k.

Section Queue.
  Context {W Req Resp Err : Type} (svc : Service W Req Resp Err) (max : nat).
  Notation sys := (sys svc).
  Notation cop := (cop svc).
  Notation cobs := (cobs (Resp := Resp) (Err := Err)).

  Inductive qop :=
  | QDo (o : cop)
  | QBusy (i : nat)        (* poll_ready on instance [i] by a task whose cooperative budget is used up *)
  | QWake (i : nat).       (* the owner of instance [i] is woken by something else, e.g. by the wrapped service *)

  (** [q_told i]: instance [i] was last told [Pending] and has neither been called nor dropped since.  [q_woken i]: its
      owner has been woken since its last [poll_ready] began.  [q_obs]: what was observed, latest first. *)
  Record qsys := QSys { q_y : sys; q_told : nat -> bool; q_woken : nat -> bool; q_obs : list cobs }.
  Definition qsys0 (s : st svc) (w : W) : qsys := QSys (sys0 svc max s w) (fun _ => false) (fun _ => false) [].

  (** The semaphore fires the waker of [i]: it was in the queue and now has a permit. *)
  Definition fires (i : nat) (y y1 : sys) : bool :=
    match nth_error (y_insts y) i with
    | Some (Some c) =>
        match cl_wait c with
        | Some t => mem_nat t (sem_queue (fst (y_w y))) && mem_nat t (sem_granted (fst (y_w y1)))
        | None => false
        end
    | _ => false
    end.
  Definition told_step (o : cop) (b : cobs) (told : nat -> bool) : nat -> bool :=
    match o, b with
    | CReady i, CoReady Pending => mark told i true
    | CReady i, CoReady (Ready _) => mark told i false
    | CCall i _, CoCalled _ => mark told i false
    | CDropSvc i, _ => mark told i false
    | _, _ => told
    end.
  Definition asks (i : nat) (o : cop) : bool := match o with CReady k => k =? i | _ => false end.

  (** The budget matters only when the semaphore is asked and has to be waited for: not with a permit in hand, not for
      a newcomer when there is a free permit (tokio-util's [PollSemaphore] begins with [try_acquire]). *)
  Definition cut_short (i : nat) (y : sys) : bool :=
    match nth_error (y_insts y) i with
    | Some (Some c) =>
        negb (cl_permit c) &&
        match cl_wait c with Some _ => true | None => sem_avail (fst (y_w y)) =? 0 end
    | _ => false
    end.
  Definition qdo (o : cop) (x : qsys) : qsys :=
    let '(y1, b) := sys_step o (q_y x) in
    QSys y1 (told_step o b (q_told x))
      (fun i => (q_woken x i && negb (asks i o)) || fires i (q_y x) y1) (b :: q_obs x).
  Definition qstep (o : qop) (x : qsys) : qsys :=
    match o with
    | QDo o => qdo o x
    | QBusy i =>
        if cut_short i (q_y x) then
          QSys (q_y x) (mark (q_told x) i true) (mark (q_woken x) i true) (CoReady Pending :: q_obs x)
        else qdo (CReady i) x
    | QWake i => QSys (q_y x) (q_told x) (mark (q_woken x) i true) (q_obs x)
    end.
  Definition qrun (x : qsys) (ops : list qop) : qsys := fold_left (fun x o => qstep o x) ops x.

  (** What of it the specification of C36 is told about: everything but polls that were cut short. *)
  Fixpoint seen (x : qsys) (ops : list qop) : list cop :=
    match ops with
    | [] => []
    | o :: ops' =>
        match o with
        | QDo o => [o]
        | QBusy i => if cut_short i (q_y x) then [] else [CReady i]
        | QWake _ => []
        end ++ seen (qstep o x) ops'
    end.
  Definition line_of (s : st svc) (w : W) (ops : list qop) : spec svc :=
    snd (spec_run max (spec0 svc s w) (seen (qsys0 s w) ops)).

  (** No wrapped service has panicked or hung so far, nobody has called an instance that was not ready. *)
  Definition calm (x : qsys) : Prop := Forall (fun b => match b with CoPanic | CoDiverge => False | _ => True end) (q_obs x).

  (** Permits in somebody's hands: with an instance, or with a request in flight. *)
  Definition in_use (y : sys) : nat :=
    length (List.filter (fun c => match c with Some c => cl_permit c | None => false end) (y_insts y)) + live (y_futs y).

  (** How often a permit is given back while [ops] are executed: a request in flight, or an instance with a permit, is
      dropped. *)
  Definition gives_back (o : qop) (y : sys) : bool :=
    match o with
    | QDo (CDropFut j) => match nth_error (y_futs y) j with Some (Some _) => true | _ => false end
    | QDo (CDropSvc i) => match nth_error (y_insts y) i with Some (Some c) => cl_permit c | _ => false end
    | _ => false
    end.
  Fixpoint given_back (x : qsys) (ops : list qop) : nat :=
    match ops with
    | [] => 0
    | o :: ops' => (if gives_back o (q_y x) then 1 else 0) + given_back (qstep o x) ops'
    end.
  (** Instance [i] is left alone. *)
  Definition leaves_alone (i : nat) (o : qop) : Prop :=
    match o with QDo (CReady k) | QDo (CDropSvc k) | QBusy k => k <> i | _ => True end.
End Queue.
Arguments QDo {W Req Resp Err svc} o.
Arguments QBusy {W Req Resp Err svc} i.
Arguments QWake {W Req Resp Err svc} i.
