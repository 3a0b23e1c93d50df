(** Specification of SpawnReady (C28): its log, oldest event first. *)
From Verif Require Import Base Track SpawnReady.
Set Implicit Arguments.

Inductive sev (Req Resp Err : Type) : Type :=
| SSvc (e : tev Req Resp Err)                             (* the wrapped service (number 0) was used *)
| SAns (a : poll (result unit (sr_err (Err := Err))))     (* SpawnReady's own poll_ready answered *)
| SIn (r : Req)                                           (* the owner called SpawnReady with [r] ... *)
| SOut (r : Req) (f : nat)                                (* ... and was given response future number [f] *)
| SCancel                                                 (* the runtime cancelled the background task *)
| SPanic | SDiverge.
Arguments SSvc {Req Resp Err} e.
Arguments SAns {Req Resp Err} a.
Arguments SIn {Req Resp Err} r.
Arguments SOut {Req Resp Err} r f.
Arguments SCancel {Req Resp Err}.
Arguments SPanic {Req Resp Err}.
Arguments SDiverge {Req Resp Err}.

Section Spec.
  Context {W Req Resp Err : Type} (svc : Service W Req Resp Err) (bg : W -> W * nat).
  Notation ev := (sev Req Resp Err).
  Notation TW := (W * tk ev)%type.
  Definition ssvc : Service TW Req Resp Err := tracked SSvc svc.
  Definition sbg (x : TW) : TW * nat := let '(w1, k) := bg (fst x) in ((w1, snd x), k).

  (** What happens to a SpawnReady: its owner polls it and calls it when ready;
      the background task is polled; it is cancelled. *)
  Inductive sr_op := OReady | OCall (r : Req) | OBg | OCancel.
  Definition on_task (f : rtask ssvc -> M TW (rtask ssvc)) (s : sr_st ssvc) : M TW (sr_st ssvc) :=
    match s with SrSvc _ => ret s | SrFut t => t1 <- f t ;; ret (SrFut t1) end.

  (** A history, respecting the contract of [Service]; it ends with the drop of
      the SpawnReady (or with a panic). *)
  Fixpoint sr_run (fuel : nat) (p : phase) (s : sr_st ssvc) (x : TW) (ops : list ((W -> W) * sr_op)) : TW :=
    match ops with
    | [] => sr_drop s x
    | (g, o) :: ops' =>
        let x0 := tk_env g x in
        match o, p with
        | OReady, Dead | OCall _, Idle | OCall _, Dead => sr_run fuel p s x0 ops'
        | OReady, _ =>
            match sr_ready sbg fuel s x0 with
            | (x1, Val (s1, a)) => sr_run fuel (phase_after a) s1 (fst (tk_emit (SAns a) x1)) ops'
            | (x1, Panic) => fst (tk_emit SPanic x1)
            | (x1, Diverge) => fst (tk_emit SDiverge x1)
            end
        | OCall r, Primed =>
            match sr_call s r (fst (tk_emit (SIn r) x0)) with
            | (x1, Val (s1, f)) => sr_run fuel Idle s1 (fst (tk_emit (SOut r (fst f)) x1)) ops'
            | (x1, Panic) => fst (tk_emit SPanic x1)
            | (x1, Diverge) => fst (tk_emit SDiverge x1)
            end
        | OBg, _ =>
            match on_task (@task_poll _ _ _ _ ssvc) s x0 with
            | (x1, Val s1) => sr_run fuel p s1 x1 ops'
            | (x1, Panic) => fst (tk_emit SPanic x1)
            | (x1, Diverge) => fst (tk_emit SDiverge x1)
            end
        | OCancel, _ =>
            match on_task (@task_cancel _ _ _ _ ssvc) s (fst (tk_emit SCancel x0)) with
            | (x1, Val s1) => sr_run fuel p s1 x1 ops'
            | (x1, Panic) => fst (tk_emit SPanic x1)
            | (x1, Diverge) => fst (tk_emit SDiverge x1)
            end
        end
    end.
  Definition sr_log (fuel : nat) (s : st svc) (w : W) (ops : list ((W -> W) * sr_op)) : list ev :=
    rev (log_of (sr_run fuel Idle (spawn_ready_new ssvc (0, s)) (w, Tk 1 []) ops)).

  (** The last use of the service in a log: its answer to [poll_ready], a call, or its end. *)
  Inductive use := Asked (a : poll (result unit Err)) | Called | Dropped | Unused.
  Definition last_use (l : list ev) : use :=
    fold_left (fun u e => match e with
                          | SSvc (TReady _ a) => Asked a
                          | SSvc (TCall _ _ _) => Called
                          | SSvc (TDropSvc _) => Dropped
                          | _ => u
                          end) l Unused.
  Definition last_asked (l : list ev) : option (poll (result unit Err)) :=
    fold_left (fun u e => match e with SSvc (TReady _ a) => Some a | _ => u end) l None.
  Definition drops (l : list ev) : nat :=
    length (List.filter (fun e => match e with SSvc (TDropSvc _) => true | _ => false end) l).

  (** Answers of SpawnReady against the state of the service before them. *)
  Definition answer_ok (l : list ev) (a : poll (result unit (sr_err (Err := Err)))) : Prop :=
    match a with
    | Pending => last_use l = Asked Pending
    | Ready (Ok _) => last_use l = Asked (Ready (Ok tt))
    | Ready (Er (SrInner e)) => last_asked l = Some (Ready (Er e))
    | Ready (Er SrJoin) => drops l = 1
    end.
  (** One event, given what came before. *)
  Definition event_ok (l : list ev) (e : ev) : Prop :=
    match e with
    | SAns a => answer_ok l a
    | SSvc (TReady i _) => i = 0 /\ last_use l <> Dropped
    | SSvc (TCall i r _) => i = 0 /\ last_use l = Asked (Ready (Ok tt)) /\ exists l1, l = l1 ++ [SIn r]
    | SSvc (TDropSvc i) => i = 0 /\ drops l = 0
    | SSvc _ => False
    | SOut r f => exists l1, l = l1 ++ [SIn r; SSvc (TCall 0 r f)]
    | SIn _ | SCancel | SPanic | SDiverge => True
    end.
  Definition log_ok (l : list ev) : Prop := forall l1 e l2, l = l1 ++ e :: l2 -> event_ok l1 e.
End Spec.
