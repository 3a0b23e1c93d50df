(** Specification of CallAll (C29-C31): the log of one CallAll stream, and what
    it may look like.  Lists of events are in chronological order. *)
From Verif Require Import Base Track ContractSpec CallAll.
Set Implicit Arguments.

Inductive cev (Req Resp Err : Type) : Type :=
| CNext (a : poll (option Req))                     (* the request stream was polled *)
| CSvc (e : tev Req Resp Err)                       (* the service or a response future was used *)
| CYield (a : poll (option (result Resp Err)))      (* CallAll's own poll_next answered *)
| CTook                                             (* take_service *)
| CPanic | CDiverge.
Arguments CNext {Req Resp Err} a.
Arguments CSvc {Req Resp Err} e.
Arguments CYield {Req Resp Err} a.
Arguments CTook {Req Resp Err}.
Arguments CPanic {Req Resp Err}.
Arguments CDiverge {Req Resp Err}.

Section Reading.
  Context {Req Resp Err : Type}.
  Notation ev := (cev Req Resp Err).
  Notation res := (result Resp Err).

  (** Requests taken from the stream. *)
  Definition pulled (l : list ev) : list Req :=
    flat_map (fun e => match e with CNext (Ready (Some r)) => [r] | _ => [] end) l.
  (** Calls of the service: the request and the number of the response future. *)
  Definition calls (l : list ev) : list (Req * nat) :=
    flat_map (fun e => match e with CSvc (TCall _ r j) => [(r, j)] | _ => [] end) l.
  (** Response futures that completed, and with what. *)
  Definition completions (l : list ev) : list (nat * res) :=
    flat_map (fun e => match e with CSvc (TPoll j (Ready o)) => [(j, o)] | _ => [] end) l.
  (** Failures of the service's [poll_ready]. *)
  Definition failures (l : list ev) : list Err :=
    flat_map (fun e => match e with CSvc (TReady _ (Ready (Er e))) => [e] | _ => [] end) l.
  (** Items yielded. *)
  Definition yields (l : list ev) : list res :=
    flat_map (fun e => match e with CYield (Ready (Some o)) => [o] | _ => [] end) l.
  Definition stream_ended (l : list ev) : Prop := In (CNext (Ready None)) l.

  (** The items yielded are the answers [Y] to calls, plus one item for the
      failed [poll_ready] if there was one. *)
  Definition yields_are (l : list ev) (Y : list res) : Prop :=
    match failures l with
    | [] => yields l = Y
    | [e] => exists Y1 Y2, Y = Y1 ++ Y2 /\ yields l = Y1 ++ Er e :: Y2
    | _ => False
    end.
  (** Call number [k] was answered with the [k]-th element of [Y]. *)
  Definition answers_in_order (l : list ev) (Y : list res) : Prop :=
    Forall2 (fun c o => In (snd c, o) (completions l)) (firstn (length Y) (calls l)) Y.
  (** Every call has its own future, which completes at most once. *)
  Definition calls_distinct (l : list ev) : Prop :=
    NoDup (map snd (calls l)) /\ NoDup (map fst (completions l)) /\
    forall j o, In (j, o) (completions l) -> In j (map snd (calls l)).

  (** No more requests: the stream ended or readiness failed. *)
  Definition over (l : list ev) : Prop := stream_ended l \/ failures l <> [].
  Definition ends_it (e : ev) : Prop :=
    match e with CNext (Ready None) | CSvc (TReady _ (Ready (Er _))) => True | _ => False end.
  (** The stream is not polled and the service not used any more. *)
  Definition left_alone (e : ev) : Prop :=
    match e with CNext _ | CSvc (TReady _ _) | CSvc (TCall _ _ _) => False | _ => True end.
  (** After the end of the stream or a readiness failure neither is touched again. *)
  Fixpoint quiet_after_end (l : list ev) : Prop :=
    match l with
    | [] => True
    | e :: l' => (ends_it e -> Forall left_alone l') /\ quiet_after_end l'
    end.

  Definition last_is (l : list ev) (e : ev) : Prop := exists l', l = l' ++ [e].
  Definition pulls_since_yield (l : list ev) : nat :=
    fold_left (fun n e => match e with CYield _ => 0 | CNext (Ready (Some _)) => S n | _ => n end) l 0.
End Reading.

Section Runs.
  Context {W Req Resp Err : Type} (svc : Service W Req Resp Err) (T : Stream W Req).
  Notation ev := (cev Req Resp Err).
  Notation TW := (W * tk ev)%type.

  Definition csvc : Service TW Req Resp Err := tracked CSvc svc.
  Definition cstream : Stream TW Req :=
    MkStream (sst T) (fun t => '(t1, a) <- tk_lift (snext T t) ;; tk_emit (CNext a) ;;; ret (t1, a)).
  Definition lsched (sched : nat -> W -> W * list nat) (n : nat) (x : TW) : TW * list nat :=
    let '(w1, o) := sched n (fst x) in ((w1, snd x), o).

  Definition ordered (sched : nat -> W -> W * list nat) : Drive TW (fut csvc) (result Resp Err) :=
    ordered_drive (poll_fut csvc) (drop_fut csvc) (lsched sched).
  Definition unordered (sched : nat -> W -> W * list nat) : Drive TW (fut csvc) (result Resp Err) :=
    unordered_drive (poll_fut csvc) (drop_fut csvc) (lsched sched).

  Inductive ca_op := CPoll | CTake.

  (** A history of one CallAll: the environment changes the world, then the owner
      polls or takes the service out; it ends at a panic or if a poll hangs. *)
  Fixpoint ca_run (Q : Drive TW (fut csvc) (result Resp Err)) (fuel : nat)
    (c : call_all csvc cstream Q) (x : TW) (ops : list ((W -> W) * ca_op)) : TW * option (call_all csvc cstream Q) :=
    match ops with
    | [] => (x, Some c)
    | (g, o) :: ops' =>
        let fin m := match m with
                     | (x1, Panic) => (fst (tk_emit CPanic x1), None)
                     | (x1, Diverge) => (fst (tk_emit CDiverge x1), None)
                     | (x1, Val (c1, e)) => ca_run fuel c1 (fst (tk_emit e x1)) ops'
                     end in
        match o with
        | CPoll => fin (('(c1, a) <- ca_next fuel c ;; ret (c1, CYield a)) (tk_env g x))
        | CTake => fin (('(c1, _) <- ca_take c ;; ret (c1, CTook)) (tk_env g x))
        end
    end.
  (** The log of a fresh CallAll, oldest event first. *)
  Definition ca_log (Q : Drive TW (fut csvc) (result Resp Err)) (fuel : nat) (s : st svc) (t : sst T) (w : W)
    (ops : list ((W -> W) * ca_op)) : list ev :=
    rev (log_of (fst (ca_run fuel (ca_new csvc cstream Q (0, s) t) (w, Tk 1 []) ops))).
End Runs.
Arguments ca_run {W Req Resp Err} svc T Q fuel c x ops.
Arguments ca_log {W Req Resp Err} svc T Q fuel s t w ops.

(** A history in which the owner converts with [unordered()] after [ops1]. *)
Definition convert_log {W Req Resp Err} (svc : Service W Req Resp Err) (T : Stream W Req)
  (sched : nat -> W -> W * list nat) (fuel : nat) (s : st svc) (t : sst T) (w : W)
  (ops1 ops2 : list ((W -> W) * ca_op)) : list (cev Req Resp Err) :=
  match ca_run svc T (ordered svc sched) fuel (ca_new (csvc svc) (cstream T) (ordered svc sched) (0, s) t) (w, Tk 1 []) ops1 with
  | (x, None) => rev (log_of x)
  | (x, Some c) =>
      match ca_unordered (unordered svc sched) c x with
      | (x1, Val c1) => rev (log_of (fst (ca_run svc T (unordered svc sched) fuel c1 x1 ops2)))
      | (x1, Panic) => rev (log_of (fst (tk_emit CPanic x1)))
      | (x1, Diverge) => rev (log_of (fst (tk_emit CDiverge x1)))
      end
  end.
