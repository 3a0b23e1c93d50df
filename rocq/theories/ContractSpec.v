(** Specification: the [Service] contract (tower-service/src/lib.rs:311-358)
    as seen from both sides.

    - [held cl svc s0 p s]: a caller that follows the contract can come to hold the
      instance [s] in phase [p], starting from a fresh instance [s0].
    - [in_flight cl svc s0 f]: such a caller can come to hold the unfinished
      future [f].
    - [contract_safe]: nothing such a caller does can panic.
    - [guard svc]: [svc] with a supervisor that panics the moment *its* user
      breaks the contract. *)
From Verif Require Import Base.
Set Implicit Arguments.

Section Caller.
  Context {W Req Resp Err : Type}.
  (** [cl]: is the service [Clone]?  If not, the caller cannot clone it. *)
  Context (cl : bool) (svc : Service W Req Resp Err).

  Inductive held (s0 : st svc) : phase -> st svc -> Prop :=
  | held_fresh : held s0 Idle s0
  | held_ready p s w w1 s1 a :
      held s0 p s -> p <> Dead ->
      poll_ready svc s w = (w1, Val (s1, a)) -> held s0 (phase_after a) s1
  | held_call s r w w1 s1 f :
      held s0 Primed s -> call svc s r w = (w1, Val (s1, f)) -> held s0 Idle s1
  | held_clone p s w w1 s1 :
      cl = true -> held s0 p s -> p <> Dead -> clone svc s w = (w1, Val s1) -> held s0 Idle s1.

  Inductive in_flight (s0 : st svc) : fut svc -> Prop :=
  | in_flight_call s r w w1 s1 f :
      held s0 Primed s -> call svc s r w = (w1, Val (s1, f)) -> in_flight s0 f
  | in_flight_poll f w w1 f1 :
      in_flight s0 f -> poll_fut svc f w = (w1, Val (f1, Pending)) -> in_flight s0 f1.

  (** No legal operation panics, whatever the world looks like at that moment. *)
  Record contract_safe (s0 : st svc) : Prop := {
    cs_ready : forall p s w, held s0 p s -> p <> Dead -> snd (poll_ready svc s w) <> Panic;
    cs_call : forall s r w, held s0 Primed s -> snd (call svc s r w) <> Panic;
    cs_clone : cl = true -> forall p s w, held s0 p s -> p <> Dead -> snd (clone svc s w) <> Panic;
    cs_poll : forall f w, in_flight s0 f -> snd (poll_fut svc f w) <> Panic
  }.

  (** "Until a request is dispatched, repeated calls to poll_ready must return
      either Ready(Ok(())) or Ready(Err(_))." *)
  Definition ready_persists (s0 : st svc) : Prop :=
    forall s w w1 s1, held s0 Primed s -> poll_ready svc s w <> (w1, Val (s1, Pending)).

  (** No operation ever runs out of fuel, i.e. every call returns. *)
  Record always_returns (s0 : st svc) : Prop := {
    ar_ready : forall p s w, held s0 p s -> p <> Dead -> snd (poll_ready svc s w) <> Diverge;
    ar_call : forall s r w, held s0 Primed s -> snd (call svc s r w) <> Diverge;
    ar_clone : cl = true -> forall p s w, held s0 p s -> p <> Dead -> snd (clone svc s w) <> Diverge;
    ar_poll : forall f w, in_flight s0 f -> snd (poll_fut svc f w) <> Diverge
  }.
End Caller.

Section Guard.
  Context {W Req Resp Err : Type} (svc : Service W Req Resp Err).

  (** The supervised service.  Illegal uses panic:
      [poll_ready]/[clone] on an instance whose [poll_ready] failed, [call]
      without an unused [Ready(Ok)], polling a finished future. *)
  Definition guard : Service W Req Resp Err :=
    MkService (phase * st svc) (bool * fut svc)
      (fun s => match fst s with
                | Dead => panic
                | _ => '(s1, a) <- poll_ready svc (snd s) ;; ret ((phase_after a, s1), a)
                end)
      (fun s r => match fst s with
                  | Primed => '(s1, f) <- call svc (snd s) r ;; ret ((Idle, s1), (false, f))
                  | _ => panic
                  end)
      (fun f => if fst f then panic
                else '(f1, a) <- poll_fut svc (snd f) ;;
                     ret ((match a with Pending => false | Ready _ => true end, f1), a))
      (fun s => match fst s with
                | Dead => panic
                | _ => s1 <- clone svc (snd s) ;; ret (Idle, s1)
                end)
      (fun s => drop_svc svc (snd s))
      (fun f => drop_fut svc (snd f)).

  (** A service that never panics of its own accord. *)
  Record never_panics : Prop := {
    np_ready : forall s w, snd (poll_ready svc s w) <> Panic;
    np_call : forall s r w, snd (call svc s r w) <> Panic;
    np_clone : forall s w, snd (clone svc s w) <> Panic;
    np_poll : forall f w, snd (poll_fut svc f w) <> Panic
  }.

  Record never_diverges : Prop := {
    nd_ready : forall s w, snd (poll_ready svc s w) <> Diverge;
    nd_call : forall s r w, snd (call svc s r w) <> Diverge;
    nd_clone : forall s w, snd (clone svc s w) <> Diverge;
    nd_poll : forall f w, snd (poll_fut svc f w) <> Diverge
  }.

  (** A service whose readiness, once given, is not taken back: some predicate
      on its states is established by [Ready(Ok)] and rules out [Pending]. *)
  Definition keeps_ready : Prop :=
    exists rd : st svc -> Prop,
      (forall s w w1 s1, poll_ready svc s w = (w1, Val (s1, Ready (Ok tt))) -> rd s1) /\
      (forall s w w1 s1, rd s -> poll_ready svc s w <> (w1, Val (s1, Pending))).
End Guard.

(** [gives m P]: the user-supplied computation [m] returns normally, and its
    value satisfies [P]. *)
Definition gives {W A} (m : M W A) (P : A -> Prop) : Prop :=
  forall w, match snd (m w) with Val a => P a | _ => False end.
Definition quiet {W A} (m : M W A) : Prop := gives m (fun _ => True).

(** A user-supplied future, [VT] being its states before completion: polling it
    is fine as long as it has not completed (nothing is promised after that,
    it may well panic). *)
Definition task_ok {W A} (T : Task W A) (VT : tst T -> Prop) : Prop :=
  forall t, VT t -> gives (tpoll T t) (fun x => snd x = Pending -> VT (fst x)).
