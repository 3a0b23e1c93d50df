(** Specification for C96: two shared concurrency limits, one within the other. *)
From Verif Require Import Base Util Middleware Limits MeterSpec FlightSpec.
Set Implicit Arguments.

Section InOrder.
  Context {W Req Resp Err : Type} (svc : Service W Req Resp Err) (debug : bool).

  (** tower/src/limit/concurrency/layer.rs, [GlobalConcurrencyLimitLayer] (or [ConcurrencyLimit]s that are clones of one
      another), twice: first a permit of the first semaphore, then one of the second.  Nobody closes them. *)
  Definition in_order : Service (sem * (sem * W)) Req Resp Err :=
    conc_limit (conc_limit svc (fun _ => false) debug) (fun _ => false) debug.

  (** A program that starts with some instances, all behind the same two limits. *)
  Definition order_start (max1 max2 : nat) (l : list (st svc)) (w : W) : prog in_order :=
    ustart in_order (sem_new max1, (sem_new max2, w))
      (map (fun s => conc_new (conc_limit svc (fun _ => false) debug) (conc_new svc s)) l).

  (** The rest of the world does not use the two limits. *)
  Definition only_here (ops : list (@uop (sem * (sem * W)) Req)) : Prop :=
    Forall (fun o => match o with UEnv g => same (fun x => (fst x, fst (snd x))) g | _ => True end) ops.
End InOrder.

(** The same service, with the two semaphores exchanged: what asks for the first now asks for the second. *)
Definition turn {A B W} (x : A * (B * W)) : B * (A * W) := (fst (snd x), (fst x, snd (snd x))).
Definition turned {A B W Req Resp Err} (svc : Service (A * (B * W)) Req Resp Err) : Service (B * (A * W)) Req Resp Err :=
  let via {X} (m : M (A * (B * W)) X) : M (B * (A * W)) X := fun x => let '(y, o) := m (turn x) in (turn y, o) in
  MkService (st svc) (fut svc)
    (fun s => via (poll_ready svc s))
    (fun s r => via (call svc s r))
    (fun f => via (poll_fut svc f))
    (fun s => via (clone svc s))
    (fun s x => turn (drop_svc svc s (turn x)))
    (fun f x => turn (drop_fut svc f (turn x))).

(** A service behind the two limits, some instances taking the permits in one order ([inl]), some in the other. *)
Definition either_order {W Req Resp Err} (svc : Service W Req Resp Err) (debug : bool)
  : Service (sem * (sem * W)) Req Resp Err :=
  either (in_order svc debug) (turned (in_order svc debug)).
