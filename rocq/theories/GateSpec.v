(** Specification for C82: a Steer over services that share one concurrency limit. *)
From Verif Require Import Base Middleware Limits MeterSpec FlightSpec.
Set Implicit Arguments.

Section Gate.
  Context {W Req Resp Err P : Type} (svc : Service W Req Resp Err) (debug : bool).

  (** The services below the Steer, each under the same limit ([GlobalConcurrencyLimitLayer], or clones of one
      [ConcurrencyLimit]; nobody closes its semaphore). *)
  Definition gated : Service (sem * W) Req Resp Err := conc_limit svc (fun _ => false) debug.
  Definition routes (pick : P -> Req -> list (st gated) -> M (sem * W) (P * nat)) (pclone : P -> M (sem * W) P)
    : Service (sem * W) Req Resp Err := steer gated pick pclone.

  (** A new Steer over [services] under a new limit of [max]. *)
  Definition gate_start pick pclone (max : nat) (services : list (st svc)) (p : P) (w : W) : prog (routes pick pclone) :=
    ustart (routes pick pclone) (sem_new max, w) [steer_new gated (map (conc_new svc) services) p].

  (** The program does not clone the Steer (clones of a Steer are broken anyway: C01_steer_clone_refuted), and the rest
      of the world does not use the limit. *)
  Definition alone (ops : list (@uop (sem * W) Req)) : Prop :=
    Forall (fun o => match o with UClone _ => False | UEnv g => same (@fst sem W) g | _ => True end) ops.
End Gate.
