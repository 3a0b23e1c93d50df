(** Specification for C72: what a [Buffer] keeps alive, and how much it can hold. *)
From Verif Require Import Base Limits Buffer BufferSpec FlightSpec.
Set Implicit Arguments.

Section Hold.
  Context {W Req Resp Err : Type} {svc : Service W Req Resp Err}.

  (** The log (newest first) says: the response future of request [id] was dropped; the worker has handed the inner
      future of request [id] over; request [id] was answered with the failure of the wrapped service. *)
  Definition was_dropped (id : nat) (l : list (bobs svc)) : bool :=
    existsb (fun e => match e with ODropFut i => i =? id | _ => false end) l.
  Definition handed (id : nat) (l : list (bobs svc)) : bool :=
    existsb (fun e => match e with WAnswer i (Ok _) => i =? id | _ => false end) l.
  Definition refused (id : nat) (l : list (bobs svc)) : bool :=
    existsb (fun e => match e with WAnswer i (Er _) => i =? id | _ => false end) l.

  (** The calls of the wrapped service whose futures still exist: handed over and then dropped together with the
      response future (or dropped on being handed over) they are gone. *)
  Definition in_flight (l : list (bobs svc)) : list nat :=
    List.filter (fun id => negb (was_dropped id l && handed id l)) (map fst (called l)).

  (** Accepted requests that are waiting or under way: not given up by the caller, not refused. *)
  Definition unfinished (l : list (bobs svc)) : list nat :=
    List.filter (fun id => negb (was_dropped id l) && negb (refused id l)) (map fst (sent l)).
End Hold.

(** The rest of the program leaves part [fst] of the world alone. *)
Definition env_fst {A W Req} (ops : list (bop (W := A * W) (Req := Req))) : Prop :=
  forall g, In (BEnv g) ops -> forall x, fst (g x) = fst x.
