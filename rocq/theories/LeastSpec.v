(** Specification for C70: Balance over load-tracked endpoints, as a program (MeterSpec.v) sees it. *)
From Verif Require Import Base ReadyCache Load Middleware MeterSpec Arcs.
Set Implicit Arguments.

Section Spec.
  Context {W K Req Resp Err DErr C T : Type} {svc : Service W Req Resp Err}.

  (** The request this future stands for went to the endpoint [a] and is not finished: it has not been answered. *)
  Definition unfinished_at (a : nat) (f : option (option (nat * tc_fut svc (T := T)))) : bool :=
    match f with
    | Some (Some (a', x)) => (a' =? a) && match tc_handle x with Some _ => true | None => false end
    | _ => false
    end.
  (** How many such futures the program holds. *)
  Definition unfinished (a : nat) (l : list (option (option (nat * tc_fut svc (T := T))))) : nat :=
    length (List.filter (unfinished_at a) l).
  (** The endpoints a balancer has: those in its ready cache, and all. *)
  Definition ready_endpoints {S TW} {tsvc : Service TW Req S Err} (c : cache (K := K) tsvc) : list (st tsvc) :=
    map (fun x => fst (snd x)) (rc_ready c).
  Definition endpoints {S TW} {tsvc : Service TW Req S Err} (c : cache (K := K) tsvc) : list (st tsvc) :=
    ready_endpoints c ++ map (fun p => pd_svc p) (rc_pending c).
  (** Code that has none of the endpoints' [Arc]s. *)
  Definition heap_same {A B} (g : list (cell (C := C)) * A -> list (cell (C := C)) * B) : Prop := forall x, fst (g x) = fst x.
  Definition env_off_heap {R} (ops : list (uop (W := list (cell (C := C)) * W) (Req := R))) : Prop :=
    Forall (fun o => match o with UEnv g => heap_same g | _ => True end) ops.
End Spec.
