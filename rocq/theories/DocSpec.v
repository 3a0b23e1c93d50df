(** Specification for C92: what the futures of the documentation's middleware hold, and the clock. *)
From Verif Require Import Base Util DocCode MeterSpec KeepSpec.
Set Implicit Arguments.
Local Open Scope Z_scope.

(** The wrapper's future: the instance it was given, and then also the response future; nothing once finished. *)
Definition owrap {W Req Resp Err} {svc : Service W Req Resp Err} (osv : st svc -> Z) (own : fut svc -> Z) (f : wrap_fut svc) : Z :=
  match f with WfInit s _ => osv s | WfRun s x => osv s + own x | WfDone => 0 end.
(** The documented Timeout's: the response future, until finished. *)
Definition odoc {W Req Resp Err} {svc : Service W Req Resp Err} (own : fut svc -> Z) (f : doc_fut svc) : Z :=
  match f with DfRun x _ => own x | DfDone => 0 end.

(** Running [m], the clock does not go backwards, and the timer [dl], once fired, stays so. *)
Definition onward {W A} (rt : Rt W) (m : W -> W * A) : Prop :=
  forall w, now rt w <= now rt (fst (m w)) /\ forall dl, fired rt w dl = true -> fired rt (fst (m w)) dl = true.
