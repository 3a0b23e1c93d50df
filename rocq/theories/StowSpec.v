(** Specification for C85: where the instance and the response futures of the service behind a [Buffer] are. *)
From Verif Require Import Base Limits Buffer KeepSpec.
Set Implicit Arguments.
Local Open Scope Z_scope.

Section Stow.
  Context {W Req Resp Err : Type} {svc : Service W Req Resp Err} (osv : st svc -> Z) (own : fut svc -> Z).

  (** The worker has the instance, and a response future it is about to hand over. *)
  Definition with_worker (k : worker svc) : Z :=
    osv (w_svc k) + match w_pc k with WSend _ f => own f | _ => 0 end.
  (** A response future of the Buffer has the inner one; before it has taken it, its channel has. *)
  Definition with_future (y : bsys svc) (id : nat) : Z :=
    match y_fs y id with Some (BPoll f, _) => own f | _ => 0 end +
    match o_val (y_os y id) with Some (Ok f) => own f | _ => 0 end.
  Definition stowed (y : bsys svc) : Z :=
    oopt with_worker (y_wk y) + osum (with_future y) (seq 0 (y_fnext y)).

  (** No operation of the wrapped service panics or hangs. *)
  Definition smooth (l : list (bobs svc)) : Prop :=
    forall e, In e l -> match e with WPanic | WHang | OPollPanic _ | OPollHang _ => False | _ => True end.
End Stow.

(** The rest of the program leaves alone what is counted. *)
Definition env_leaves {W Req} (live : W -> Z) (ops : list (bop (W := W) (Req := Req))) : Prop :=
  forall g, In (BEnv g) ops -> forall w, live (g w) = live w.
