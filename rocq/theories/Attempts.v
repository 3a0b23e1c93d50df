(** The retry policy that the documentation of [Policy] gives as its example. *)
From Verif Require Import Base Middleware.
Set Implicit Arguments.

Section Attempts.
  Context {W Req Resp Err : Type}.

  (** [future::Ready<()>]: answers at its first poll. *)
  Definition ready_now : Task W unit := MkTask (W := W) unit (fun _ => ret (tt, Ready tt)) (fun _ w => w).

  (** tower/src/retry/policy.rs:14-45, [struct Attempts(usize)].  [Retry] clones its policy for every request, so
      the struct is taken to be [#[derive(Clone)]], which the excerpt leaves out.  A [usize] is a [nat]: the
      number only ever goes down, and not below zero. *)
  Definition attempts : Policy W Req Resp Err :=
    MkPolicy (W := W) ready_now
      (fun n req => ret (n, Some req))
      (fun n req res =>
         match res with
         | Ok _ => ret (n, req, res, None)
         | Er _ =>
             match n with
             | O => ret (n, req, res, None)
             | S n1 => ret (n1, req, res, Some tt)
             end
         end)
      (fun n => ret n).
End Attempts.
