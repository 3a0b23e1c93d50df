(** Model of tower::make: Shared, and the adapters between [Service] and [MakeService]/[MakeConnection]. *)
From Verif Require Import Base.
Set Implicit Arguments.

Section Make.
  Context {W Req Resp Err : Type} (svc : Service W Req Resp Err).

  (** tower/src/make/make_service/shared.rs:71-104.  [Infallible] is [Empty_set].  The future is a
      [futures_util::future::Ready]: the clone, until it has been taken; polling it again panics. *)
  Definition shared {Tgt : Type} : Service W Tgt (st svc) Empty_set :=
    MkService (st svc) (option (st svc))
      (fun s => ret (s, Ready (Ok tt)))
      (fun s _ => s1 <- clone svc s ;; ret (s, Some s1))
      (fun f => match f with Some s1 => ret (None, Ready (Ok s1)) | None => panic end)
      (clone svc)
      (drop_svc svc)
      (fun f w => match f with Some s1 => drop_svc svc s1 w | None => w end).
  (** shared.rs:78-80 *)
  Definition shared_new (s : st svc) : st svc := s.
End Make.

Section Adapters.
  Context {W Tgt Made MErr : Type} (mk : Service W Tgt Made MErr).

  (** tower/src/make/make_service.rs:131-153 and make_connection.rs:32-50: the blanket implementations of
      [MakeService] and [MakeConnection] for a [Service]. *)
  Definition make_poll_ready (m : st mk) : M W (st mk * poll (result unit MErr)) := poll_ready mk m.
  Definition make_service (m : st mk) (t : Tgt) : M W (st mk * fut mk) := call mk m t.
  (** make_service.rs:155-206, [IntoService]; 208-252, [AsService] (which borrows the maker: it has no drop
      of its own and cannot be cloned). *)
  Definition into_service : Service W Tgt Made MErr :=
    MkService (st mk) (fut mk) make_poll_ready make_service (poll_fut mk) (clone mk) (drop_svc mk) (drop_fut mk).
  Definition as_service : Service W Tgt Made MErr :=
    MkService (st mk) (fut mk) make_poll_ready make_service (poll_fut mk) (clone mk) (fun _ w => w) (drop_fut mk).
End Adapters.
