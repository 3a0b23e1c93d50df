(** Specification for C94: when a Retry sends its attempts. *)
From Verif Require Import Base DriveSpec Middleware Backoff BackoffSpec Patient.
Set Implicit Arguments.
Local Open Scope Z_scope.

(** The times at which requests were sent to a service, and at which its response futures completed; oldest first. *)
Record times := Times { sent : list Z; done_at : list Z }.

Section PatientSpec.
  Context {W : Type} (rt : Rt W).

  Definition in_t {A} (m : M W A) : M (W * times) A :=
    fun x => match m (fst x) with (w1, o) => ((w1, snd x), o) end.
  (** The service, keeping these times. *)
  Definition timed {Req Resp Err} (svc : Service W Req Resp Err) : Service (W * times) Req Resp Err :=
    MkService (st svc) (fut svc)
      (fun s => in_t (poll_ready svc s))
      (fun s r => modify (fun x => (fst x, Times (sent (snd x) ++ [now rt (fst x)]) (done_at (snd x)))) ;;; in_t (call svc s r))
      (fun f => '(f1, a) <- in_t (poll_fut svc f) ;;
                modify (fun x => match a with
                                 | Ready _ => (fst x, Times (sent (snd x)) (done_at (snd x) ++ [now rt (fst x)]))
                                 | Pending => x
                                 end) ;;; ret (f1, a))
      (fun s => in_t (clone svc s))
      (fun s x => (drop_svc svc s (fst x), snd x))
      (fun f x => (drop_fut svc f (fst x), snd x)).
  (** The policy does not touch them. *)
  Definition at_times {Req Resp Err} (pol : Policy W Req Resp Err) : Policy (W * times) Req Resp Err :=
    @MkPolicy (W * times) Req Resp Err (pst pol)
      (MkTask (W := W * times) (tst (pfut pol)) (fun t => in_t (tpoll (pfut pol) t)) (fun t x => (tdrop (pfut pol) t (fst x), snd x)))
      (fun p r => in_t (clone_request pol p r))
      (fun p q v => in_t (retry_decide pol p q v))
      (fun p => in_t (pol_clone pol p)).

  (** The clock does not go backwards. *)
  Definition on {A} (m : M W A) : Prop := forall w, now rt w <= now rt (fst (m w)).
  Definition on_env (g : W -> W) : Prop := forall w, now rt w <= now rt (g w).
  Record on_svc {Req Resp Err} (svc : Service W Req Resp Err) : Prop := {
    on_ready : forall s, on (poll_ready svc s);
    on_call : forall s r, on (call svc s r);
    on_poll : forall f, on (poll_fut svc f);
    on_clone : forall s, on (clone svc s);
    on_drop : forall f, on_env (drop_fut svc f) }.

  (** Attempt [k + 1] is sent [gap k] after attempt [k] was answered, at least; and attempts do not overlap. *)
  Definition spaced (gap : nat -> Z) (x : times) : Prop :=
    (forall k a s, nth_error (done_at x) k = Some a -> nth_error (sent x) (S k) = Some s -> a + gap k <= s) /\
    (forall k s a, nth_error (sent x) k = Some s -> nth_error (done_at x) k = Some a -> s <= a) /\
    (length (done_at x) <= length (sent x) <= S (length (done_at x)))%nat.
  Fixpoint total (gap : nat -> Z) (k : nat) : Z := match k with O => 0 | S k' => total gap k' + gap k' end.
End PatientSpec.

(** The world a future was last polled in. *)
Definition last_world {W F A} (e : fin W F A) : W :=
  match e with Unfinished _ w | Finished _ w _ | Panicked w | Spun w => w end.

(** What an exponential backoff adds to the [k]-th retry (from 0), at least: its base; the count of iterations is a
    [u32], and tokio cuts a sleep it cannot represent to thirty years. *)
Definition pause (c : bo_cfg) (k : nat) : Z := Z.min (base_of c (Z.of_nat k mod 2 ^ 32)) thirty_years.
