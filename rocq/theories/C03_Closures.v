(** C03, closures with effects.  Specification in ClosureSpec.v: the log tells, newest first, how the wrapped service
    was used and ([inr]) every run of the closure. *)
From Verif Require Import Base Util Track ClosureSpec ClosureProof Demo.
Set Implicit Arguments.

(** MapRequest runs its closure exactly once per call, before the inner call, which gets its result; never for a poll. *)
Theorem C03_map_request_runs_once W Req Req' Resp Err (svc : Service W Req Resp Err) (f : Req' -> M W Req) s w ops :
  Forall (req_entry (svc := svc) (f := f)) (run_svc (req_svc svc f) Idle (0, s) w (tk_ops ops)).
Proof. exact (@req_entries W Req Req' Resp Err svc f s w ops). Qed.
Print Assumptions C03_map_request_runs_once.
(** MapErr: exactly once for a readiness error, not otherwise. *)
Theorem C03_map_err_runs_once W Req Resp Err Err' (svc : Service W Req Resp Err) (f : Err -> M W Err') s w ops :
  Forall (err_entry (svc := svc) (f := f)) (run_svc (err_svc svc f) Idle (0, s) w (tk_ops ops)).
Proof. exact (@err_entries W Req Resp Err Err' svc f s w ops). Qed.
Print Assumptions C03_map_err_runs_once.
(** MapFuture: exactly once per call, on the future just obtained. *)
Theorem C03_map_future_runs_once W Req Resp Resp' Err Err' (svc : Service W Req Resp Err) (into : Err -> Err')
  (T : Task (W * tk (tev Req Resp Err + nat)) (result Resp' Err'))
  (f : fut (tracked (L := tev Req Resp Err + nat) inl svc) -> M (W * tk (tev Req Resp Err + nat)) (tst T)) s w ops :
  silent T f ->
  Forall (fut_entry (svc := svc) (into := into) (T := T) (f := f)) (run_svc (fut_svc (svc := svc) into T f) Idle (0, s) w (tk_ops ops)).
Proof. exact (@fut_entries W Req Resp Resp' Err Err' svc into T f s w ops). Qed.
Print Assumptions C03_map_future_runs_once.
(** service_fn: exactly once per call, not at all for a poll. *)
Theorem C03_service_fn_runs_once W Req Resp Err (T : Task (W * tk Req) (result Resp Err)) (f : Req -> M W (tst T)) w ops :
  Forall (fn_entry (T := T) (f := f)) (run_svc (service_fn T (fn_noted T f)) Idle tt w (tk_ops ops)).
Proof. exact (@fn_entries W Req Resp Err T f w ops). Qed.
Print Assumptions C03_service_fn_runs_once.

(** Non-vacuity: a closure that moves the clock. *)
Definition slow (r : nat) : M scr nat := fun w => (tick 10 w, Val (r + 1)).
Example C03_example_slow : map snd (run_svc (req_svc demo slow) Idle (0, 5) (scr0, Tk 1 []) (tk_ops [(tick 1, SReady); (tick 1, SCall 4)])) =
  [(tick 1 scr0, Tk 1 [inl (TReady 0 (Ready (Ok tt)))]);
   (tick 12 scr0, Tk 2 [inl (TCall 0 5 1); inr (4, 5); inl (TReady 0 (Ready (Ok tt)))])].
Proof. vm_compute. reflexivity. Qed.
Definition boxed_fut : Task (scr * tk (tev nat nat nat + nat)) (result nat nat) :=
  MkTask (fut (tracked (L := tev nat nat nat + nat) inl demo)) (poll_fut (tracked inl demo)) (drop_fut (tracked inl demo)).
Example C03_example_future : silent (svc := demo) boxed_fut (fun x => ret x) /\
  map (fun x => log_of (snd x)) (run_svc (fut_svc (svc := demo) (fun e => e) boxed_fut (fun x => ret x)) Idle (0, 5) (scr0, Tk 1 []) (tk_ops [(tick 1, SReady); (tick 1, SCall 4)])) =
  [[inl (TReady 0 (Ready (Ok tt)))]; [inr 1; inl (TCall 0 4 1); inl (TReady 0 (Ready (Ok tt)))]].
Proof. split; [intros x w; reflexivity|vm_compute; reflexivity]. Qed.
