(** C05 (Timeout), C06 (LoadShed), C07 (Filter), C08 (AsyncFilter).
    Specifications: SimpleSpec.v, DriveSpec.v; recorded services: Track.v. *)
From Verif Require Import Base DriveSpec Util Middleware Track SimpleSpec SimpleProof Demo.
Set Implicit Arguments.

(** A [Timeout] asks and calls the wrapped service exactly as its owner asks and calls it; the
    future of a call is the inner future with the deadline [now + dur] taken when the inner
    [call] returned. *)
Theorem C05_timeout_history :
  forall W Req Resp Err (rt : Rt W) dur (svc : Service W Req Resp Err) s,
  same_history (a := svc) (b := timeout rt dur svc) (fun r => r) inl
    (fun _ w1 f => TimeoutFut svc f (now rt w1 + dur)) s s.
Proof. exact @timeout_history. Qed.
Print Assumptions C05_timeout_history.

(** The whole history of a [Timeout] future, however it is polled. *)
Theorem C05_timeout_future :
  forall W Req Resp Err (rt : Rt W) dur (svc : Service W Req Resp Err) f dl w gs,
  timeout_history_ok (svc := svc) rt f dl w gs
    (drive (poll_fut (timeout rt dur svc)) (TimeoutFut svc f dl) w gs).
Proof. exact @timeout_drive. Qed.
Print Assumptions C05_timeout_future.

(** [Elapsed] only when at least [dur] has passed since [call] returned. *)
Theorem C05_timeout_not_early :
  forall W Req Resp Err (rt : Rt W) dur (svc : Service W Req Resp Err) s r w w1 s1 x gs l x' w2,
  call (timeout rt dur svc) s r w = (w1, Val (s1, x)) ->
  drive (poll_fut (timeout rt dur svc)) x w1 gs = (l, Finished x' w2 (Er (inr tt))) ->
  (now rt w1 + dur <= now rt w2)%Z.
Proof. exact @timeout_not_early. Qed.
Print Assumptions C05_timeout_not_early.

Example C05_example_elapsed :
  drive (poll_fut (timeout scr_rt 10 demo)) (TimeoutFut demo 7 10%Z)
    (Scr 0 [] [Pending; Pending; Pending]) [tick 4; tick 5; tick 6]
  = ([Scr 4 [] [Pending; Pending]; Scr 9 [] [Pending]], Finished (TimeoutFut demo 7 10%Z) (Scr 15 [] []) (Er (inr tt))).
Proof. reflexivity. Qed.
Example C05_example_response_wins :
  drive (poll_fut (timeout scr_rt 10 demo)) (TimeoutFut demo 7 10%Z)
    (Scr 0 [] [Pending]) [tick 4; tick 50]
  = ([Scr 4 [] []], Finished (TimeoutFut demo 7 10%Z) (Scr 54 [] []) (Ok 7)).
Proof. reflexivity. Qed.

(** Every step of every history of a [LoadShed] conforms to [shed_entry]. *)
Theorem C06_load_shed_history :
  forall W Req Resp Err (svc : Service W Req Resp Err) s w ops,
  Forall (shed_entry (svc := svc)) (run_svc (load_shed (tracked (fun e => e) svc)) Idle (load_shed_new (tracked (fun e => e) svc) (0, s)) w (tk_ops ops)).
Proof. exact @load_shed_entries. Qed.
Print Assumptions C06_load_shed_history.

(** A request passed on gets exactly the inner response; a rejected one fails with [Overloaded] at its first poll. *)
Theorem C06_load_shed_passed_on :
  forall W Req Resp Err  (svc' : Service W Req Resp Err) f w gs,
  drive (poll_fut (load_shed svc')) (Some f) w gs =
  fin_then Some (fun f1 r => ret (Some f1, map_er inl r)) (drive (poll_fut svc') f w gs).
Proof. exact @load_shed_drive. Qed.
Print Assumptions C06_load_shed_passed_on.

Theorem C06_load_shed_rejected :
  forall W Req Resp Err  (svc' : Service W Req Resp Err) w g gs,
  drive (poll_fut (load_shed svc')) None w (g :: gs) = ([], Finished None (g w) (Er (inr tt))).
Proof. exact @load_shed_overloaded. Qed.
Print Assumptions C06_load_shed_rejected.

Example C06_example :
  obs (run_svc (load_shed (tracked (fun e => e) demo)) Idle (load_shed_new (tracked (fun e => e) demo) (0, 5))
    (Scr 0 [Pending; Ready (Ok tt)] [], Tk 1 [])
    (tk_ops [(tick 1, SReady); (tick 1, SCall 7); (tick 1, SReady); (tick 1, SCall 8)]))
  = [ObsReady (Ready (Ok tt)); ObsCall (svc := load_shed (tracked (fun e => e) demo)) 7 None;
     ObsReady (Ready (Ok tt)); ObsCall (svc := load_shed (tracked (fun e => e) demo)) 8 (Some (1, 8))].
Proof. reflexivity. Qed.

(** Every step of every history of a [Filter] conforms to [filter_entry]: the predicate runs once per
    call, the inner service is called once if it accepted, not at all otherwise, and the predicate's
    own state is carried from each run to the next. *)
Theorem C07_filter_history :
  forall W Req Req' Resp Err PErr P (svc : Service W Req Resp Err)
    (check : P -> Req' -> M W (P * result Req PErr)) (pclone : P -> M W P) s p0 w ops,
  log_of w = [] ->
  Forall (fun x => filter_entry x /\ threaded p0 (pred_runs (log_of (snd x))))
    (run_svc (tfilter svc check pclone) Idle ((0, s), p0) w (tk_ops ops)).
Proof. exact @filter_entries. Qed.
Print Assumptions C07_filter_history.

Theorem C07_filter_accepted :
  forall W Req Req' Resp Err PErr P (svc : Service W Req Resp Err)
    (check : P -> Req' -> M W (P * result Req PErr)) (pclone : P -> M W P) f w gs,
  drive (poll_fut (filter svc check pclone)) (inr (Some f)) w gs =
  fin_then (fun f => inr (Some f)) (fun f1 r => modify (drop_fut svc f1) ;;; ret (inr None, map_er inl r))
    (drive (poll_fut svc) f w gs).
Proof. exact @filter_accepted_drive. Qed.
Print Assumptions C07_filter_accepted.

Theorem C07_filter_rejected :
  forall W Req Req' Resp Err PErr P (svc : Service W Req Resp Err)
    (check : P -> Req' -> M W (P * result Req PErr)) (pclone : P -> M W P) e w g gs,
  drive (poll_fut (filter svc check pclone)) (inl (Some e)) w (g :: gs) =
  ([], Finished (inl None) (g w) (Er (inr e))).
Proof. exact @filter_rejected_drive. Qed.
Print Assumptions C07_filter_rejected.

Definition even_only (n : nat) (r : nat) : M scr (nat * result nat nat) :=
  ret (S n, if Nat.even r then Ok (r * 10) else Er n).
Example C07_example :
  obs (run_svc (tfilter demo even_only ret) Idle ((0, 5), 0) (scr0, Tk 1 [])
    (tk_ops [(tick 1, SReady); (tick 1, SCall 4); (tick 1, SReady); (tick 1, SCall 7)]))
  = [ObsReady (Ready (Ok tt)); ObsCall (svc := tfilter demo even_only ret) 4 (inr (Some (1, 40)));
     ObsReady (Ready (Ok tt)); ObsCall (svc := tfilter demo even_only ret) 7 (inl (Some 1))].
Proof. reflexivity. Qed.

(** [poll_ready] is that of the instance held. *)
Theorem C08_async_filter_ready :
  forall W Req Req' Resp Err PErr P (svc : Service W Req Resp Err)
    (T : Task W (result Req PErr)) (check : P -> Req' -> M W (P * tst T)) (pclone : P -> M W P) s p w gs,
  drive (poll_ready (async_filter svc T check pclone)) (s, p) w gs =
  fin_then (fun s1 => (s1, p)) (fun s1 v => ret ((s1, p), map_er inl v)) (drive (poll_ready svc) s w gs).
Proof. exact @async_filter_ready. Qed.
Print Assumptions C08_async_filter_ready.

(** [call]: the future takes the instance [s] whose readiness was established (the service goes on with
    a clone of it), and starts by running the predicate on the request. *)
Theorem C08_async_filter_call :
  forall W Req Req' Resp Err PErr P (svc : Service W Req Resp Err)
    (T : Task W (result Req PErr)) (check : P -> Req' -> M W (P * tst T)) (pclone : P -> M W P) s p r w w1 sp x,
  call (async_filter svc T check pclone) (s, p) r w = (w1, Val (sp, x)) ->
  exists w0 c, clone svc s w = (w0, Val (fst sp)) /\ check p r w0 = (w1, Val (snd sp, c)) /\
    x = AfFut (svc := svc) (AfCheck c) s.
Proof. exact @async_filter_call. Qed.
Print Assumptions C08_async_filter_call.

(** The future, however polled: first the predicate; when it resolves [Ok r], exactly one inner [call] with
    [r] on that instance, and from then on exactly the inner future; when it resolves [Er e], the
    future ends with that error and the inner service is not touched. *)
Theorem C08_async_filter_future :
  forall W Req Req' Resp Err PErr P (svc : Service W Req Resp Err)
    (T : Task W (result Req PErr)) (check : P -> Req' -> M W (P * tst T)) (pclone : P -> M W P) c s w gs,
  drive (poll_fut (async_filter svc T check pclone)) (AfFut (svc := svc) (AfCheck c) s) w gs =
  fin_chain (fun c => AfFut (svc := svc) (AfCheck c) s) (fun xs => AfFut (svc := svc) (AfWait (fst xs)) (snd xs))
    (fun c1 v =>
       match v with
       | Ok r => '(s1, x) <- call svc s r ;; modify (tdrop T c1) ;;; ret (inl (x, s1))
       | Er e => ret (inr (AfFut (svc := svc) (AfCheck c1) s, Er (inr e)))
       end)
    (fun xs => '(x1, p) <- poll_fut svc (fst xs) ;; ret ((x1, snd xs), p))
    (fun xs v => ret (AfFut (svc := svc) (AfWait (fst xs)) (snd xs), map_er inl v))
    (drive (tpoll T) c w gs) gs.
Proof. exact @async_filter_drive. Qed.
Print Assumptions C08_async_filter_future.

Definition slow_even : Task scr (result nat nat) :=
  MkTask (nat * nat)
    (fun x => match fst x with
              | O => ret (x, Ready (if Nat.even (snd x) then Ok (snd x * 10) else Er 99))
              | S n => ret ((n, snd x), Pending)
              end) (fun _ w => w).
Example C08_example :
  map (fun r => drive (poll_fut (async_filter demo slow_even (fun p x => ret (p, (1, x))) (fun p => ret (p : nat))))
      (AfFut (svc := demo) (AfCheck (svc := demo) (C := tst slow_even) (1, r)) 5) scr0 [tick 1; tick 1; tick 1]) [4; 7]
  = [([tick 1 scr0], Finished (AfFut (svc := demo) (AfWait (svc := demo) (C := tst slow_even) 40) 5) (tick 2 scr0) (Ok 40));
     ([tick 1 scr0], Finished (AfFut (svc := demo) (AfCheck (svc := demo) (C := tst slow_even) (0, 7)) 5) (tick 2 scr0) (Er (inr 99)))].
Proof. reflexivity. Qed.
