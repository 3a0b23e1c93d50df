(** C03, C32, C33: combinators of tower::util are transparent.

    Two statements per combinator.  [same_history]: an owner driving the wrapper
    sees, operation by operation, what the owner of the wrapped service would
    see, with the worlds before and after every operation identical (so the
    wrapped service is operated identically); requests, readiness errors and
    futures are related by the given functions.  [drive]: a response future of
    the wrapper goes through the same polls, in the same worlds, as the wrapped
    future; what happens at completion is spelled out by [fin_then]/[fin_chain]. *)
From Verif Require Import Base DriveSpec Util TranspProof Demo.
Set Implicit Arguments.

(** [&mut S], [Box<S>], [BoxService], [UnsyncBoxService], [BoxCloneService], [BoxCloneSyncService]. *)
Theorem C03_boxed_history :
  forall W Req Resp Err (svc : Service W Req Resp Err) s,
  same_history (a := svc) (b := boxed svc) (fun r => r) (fun e => e) (fun _ _ f => f) s s.
Proof. exact @boxed_history. Qed.
Print Assumptions C03_boxed_history.

Theorem C03_boxed_drive :
  forall W Req Resp Err (svc : Service W Req Resp Err) f w gs,
  drive (poll_fut (boxed svc)) f w gs = drive (poll_fut svc) f w gs.
Proof. exact @boxed_drive. Qed.
Print Assumptions C03_boxed_drive.

(** MapRequest: the inner service sees [g r] instead of [r], nothing else changes. *)
Theorem C03_map_request_history :
  forall W Req Resp Err (svc : Service W Req Resp Err) Req' (g : Req' -> Req) s,
  same_history (a := svc) (b := map_request (fun r => ret (g r)) svc) g (fun e => e) (fun _ _ f => f) s s.
Proof. exact @map_request_history. Qed.
Print Assumptions C03_map_request_history.

Theorem C03_map_request_drive :
  forall W Req Resp Err (svc : Service W Req Resp Err) Req' (g : Req' -> M W Req) f w gs,
  drive (poll_fut (map_request g svc)) f w gs = drive (poll_fut svc) f w gs.
Proof. exact @map_request_drive. Qed.
Print Assumptions C03_map_request_drive.

(** MapResponse: readiness untouched; the closure runs once, on success, at the completing poll, after the inner future was dropped. *)
Theorem C03_map_response_history :
  forall W Req Resp Err (svc : Service W Req Resp Err) Resp' (g : Resp -> M W Resp') s,
  same_history (a := svc) (b := map_response g svc) (fun r => r) (fun e => e) (fun _ _ => Some) s s.
Proof. exact @map_response_history. Qed.
Print Assumptions C03_map_response_history.

Theorem C03_map_response_drive :
  forall W Req Resp Err (svc : Service W Req Resp Err) Resp' (g : Resp -> M W Resp') f w gs,
  drive (poll_fut (map_response g svc)) (Some f) w gs =
  fin_then Some
    (fun f1 r => modify (drop_fut svc f1) ;;;
       match r with
       | Ok a => b <- g a ;; ret (None, Ok b)
       | Er e => ret (None, Er e)
       end)
    (drive (poll_fut svc) f w gs).
Proof. exact @map_response_drive. Qed.
Print Assumptions C03_map_response_drive.

(** MapErr: readiness errors and response errors are both mapped. *)
Theorem C03_map_err_history :
  forall W Req Resp Err (svc : Service W Req Resp Err) Err' (g : Err -> Err') s,
  same_history (a := svc) (b := map_err (fun e => ret (g e)) svc) (fun r => r) g (fun _ _ => Some) s s.
Proof. exact @map_err_history. Qed.
Print Assumptions C03_map_err_history.

Theorem C03_map_err_drive :
  forall W Req Resp Err (svc : Service W Req Resp Err) Err' (g : Err -> M W Err') f w gs,
  drive (poll_fut (map_err g svc)) (Some f) w gs =
  fin_then Some
    (fun f1 r => modify (drop_fut svc f1) ;;;
       match r with
       | Ok a => ret (None, Ok a)
       | Er e => e1 <- g e ;; ret (None, Er e1)
       end)
    (drive (poll_fut svc) f w gs).
Proof. exact @map_err_drive. Qed.
Print Assumptions C03_map_err_drive.

(** MapResult. *)
Theorem C03_map_result_history :
  forall W Req Resp Err (svc : Service W Req Resp Err) Resp' Err' (into : Err -> Err') (g : result Resp Err -> M W (result Resp' Err')) s,
  same_history (a := svc) (b := map_result into g svc) (fun r => r) into (fun _ _ => Some) s s.
Proof. exact @map_result_history. Qed.
Print Assumptions C03_map_result_history.

Theorem C03_map_result_drive :
  forall W Req Resp Err (svc : Service W Req Resp Err) Resp' Err' (into : Err -> Err') (g : result Resp Err -> M W (result Resp' Err')) f w gs,
  drive (poll_fut (map_result into g svc)) (Some f) w gs =
  fin_then Some (fun f1 r => modify (drop_fut svc f1) ;;; v <- g r ;; ret (None, v))
    (drive (poll_fut svc) f w gs).
Proof. exact @map_result_drive. Qed.
Print Assumptions C03_map_result_drive.

(** MapFuture: the response future is the one the closure made of the inner one. *)
Theorem C03_map_future_history :
  forall W Req Resp Err (svc : Service W Req Resp Err) Resp' Err' (into : Err -> Err') (T : Task W (result Resp' Err'))
    (g : fut svc -> tst T) s,
  same_history (a := svc) (b := map_future into svc T (fun f => ret (g f))) (fun r => r) into (fun _ _ => g) s s.
Proof. exact @map_future_history. Qed.
Print Assumptions C03_map_future_history.

Theorem C03_map_future_drive :
  forall W Req Resp Err (svc : Service W Req Resp Err) Resp' Err' (into : Err -> Err') (T : Task W (result Resp' Err'))
    (g : fut svc -> M W (tst T)) t w gs,
  drive (poll_fut (map_future into svc T g)) t w gs = drive (tpoll T) t w gs.
Proof. exact @map_future_drive. Qed.
Print Assumptions C03_map_future_drive.

(** Then: the second future starts within the poll that completed the first and receives its whole result. *)
Theorem C03_then_history :
  forall W Req Resp Err (svc : Service W Req Resp Err) Resp' Err' (into : Err -> Err') (T : Task W (result Resp' Err'))
    (g : result Resp Err -> M W (tst T)) s,
  same_history (a := svc) (b := then_ into T g svc) (fun r => r) into (fun _ _ => First) s s.
Proof. exact @then_history. Qed.
Print Assumptions C03_then_history.

Theorem C03_then_drive :
  forall W Req Resp Err (svc : Service W Req Resp Err) Resp' Err' (into : Err -> Err') (T : Task W (result Resp' Err'))
    (g : result Resp Err -> M W (tst T)) f w gs,
  drive (poll_fut (then_ into T g svc)) (First f) w gs =
  fin_chain First Second
    (fun f1 r => modify (drop_fut svc f1) ;;; t <- g r ;; ret (inl t))
    (tpoll T)
    (fun t1 v => modify (tdrop T t1) ;;; ret (Empty, v))
    (drive (poll_fut svc) f w gs) gs.
Proof. exact @then_drive. Qed.
Print Assumptions C03_then_drive.

(** AndThen: as Then on success; an error skips the closure. *)
Theorem C03_and_then_history :
  forall W Req Resp Err (svc : Service W Req Resp Err) Resp' Err' (into : Err -> Err') (T : Task W (result Resp' Err'))
    (g : Resp -> M W (tst T)) s,
  same_history (a := svc) (b := and_then into T g svc) (fun r => r) into (fun _ _ => First) s s.
Proof. exact @and_then_history. Qed.
Print Assumptions C03_and_then_history.

Theorem C03_and_then_drive :
  forall W Req Resp Err (svc : Service W Req Resp Err) Resp' Err' (into : Err -> Err') (T : Task W (result Resp' Err'))
    (g : Resp -> M W (tst T)) f w gs,
  drive (poll_fut (and_then into T g svc)) (First f) w gs =
  fin_chain First Second
    (fun f1 r => modify (drop_fut svc f1) ;;;
       match r with
       | Ok a => t <- g a ;; ret (inl t)
       | Er e => ret (inr (Empty, Er (into e)))
       end)
    (tpoll T)
    (fun t1 v => modify (tdrop T t1) ;;; ret (Empty, v))
    (drive (poll_fut svc) f w gs) gs.
Proof. exact @and_then_drive. Qed.
Print Assumptions C03_and_then_drive.

(** Either (and option_layer). *)
Theorem C03_either_history_l :
  forall W Req Resp Err (svc : Service W Req Resp Err) (b : Service W Req Resp Err) s,
  same_history (a := svc) (b := either svc b) (fun r => r) (fun e => e) (fun _ _ => inl) s (inl s).
Proof. exact @either_history_l. Qed.
Print Assumptions C03_either_history_l.

Theorem C03_either_history_r :
  forall W Req Resp Err (svc : Service W Req Resp Err) (a : Service W Req Resp Err) s,
  same_history (a := svc) (b := either a svc) (fun r => r) (fun e => e) (fun _ _ => inr) s (inr s).
Proof. exact @either_history_r. Qed.
Print Assumptions C03_either_history_r.

Theorem C03_either_drive_l :
  forall W Req Resp Err (svc : Service W Req Resp Err) (b : Service W Req Resp Err) f w gs,
  drive (poll_fut (either svc b)) (inl f) w gs =
  fin_then inl (fun f1 r => ret (inl f1, r)) (drive (poll_fut svc) f w gs).
Proof. exact @either_drive_l. Qed.
Print Assumptions C03_either_drive_l.

Theorem C03_either_drive_r :
  forall W Req Resp Err (svc : Service W Req Resp Err) (a : Service W Req Resp Err) f w gs,
  drive (poll_fut (either a svc)) (inr f) w gs =
  fin_then inr (fun f1 r => ret (inr f1, r)) (drive (poll_fut svc) f w gs).
Proof. exact @either_drive_r. Qed.
Print Assumptions C03_either_drive_r.

(** Optional with a service, and without. *)
Theorem C03_optional_history :
  forall W Req Resp Err (svc : Service W Req Resp Err) s,
  same_history (a := svc) (b := optional svc) (fun r => r) inl (fun _ _ => Some) s (Some s).
Proof. exact @optional_history. Qed.
Print Assumptions C03_optional_history.

Theorem C03_optional_drive :
  forall W Req Resp Err (svc : Service W Req Resp Err) f w gs,
  drive (poll_fut (optional svc)) (Some f) w gs =
  fin_then Some (fun f1 r => ret (Some f1, map_er inl r)) (drive (poll_fut svc) f w gs).
Proof. exact @optional_drive. Qed.
Print Assumptions C03_optional_drive.

Theorem C03_optional_none :
  forall W Req Resp Err (svc : Service W Req Resp Err) p w ops,
  p <> Dead -> Forall (none_obs (svc := svc)) (run_svc (optional svc) p None w ops).
Proof. exact @optional_none. Qed.
Print Assumptions C03_optional_none.

Theorem C03_optional_none_drive :
  forall W Req Resp Err (svc : Service W Req Resp Err) w g gs,
  drive (poll_fut (optional svc)) None w (g :: gs) = ([], Finished None (g w) (Er (inr tt))).
Proof. exact @optional_none_drive. Qed.
Print Assumptions C03_optional_none_drive.

(** service_fn: always ready, every call makes a future with the closure. *)
Theorem C03_service_fn_obs :
  forall W Req Resp Err (T : Task W (result Resp Err)) (g : Req -> tst T) p w ops,
  p <> Dead ->
  Forall (fn_obs g) (run_svc (service_fn T (fun r => ret (g r))) p tt w ops).
Proof. exact @service_fn_obs. Qed.
Print Assumptions C03_service_fn_obs.

(** C32. Oneshot: readiness is polled until it is [Ready(Ok)], the request is then sent with exactly one [call] within that poll, the service dropped, and the response future driven to its end. *)
Theorem C32_oneshot_drive :
  forall W Req Resp Err (svc : Service W Req Resp Err) s r w gs,
  drive (oneshot_poll (svc := svc)) (oneshot_new svc s r) w gs =
  fin_chain (fun s1 => OsNotReady svc s1 (Some r)) (OsCalled svc)
    (fun s1 v =>
       match v with
       | Ok _ => '(s2, f) <- call svc s1 r ;; modify (drop_svc svc s2) ;;; ret (inl f)
       | Er e => ret (inr (OsNotReady svc s1 (Some r), Er e))
       end)
    (poll_fut svc)
    (fun f1 v =>
       match v with
       | Ok a => modify (drop_fut svc f1) ;;; ret (OsDone svc, Ok a)
       | Er e => ret (OsCalled svc f1, Er e)
       end)
    (drive (poll_ready svc) s w gs) gs.
Proof. exact @oneshot_drive. Qed.
Print Assumptions C32_oneshot_drive.

(** ReadyOneshot: hands the service back when it is ready, having called nothing. *)
Theorem C32_ready_oneshot_drive :
  forall W Req Resp Err (svc : Service W Req Resp Err) s w gs,
  drive (ready_oneshot_poll svc) (Some s) w gs =
  fin_then Some
    (fun s1 v => match v with Ok _ => ret (None, Ok s1) | Er e => ret (Some s1, Er e) end)
    (drive (poll_ready svc) s w gs).
Proof. exact @ready_oneshot_drive. Qed.
Print Assumptions C32_ready_oneshot_drive.

(** C33. FutureService before its future has resolved: pending with it, failing with its error, then (within the same poll) asking the new service. *)
Theorem C33_future_service_drive :
  forall W Req Resp Err (svc : Service W Req Resp Err) (T : Task W (result (st svc) Err)) tclone t w gs,
  drive (poll_ready (future_service svc T tclone)) (inl t) w gs =
  fin_chain inl inr
    (fun t1 v =>
       match v with
       | Ok s0 => modify (tdrop T t1) ;;; ret (inl s0)
       | Er e => ret (inr (inl t1, Er e))
       end)
    (poll_ready svc)
    (fun s1 v => ret (inr s1, v))
    (drive (tpoll T) t w gs) gs.
Proof. exact @future_service_drive. Qed.
Print Assumptions C33_future_service_drive.

(** ... and afterwards: exactly the new service. *)
Theorem C33_future_service_history :
  forall W Req Resp Err (svc : Service W Req Resp Err) (T : Task W (result (st svc) Err)) tclone s,
  same_history (a := svc) (b := future_service svc T tclone) (fun r => r) (fun e => e) (fun _ _ f => f) s (inr s).
Proof. exact @future_service_history. Qed.
Print Assumptions C33_future_service_history.

Theorem C33_future_service_fut :
  forall W Req Resp Err (svc : Service W Req Resp Err) (T : Task W (result (st svc) Err)) tclone f w gs,
  drive (poll_fut (future_service svc T tclone)) f w gs = drive (poll_fut svc) f w gs.
Proof. exact @future_service_fut. Qed.
Print Assumptions C33_future_service_fut.

(** Non-vacuity: a response future that is pending twice, then fails; mapped. *)
Example C03_example :
  drive (poll_fut (map_err (fun e => ret (e + 100)) demo)) (Some 7) (Scr 0 [] [Pending; Pending; Ready (Er 1)])
    [tick 1; tick 1; tick 1; tick 1]
  = ([Scr 1 [] [Pending; Ready (Er 1)]; Scr 2 [] [Ready (Er 1)]], Finished None (Scr 3 [] []) (Er 101)).
Proof. reflexivity. Qed.
Example C32_example :
  drive (oneshot_poll (svc := demo)) (oneshot_new demo 5 7) (Scr 0 [Pending; Ready (Ok tt)] [Pending; Ready (Ok 3)])
    [tick 1; tick 1; tick 1]
  = ([Scr 1 [Ready (Ok tt)] [Pending; Ready (Ok 3)]; Scr 2 [] [Ready (Ok 3)]], Finished (OsDone demo) (Scr 3 [] []) (Ok 3)).
Proof. reflexivity. Qed.
