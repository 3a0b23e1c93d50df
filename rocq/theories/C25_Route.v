(** C25, C26 (Reconnect), C27 (Steer).  Specifications in RouteSpec.v. *)
From Verif Require Import Base DriveSpec Middleware Track RouteSpec RouteProof RouteMore Demo.
Set Implicit Arguments.

(** Every history of a [Reconnect]: what it does to the maker and to the connections follows the life
    cycle [cstep] (maker ready, one call, wait, one live connection, dropped when its readiness fails,
    and so on); [poll_ready] and [call] answer as [rc_op] says. *)
Theorem C26_reconnect_history :
  forall W Tgt Req Resp Err MErr (svc : Service W Req Resp Err) (mk : Service W Tgt (st svc) MErr) (target : Tgt) fuel (m : st mk) w ops,
  rc_history (svc := svc) (mk := mk) (target := target) (fuel := fuel) (CIdle, None)
    (run_svc (treconnect svc mk target fuel) Idle (reconnect_new (tracked CIn svc) (tmk svc mk) m) w (tk_ops ops)).
Proof. exact @reconnect_history. Qed.
Print Assumptions C26_reconnect_history.

(** The same when it starts with a connection. *)
Theorem C26_reconnect_history_with_connection :
  forall W Tgt Req Resp Err MErr (svc : Service W Req Resp Err) (mk : Service W Tgt (st svc) MErr) (target : Tgt) fuel (c : st svc) (m : st mk) w ops,
  rc_history (svc := svc) (mk := mk) (target := target) (fuel := fuel) (CUp 0, None)
    (run_svc (treconnect svc mk target fuel) Idle (reconnect_with_connection (tracked CIn svc) (tmk svc mk) (0, c) m) w (tk_ops ops)).
Proof. exact @reconnect_history_with. Qed.
Print Assumptions C26_reconnect_history_with_connection.

(** The future of a call that was handed a connection error fails with it at its first poll. *)
Theorem C25_reconnect_error_future :
  forall W Tgt Req Resp Err MErr (svc : Service W Req Resp Err) (mk : Service W Tgt (st svc) MErr) (target : Tgt) fuel e w g gs,
  drive (poll_fut (reconnect svc mk target fuel)) (inr (Some e)) w (g :: gs) =
  ([], Finished (inr None) (g w) (Er (inr e))).
Proof. exact @reconnect_error_drive. Qed.
Print Assumptions C25_reconnect_error_future.

(** The errors handed out are errors of failed connection attempts, each handed out at most once, in
    the order of the failures. *)
Theorem C25_reconnect_errors_delivered_once :
  forall W Tgt Req Resp Err MErr (svc : Service W Req Resp Err) (mk : Service W Tgt (st svc) MErr) (target : Tgt) fuel (m : st mk) w ops,
  log_of w = [] ->
  let h := run_svc (treconnect svc mk target fuel) Idle (reconnect_new (tracked CIn svc) (tmk svc mk) m) w (tk_ops ops) in
  sublist (delivered h) (failures (rev (final_log w h))).
Proof. exact @rc_errors. Qed.
Print Assumptions C25_reconnect_errors_delivered_once.

(** A failed attempt makes [poll_ready] answer [Ready(Ok)]. *)
Theorem C25_reconnect_failure_is_ready :
  forall W Tgt Req Resp Err MErr (svc : Service W Req Resp Err) (mk : Service W Tgt (st svc) MErr) (target : Tgt) fuel (m : st mk) w ops w0 a w1 x,
  In (w0, ObsReady a, w1) (run_svc (treconnect svc mk target fuel) Idle (reconnect_new (tracked CIn svc) (tmk svc mk) m) w (tk_ops ops)) ->
  newest_failure (news w0 w1) = Some x -> a = Ready (Ok tt).
Proof. exact @failure_ready. Qed.
Print Assumptions C25_reconnect_failure_is_ready.
(** Every call: if an attempt has failed since the last call, it is handed the error of the newest one (and touches
    nothing); otherwise, and only then, the request goes to a connection. *)
Theorem C25_reconnect_next_call_gets_error :
  forall W Tgt Req Resp Err MErr (svc : Service W Req Resp Err) (mk : Service W Tgt (st svc) MErr) (target : Tgt) fuel (m : st mk) w ops h1 w0 r f w1 h2,
  run_svc (treconnect svc mk target fuel) Idle (reconnect_new (tracked CIn svc) (tmk svc mk) m) w (tk_ops ops) = h1 ++ (w0, ObsCall r f, w1) :: h2 ->
  match undelivered h1 with
  | Some x => f = inr (Some x) /\ log_of w1 = log_of w0
  | None => exists c f', f = inl f' /\ log_of w1 = CIn (TCall c r (fst f')) :: log_of w0
  end.
Proof. exact @delivers. Qed.
Print Assumptions C25_reconnect_next_call_gets_error.

(** Every step of every history of a [Steer] conforms to [steer_entry], and a service is polled for readiness only
    if it is not ready already. *)
Theorem C27_steer_history :
  forall W Req Resp Err P (svc : Service W Req Resp Err)
    (pick : P -> Req -> list (st svc) -> M W (P * nat)) (pclone : P -> M W P) (services : list (st svc)) (p0 : P) w ops,
  log_of w = [] ->
  Forall (fun x => steer_entry (svc := svc) (pick := pick) (pclone := pclone) (length services) x /\
                   no_needless_poll (log_of (snd x)))
    (run_svc (tsteer svc pick pclone) Idle (steer_new (tracked SIn svc) (numbered svc 0 services) p0) w (tk_ops ops)).
Proof. exact @steer_entries. Qed.
Print Assumptions C27_steer_history.

(** Non-vacuity.  Steer over three services: the second is slow once. *)
Definition pick_mod (p r : nat) (l : list nat) : M scr (nat * nat) := ret (S p, r mod 3).
Example C27_example :
  let s := tsteer demo pick_mod (fun p => ret p) in
  map (fun x => (snd (fst x), log_of (snd x))) (run_svc s Idle (steer_new (tracked SIn demo) (numbered demo 0 [5; 5; 5]) 0)
    (Scr 0 [Ready (Ok tt); Pending] [], Tk 10 [])
    (tk_ops [(tick 1, SReady); (tick 1, SReady); (tick 1, SCall 7); (tick 1, SReady)])) =
  let l1 := [SIn (TReady 1 Pending); SIn (TReady 0 (Ready (Ok tt)))] in
  let l2 := [SIn (TReady 2 (Ready (Ok tt))); SIn (TReady 1 (Ready (Ok tt)))] ++ l1 in
  let l3 := [SIn (TCall 1 7 10); SPick 0 1 7 1] ++ l2 in
  [(ObsReady Pending, l1); (ObsReady (Ready (Ok tt)), l2); (ObsCall (svc := s) 7 (10, 7), l3);
   (ObsReady (Ready (Ok tt)), SIn (TReady 1 (Ready (Ok tt))) :: l3)].
Proof. reflexivity. Qed.

(** Reconnect: connect, break, fail to reconnect, deliver the error, reconnect. *)
Definition demo_mk : Service scr nat (st demo) nat := demo.
Example C26_example :
  let s := treconnect demo demo_mk 80 10 in
  map (fun x => snd (fst x)) (run_svc s Idle (reconnect_new (tracked CIn demo) (tmk demo demo_mk) 0)
    (Scr 0 [Ready (Ok tt); Ready (Ok tt); Ready (Er 9)] [Pending; Ready (Ok 3); Ready (Er 6)], Tk 1 [])
    (tk_ops [(tick 1, SReady); (tick 1, SReady); (tick 1, SCall 7); (tick 1, SReady); (tick 1, SCall 8); (tick 1, SReady); (tick 1, SCall 9)])) =
  [ObsReady Pending; ObsReady (Ready (Ok tt)); ObsCall (svc := s) 7 (inl (3, 7)); ObsReady (Ready (Ok tt));
   ObsCall (svc := s) 8 (inr (Some 6)); ObsReady (Ready (Ok tt)); ObsCall (svc := s) 9 (inl (7, 9))].
Proof. reflexivity. Qed.
(** ... in which the fourth step has a failed attempt, whose error the fifth hands out. *)
Example C25_example :
  let s := treconnect demo demo_mk 80 10 in
  let h := run_svc s Idle (reconnect_new (tracked CIn demo) (tmk demo demo_mk) 0)
    (Scr 0 [Ready (Ok tt); Ready (Ok tt); Ready (Er 9)] [Pending; Ready (Ok 3); Ready (Er 6)], Tk 1 [])
    (tk_ops [(tick 1, SReady); (tick 1, SReady); (tick 1, SCall 7); (tick 1, SReady); (tick 1, SCall 8); (tick 1, SReady); (tick 1, SCall 9)]) in
  map (fun x => newest_failure (news (fst (fst x)) (snd x))) h = [None; None; None; Some 6; None; None; None] /\
  map (fun n => undelivered (firstn n h)) (seq 0 8) = [None; None; None; None; Some 6; None; None; None].
Proof. split; reflexivity. Qed.
