(** C57: Shared and the MakeService adapters.  Specification in MakeSpec.v: a history is any list of operations on a
    [Shared], its clones and its futures; each entry comes with what was observed and with everything that happened
    to the services meanwhile ([TClone m k]: service [m] was cloned, the clone is [k]).  Service 0 is the original. *)
From Verif Require Import Base DriveSpec Track Make ReadyCache TranspMore MakeSpec MakeProof Demo.
Set Implicit Arguments.

(** Every entry is as it should be ([shared_ok]): a maker is always ready; a call clones the maker's own service once -
    and does nothing else to any service -; the future gives that very clone at its first poll, or drops it if it is
    dropped before; nothing is ever polled, called or dropped behind the owners' backs. *)
Theorem C57_shared_history W Tgt Req Resp Err (svc : Service W Req Resp Err) s w (l : list ((W -> W) * @shop Tgt)) h1 e h2 :
  shhistory svc s w l = h1 ++ e :: h2 -> shared_ok h1 e.
Proof. exact (@shared_history W Tgt Req Resp Err svc s w l h1 e h2). Qed.
Print Assumptions C57_shared_history.

(** What is cloned is the original as it was put in: its state never changes. *)
Theorem C57_shared_clones W Tgt Req Resp Err (svc : Service W Req Resp Err) ops p s w x (t : Tgt) (f : option (st svc)) x1 :
  In (x, ObsCall (svc := shared (Tgt := Tgt) svc) t f, x1) (run_svc (shared (Tgt := Tgt) svc) p s w ops) ->
  exists s1, f = Some s1 /\ clone svc s x = (x1, Val s1).
Proof. exact (@shared_clones W Tgt Req Resp Err svc ops p s w x t f x1). Qed.
Print Assumptions C57_shared_clones.

(** [into_service] and [as_service] (and with them the blanket implementation of [MakeService]) are transparent; the
    borrowing one leaves the maker alone when it is dropped. *)
Theorem C57_into_service_history W Tgt Made MErr (mk : Service W Tgt Made MErr) s :
  same_history (a := mk) (b := into_service mk) (fun r => r) (fun e => e) (fun _ _ f => f) s s.
Proof. exact (@into_history W Tgt Made MErr mk s). Qed.
Print Assumptions C57_into_service_history.
Theorem C57_into_service_futures W Tgt Made MErr (mk : Service W Tgt Made MErr) f w gs :
  drive (poll_fut (into_service mk)) f w gs = drive (poll_fut mk) f w gs.
Proof. exact (@into_drive W Tgt Made MErr mk f w gs). Qed.
Print Assumptions C57_into_service_futures.
Theorem C57_into_service_rest W Tgt Made MErr (mk : Service W Tgt Made MErr) s f w :
  clone (into_service mk) s w = clone mk s w /\ drop_svc (into_service mk) s w = drop_svc mk s w /\
  drop_fut (into_service mk) f w = drop_fut mk f w.
Proof. exact (@into_rest W Tgt Made MErr mk s f w). Qed.
Print Assumptions C57_into_service_rest.
Theorem C57_as_service_history W Tgt Made MErr (mk : Service W Tgt Made MErr) s :
  same_history (a := mk) (b := as_service mk) (fun r => r) (fun e => e) (fun _ _ f => f) s s.
Proof. exact (@as_history W Tgt Made MErr mk s). Qed.
Print Assumptions C57_as_service_history.
Theorem C57_as_service_rest W Tgt Made MErr (mk : Service W Tgt Made MErr) s f w gs :
  drive (poll_fut (as_service mk)) f w gs = drive (poll_fut mk) f w gs /\ drop_svc (as_service mk) s w = w /\
  drop_fut (as_service mk) f w = drop_fut mk f w.
Proof. exact (@as_rest W Tgt Made MErr mk s f w gs). Qed.
Print Assumptions C57_as_service_rest.

(** MakeBalance: making a balancer is making its discovery - same readiness, same calls, same polls, same errors -
    and putting it into a new balancer (empty, nothing chosen, with a generator seeded by [g0]). *)
Theorem C57_make_balance_history W K Req Resp Err DErr R Tgt MErr (svc : Service W Req Resp Err)
  (D : Discover W K (st svc) DErr) (mk : Service W Tgt (dst D) MErr) (g0 : M W R) s :
  same_history (a := mk) (b := make_balance svc D mk g0) (fun r => r) (fun e => e) (fun _ _ f => f) s s.
Proof. exact (make_balance_history svc D mk g0 s). Qed.
Print Assumptions C57_make_balance_history.
Theorem C57_make_balance_futures W K Req Resp Err DErr R Tgt MErr (svc : Service W Req Resp Err)
  (D : Discover W K (st svc) DErr) (mk : Service W Tgt (dst D) MErr) (g0 : M W R) f w gs :
  drive (poll_fut (make_balance svc D mk g0)) f w gs =
  fin_then (fun f => f)
    (fun f1 r => match r with
                 | Ok d => g <- g0 ;; ret (f1, Ok (BalSt d (Cache [] [] [] [] 0) None g))
                 | Er e => ret (f1, Er e)
                 end)
    (drive (poll_fut mk) f w gs).
Proof. exact (make_balance_drive svc D mk g0 f w gs). Qed.
Print Assumptions C57_make_balance_futures.
Theorem C57_make_balance_rest W K Req Resp Err DErr R Tgt MErr (svc : Service W Req Resp Err)
  (D : Discover W K (st svc) DErr) (mk : Service W Tgt (dst D) MErr) (g0 : M W R) s f w :
  clone (make_balance svc D mk g0) s w = clone mk s w /\ drop_svc (make_balance svc D mk g0) s w = drop_svc mk s w /\
  drop_fut (make_balance svc D mk g0) f w = drop_fut mk f w.
Proof. exact (make_balance_rest svc D mk g0 s f w). Qed.
Print Assumptions C57_make_balance_rest.
(** A maker of fixed lists. *)
Definition list_maker : Service scr nat (nat * list (st demo)) nat :=
  MkService (W := scr) unit nat (fun s => ret (s, Ready (Ok tt))) (fun s t => ret (s, t))
    (fun f => ret (f, if f =? 0 then Ready (Er 1) else Ready (Ok (0, seq 5 f)))) ret (fun _ w => w) (fun _ w => w).
Example C57_demo_balance :
  map (fun f => snd (drive (poll_fut (make_balance demo (service_list (E := Empty_set) (drop_svc demo)) list_maker (ret 3%Z))) f scr0 [fun w => w])) [0; 2] =
  [Finished 0 scr0 (Er 1); Finished 2 scr0 (Ok (BalSt (svc := demo) (D := service_list (drop_svc demo)) (0, [5; 6]) (Cache [] [] [] [] 0) None 3%Z))].
Proof. reflexivity. Qed.

Example C57_demo : shhistory demo 5 scr0
    (map (fun o => (tick 1, o)) [ShReady 0; ShCall 0 7; ShClone 0; ShCall 1 8; ShPoll 0; ShDropFut 1; ShPoll 0; ShDrop 0; ShCall 0 9; ShDropFut 0]) =
  [(ShReady 0, BoReady (Ready (Ok tt)), []); (ShCall 0 7, BoCalled, [TClone 0 1]); (ShClone 0, BoCloned 2, [TClone 0 2]);
   (ShCall 1 8, BoCalled, [TClone 2 3]); (ShPoll 0, BoMade 1, []); (ShDropFut 1, BoDone, [TDropSvc 3]); (ShPoll 0, BoPanic, []);
   (ShDrop 0, BoDone, [TDropSvc 0]); (ShCall 0 9, BoNone, []); (ShDropFut 0, BoDone, [])].
Proof. vm_compute. reflexivity. Qed.
Example C57_demo_clones : obs (run_svc (shared (Tgt := nat) warm) Idle 3 scr0 [(tick 1, SReady); (tick 1, SCall 7); (tick 1, SReady); (tick 1, SCall 8)]) =
  [ObsReady (Ready (Ok tt)); ObsCall (svc := shared (Tgt := nat) warm) 7 (Some 1); ObsReady (Ready (Ok tt)); ObsCall (svc := shared (Tgt := nat) warm) 8 (Some 1)].
Proof. reflexivity. Qed.
