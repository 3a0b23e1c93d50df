(** C60: owners that break the contract.  Specification in MisuseSpec.v.  (ConcurrencyLimit: C34-C36 range over such
    owners already; Buffer: C45; Mock: C56.) *)
From Verif Require Import Base Middleware Limits Track RateSpec RateProof ReadyCache MisuseSpec MisuseProof Demo.
Set Implicit Arguments.

(** Any number of [LoadShed] instances in such hands: an instance passes a request on if and only if the wrapped
    instance's last answer other than an error was [Ready(Ok)] and has not been used for a call; otherwise it is
    rejected and nothing happens to any wrapped service. *)
Theorem C60_load_shed_any_owner :
  forall W Req Resp Err (svc : Service W Req Resp Err) (s : st svc) w n ops,
  Forall (fleet_entry (svc := svc))
    (fleet_run [Some (load_shed_new (tracked (fun e => e) svc) (0, s))] (w, Tk (S n) []) ops).
Proof. exact @fleet_entries. Qed.
Print Assumptions C60_load_shed_any_owner.

(** Two instances; the owner calls the first twice after one [Ready], and the second without asking. *)
Example C60_load_shed_example :
  map (fun x => snd (fst x)) (fleet_run [Some (load_shed_new (tracked (fun e => e) demo) (0, 5))] (scr0, Tk 1 [])
    [(tick 1, FReady 0); (tick 1, FClone 0); (tick 1, FCall 0 7); (tick 1, FCall 0 8); (tick 1, FCall 1 9)])
  = [FoReady demo 0 (Ready (Ok tt)); FoOther demo; FoCall (svc:=demo) 0 7 (Some (2, 7)); FoCall (svc:=demo) 0 8 None; FoCall (svc:=demo) 1 9 None].
Proof. reflexivity. Qed.

(** [RateLimit]: the bound of C37 holds for such owners too. *)
Theorem C60_rate_any_owner :
  forall W Req Resp Err (rt : Rt W) (svc : Service W Req Resp Err) (r : rate),
  (0 < r_num r)%N -> (0 < r_per r)%Z -> time_flows rt svc ->
  forall (x : st svc) w0 w s ops,
  Forall (fun o => forward rt (fst o)) ops ->
  rate_limit_new (tk_rt rt) r (tracked (fun e => e) svc) (0, x) w0 = (w, Val s) ->
  exists lo, windowed (r_num r) (r_per r) lo (any_call_times (run_any (trate rt svc r) s w (tk_ops ops))).
Proof. exact @rate_any. Qed.
Print Assumptions C60_rate_any_owner.

(** Three calls at once with a limit of two: the third panics. *)
Example C60_rate_example :
  map (fun x => snd (fst x)) (run_any (trate scr_rt demo (Rate 2 10)) (RlSt (tracked (fun e => e) demo) (0, 5) (RlReady 0 2) 0)
    (scr0, Tk 1 []) (tk_ops [(tick 1, SCall 7); (tick 1, SCall 8); (tick 1, SCall 9)]))
  = [ObsCall (svc := trate scr_rt demo (Rate 2 10)) 7 (1, 7); ObsCall (svc := trate scr_rt demo (Rate 2 10)) 8 (2, 8); ObsPanic].
Proof. reflexivity. Qed.

(** [Steer] and the p2c [Balance] refuse a call for which the owner has no unused [Ready(Ok)]: they panic before
    anything - picker, services, discovery - is touched. *)
Theorem C60_steer_refuses :
  forall W Req Resp Err P (svc : Service W Req Resp Err)
    (pick : P -> Req -> list (st svc) -> M W (P * nat)) (pclone : P -> M W P) (services : list (st svc)) (p0 : P),
  services <> [] -> refuses_unprimed (steer svc pick pclone) (steer_new svc services p0).
Proof. exact @steer_refuses. Qed.
Print Assumptions C60_steer_refuses.

Theorem C60_balance_refuses :
  forall W K Req Resp Err DErr Metric R (keq : forall a b : K, {a = b} + {a <> b})
    (svc : Service W Req Resp Err) (D : Discover W K (st svc) DErr)
    (sched : nat -> W -> W * list nat) (next_u64 : R -> M W (R * Z)) (debug : bool)
    (load : st svc -> M W Metric) (le : Metric -> Metric -> bool) (fuel : nat) (d : dst D) (g : R),
  refuses_unprimed (balance keq svc D sched next_u64 debug load le fuel) (balance_new svc D d g).
Proof. exact @balance_refuses. Qed.
Print Assumptions C60_balance_refuses.

(** A [Steer] over two services, used properly once and then called again without asking. *)
Example C60_steer_example :
  let sv := steer demo (fun p r l => ret (p, r)) (fun p : unit => ret p) in
  map (fun x => (snd (fst x))) (run_any sv (steer_new demo [5; 6] tt) scr0
    [(tick 1, SReady); (tick 1, SCall 1); (tick 1, SCall 0)])
  = [ObsReady (Ready (Ok tt)); ObsCall (svc := sv) 1 1; ObsPanic].
Proof. reflexivity. Qed.
