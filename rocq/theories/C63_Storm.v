(** C63: retry storms.  Any number of clones of a [Retry] whose policy asks one shared [TpsBudget], as the documentation
    of retry/budget shows; any owners doing anything in any order.  The system is in StormSpec.v ([bw_att]: calls the wrapped
    service has received; [bw_good]: its answers not to be retried; [bw_ops]: what was asked of the budget; [requests l]: calls
    the owners make). *)
From Verif Require Import Base Middleware Limits Tps TpsSpec StormSpec StormProof.
Set Implicit Arguments.
Local Open Scope Z_scope.

(** Every call beyond the owners' own is paid for by a withdrawal the budget granted; and these, in the long run, by the
    reserve once per half ttl and by the successes, each at most three times. *)
Theorem C63_storm :
  forall W Req Resp Err (svc : Service W Req Resp Err) (clock : W -> Z) (cfg : tps_cfg) (again : result Resp Err -> bool)
    (T : Task W unit) (delay : result Resp Err -> M W (tst T)) (copy : Req -> M W (option Req)) (fuel : nat) s w l,
  forward_svc svc clock T delay copy -> forward_ops clock l -> sane cfg ->
  let b := g_b (grun (gsys0 svc clock cfg again T delay copy fuel s w) l) in
  let grants := wds (history (bw_ops b) (tps_run cfg (tps_start (clock w)) (bw_ops b))) in
  Z.of_nat (bw_att b) <= Z.of_nat (requests l) + grants /\
  (t_reserve cfg + t_deposit cfg * Z.of_nat (bw_good b) <= isize_max ->
   t_withdraw cfg * (Z.of_nat (bw_att b) - Z.of_nat (requests l)) <=
   ((clock (bw_w b) - clock w) / (5 * t_window cfg) + 1) * t_reserve cfg + 3 * t_deposit cfg * Z.of_nat (bw_good b)).
Proof. exact @storm. Qed.
Print Assumptions C63_storm.

(** Non-vacuity: an outage.  The world is the clock and whether the service is down. *)
Definition flaky : Service (Z * bool) nat nat nat :=
  MkService (W := Z * bool) unit nat
    (fun s => ret (s, Ready (Ok tt))) (fun s r => ret (s, r))
    (fun f (w : Z * bool) => (w, Val (f, Ready (if snd w then Er f else Ok f))))
    (fun s => ret s) (fun _ (w : Z * bool) => w) (fun _ w => w).
Definition fails (r : result nat nat) : bool := match r with Ok _ => false | Er _ => true end.
Definition at_once : Task (Z * bool) unit := MkTask (W := Z * bool) unit (fun t => ret (t, Ready tt)) (fun _ w => w).
Definition ex_cfg : tps_cfg := TpsCfg 4 100 1 2.
Definition ex_sys0 := gsys0 flaky fst ex_cfg fails at_once (fun _ => ret tt) (fun r => ret (Some r)) 20 tt (0, true).
Definition later (d : Z) (down : bool) : Z * bool -> Z * bool := fun w => (fst w + Z.max 0 d, down).
Definition ex_ops : list (@gop (Z * bool) nat) :=
  [GClone 0; GCall 0 7%nat; GPoll 0; GEnv (later 10 true); GCall 1 8%nat; GPoll 1; GEnv (later 10 false); GCall 0 9%nat; GPoll 2;
   GCall 1 10%nat; GPoll 3; GEnv (later 600 true); GCall 0 11%nat; GPoll 4; GEnv (later 2000 true); GCall 0 12%nat; GPoll 5].
Example C63_example :
  forward_svc flaky fst at_once (fun _ : result nat nat => ret tt) (fun r => ret (Some r)) /\ forward_ops fst ex_ops /\ sane ex_cfg /\
  let b := g_b (grun ex_sys0 ex_ops) in
  requests ex_ops = 6%nat /\ bw_att b = 11%nat /\ bw_good b = 2%nat /\
  wds (history (bw_ops b) (tps_run ex_cfg (tps_start 0) (bw_ops b))) = 5.
Proof.
  split; [|split; [|split; [|vm_compute; auto]]].
  - split; unfold forward, onward; intros; apply Z.le_refl.
  - unfold forward_ops, ex_ops, onward, later. repeat constructor; intros [? ?]; cbn [fst]; lia.
  - split; vm_compute; intuition congruence.
Qed.
(** The worst case of the first half ttl is reached: one failing request uses up the whole reserve. *)
Example C63_example_reserve :
  let b := g_b (grun ex_sys0 (firstn 3 ex_ops)) in
  t_withdraw ex_cfg * (Z.of_nat (bw_att b) - 1) = t_reserve ex_cfg.
Proof. reflexivity. Qed.
