(** C69: every instance and every response future a stack makes for itself is dropped, and dropped once. *)
From Verif Require Import Base Util ReadyCache SpawnReady Load Make Middleware Limits Hedge MeterSpec MeterProof FlightSpec KeepSpec KeepProof KeepMore KeepTop.
Set Implicit Arguments.
Local Open Scope Z_scope.

(** Whatever a program does with any number of instances and clones of a stack and with the response futures: what
    exists, or is counted, of the service at the bottom is what was there before the program's instances, and what
    the instances and the futures it still holds account for. *)
Theorem C69_accounted : forall W Req Resp Err (live : W -> Z) (svc : Service W Req Resp Err) osv own,
  kept live svc osv own none -> forall w insts ops, osum osv insts <= live w -> calm (ustart svc w insts) ops -> env_same_z live ops ->
  let y := urun (ustart svc w insts) ops in
  live (u_world y) = live w - osum osv insts + holding_in osv own y.
Proof. exact kept_run. Qed.
Print Assumptions C69_accounted.

(** So when it has dropped all of them, nothing is left behind, and nothing that was not its own has been dropped. *)
Theorem C69_nothing_left : forall W Req Resp Err (live : W -> Z) (svc : Service W Req Resp Err) osv own,
  kept live svc osv own none -> forall w insts ops, osum osv insts <= live w -> calm (ustart svc w insts) ops -> env_same_z live ops ->
  let y := urun (ustart svc w insts) ops in
  (forall i, held_at (u_svcs y) i = None) -> (forall j, held_at (u_futs y) j = None) ->
  live (u_world y) = live w - osum osv insts.
Proof. exact kept_released. Qed.
Print Assumptions C69_nothing_left.

(** Making a Hedge out of an instance loses and duplicates nothing either. *)
Theorem C69_hedge_new : forall W Req Resp Err (live : W -> Z) (svc : Service W Req Resp Err) osv own orp (rt : Rt W)
    clone_request can_retry mdp quantile getH setH,
  kept live svc osv own orp -> forall s w w1 h, osv s <= live w ->
  hedge_new rt svc clone_request can_retry mdp quantile getH setH s w = (w1, Val h) ->
  live w1 = live w - osv s + (osv (fst h) + osv (fst (snd h))).
Proof. exact hedge_new_kept. Qed.
Print Assumptions C69_hedge_new.

(** Any service can be the bottom, with its instances counted, or with its response futures; so can a connector, with
    the connections it has made; and any fixed list of instances the discovery, or a map of any discovery. *)
Theorem C69_any_instances : forall W Req Resp Err (svc : Service W Req Resp Err), kept fst (census svc) (fun _ => 1) none none.
Proof. exact census_kept. Qed.
Print Assumptions C69_any_instances.
Theorem C69_any_futures : forall W Req Resp Err (svc : Service W Req Resp Err), kept fst (in_the_air svc) none (fun _ => 1) none.
Proof. exact in_the_air_kept. Qed.
Print Assumptions C69_any_futures.
Theorem C69_any_connector : forall W Tgt Made MErr (mk : Service W Tgt Made MErr), kept fst (census_mk mk) none none (fun _ => 1).
Proof. exact census_mk_kept. Qed.
Print Assumptions C69_any_connector.
Theorem C69_any_list : forall W X E (live : W -> Z) (xdrop : X -> W -> W) (osv : X -> Z),
  (forall x, gone live (osv x) (xdrop x)) -> (forall x, 0 <= osv x) ->
  disc_holds live (service_list (E := E) xdrop) osv (fun d => osum osv (snd d)).
Proof. exact service_list_holds. Qed.
Print Assumptions C69_any_list.
Theorem C69_any_mapped_discovery : forall W K S S' E (live : W -> Z) (D : Discover W K S E) (f : S -> M W S') (osv : S -> Z) (osv' : S' -> Z) od,
  disc_holds live D osv od -> (forall s, 0 <= osv s) -> (forall s, bal live (osv s) (f s) osv') -> disc_holds live (map_discover D f) osv' od.
Proof. exact map_discover_holds. Qed.
Print Assumptions C69_any_mapped_discovery.

(** ** Cases: a back end that answers every request, at the second poll, with an error; two retries; hedging. *)
Definition flaky9 : Service Z nat unit nat :=
  MkService (W := Z) unit bool
    (fun s => ret (s, Ready (Ok tt)))
    (fun s r => ret (s, false))
    (fun f => if f then ret (true, Ready (Er 7%nat)) else ret (true, Pending))
    (fun s => ret s) (fun _ w => w) (fun _ w => w).
Definition rt69 : Rt (Z * Z).
Proof. refine (@MkRt (Z * Z) snd (fun w d => (d <=? snd w)%Z) (fun _ w => w) _ _ _); auto. intros w d E. apply Z.leb_le, E. Defined.
Definition twice9 : Policy (Z * Z) nat unit nat :=
  @MkPolicy _ _ _ _ nat (MkTask (W := Z * Z) unit (fun t => ret (t, Ready tt)) (fun _ w => w))
    (fun p r => ret (p, Some r))
    (fun p r v => match p with O => ret (p, r, v, None) | S p' => ret (p', r, v, Some tt) end)
    (fun p => ret p).
Definition retried9 : Service (Z * Z) nat unit nat := retry twice9 (census flaky9) 9.
Definition hedged9 := hedge rt69 retried9 Some (fun _ => true) 0 (fun _ => 0%Z) (fun _ => histo_new 0 1000000000) (fun _ w => w).
Definition limited9 := conc_limit (timeout rt69 1000 hedged9) (fun _ => false) false.

Lemma retried9_kept : kept fst retried9 (fun _ => 1) (oretry (svc := census flaky9) (fun _ => 1) none (pol := twice9)) none.
Proof.
  apply (@kp_retry _ _ _ _ fst (census flaky9) (fun _ => 1) none twice9 9); [apply C69_any_instances | split; [intros t; apply still_ret | intros t w; reflexivity] | | |]; intros; try apply still_ret.
  cbn. destruct p; apply still_ret.
Qed.
Lemma limited9_kept : exists own, kept (fun x : sem * (Z * Z) => fst (snd x)) limited9 (fun _ => 2) own none.
Proof.
  eexists. apply (@kp_conc_limit _ _ _ _ fst (timeout rt69 1000 hedged9) (fun _ => 2)).
  apply kp_timeout; [apply (kp_hedge (osv := fun _ => 1)); [apply retried9_kept | |] |]; intros d w; reflexivity.
Qed.
(** One instance of the stack: two of the back end, in a world with three others. *)
Definition start9 := ustart limited9 (sem_new 2, (5, 0)) [conc_new (timeout rt69 1000 hedged9) ((2%nat, tt), ((2%nat, tt), tt))].
Definition alive9 (ops : list uop) := fst (snd (u_world (urun start9 ops))).
Definition ops9 : list (uop (W := sem * (Z * Z)) (Req := nat)) :=
  [UReady 0%nat; UCall 0%nat 5%nat; UPoll 0%nat; UPoll 0%nat; UPoll 0%nat; UReady 0%nat; UCall 0%nat 6%nat; UDrop 0%nat; UDropFut 0%nat; UPoll 1%nat; UDropFut 1%nat].

(** The call: one instance for the attempts of the original, one for the duplicate; the first poll: one more for the
    attempts of the duplicate.  Each future drops its own, before or after the stack goes. *)
Example C69_example : map (fun n => alive9 (firstn n ops9)) (seq 0 12) = [5; 5; 7; 8; 8; 8; 8; 10; 8; 5; 6; 3].
Proof. vm_compute. reflexivity. Qed.
Example C69_example_meets : osum (fun _ => 2) [conc_new (timeout rt69 1000 hedged9) ((2%nat, tt), ((2%nat, tt), tt))] <= 5 /\
  calm start9 ops9 /\ env_same_z (fun x : sem * (Z * Z) => fst (snd x)) ops9.
Proof. split; [vm_compute; discriminate |]. split; [vm_compute; repeat split | repeat constructor]. Qed.

(** Balancing over three such instances, two of them given to the balancer before it goes. *)
Definition balanced9 := balance (K := nat) (DErr := Empty_set) (R := Z) (Metric := nat) Nat.eq_dec retried9 (service_list (drop_svc retried9))
  (fun n w => (w, seq 0 n)) (fun g => ret (g + 1, g)%Z) true (fun s => ret O) Nat.leb 9.
Lemma balanced9_kept : kept fst balanced9
  (obalance (svc := retried9) (D := service_list (drop_svc retried9)) (fun _ => 1) (fun d => osum (fun _ => 1) (snd d)))
  (oopt (oretry (svc := census flaky9) (fun _ => 1) none (pol := twice9))) none.
Proof.
  apply (@kp_balance _ nat nat unit nat Empty_set nat Z Nat.eq_dec fst retried9 (fun _ => 1)).
  - apply retried9_kept.
  - apply C69_any_list; [| lia]. intros x w _. reflexivity.
  - intros n w. reflexivity.
  - intros g. apply still_ret.
  - intros s. apply still_ret.
Qed.
Definition first9 := balance_new (R := Z) retried9 (service_list (E := Empty_set) (drop_svc retried9)) (service_list_new [(2%nat, tt); (2%nat, tt); (1%nat, tt)]) 0%Z.
Definition ops9b : list (uop (W := Z * Z) (Req := nat)) :=
  [UReady 0%nat; UCall 0%nat 5%nat; UPoll 0%nat; UDrop 0%nat; UPoll 0%nat; UPoll 0%nat; UDropFut 0%nat].
Example C69_example_balance : map (fun n => fst (u_world (urun (ustart balanced9 (4, 0) [first9]) (firstn n ops9b)))) (seq 0 8)
  = [4; 4; 5; 5; 2; 2; 2; 1].
Proof. vm_compute. reflexivity. Qed.
Example C69_example_balance_meets : osum (obalance (svc := retried9) (D := service_list (drop_svc retried9)) (fun _ => 1) (fun d => osum (fun _ => 1) (snd d))) [first9] <= 4 /\
  calm (ustart balanced9 (4, 0) [first9]) ops9b /\ env_same_z fst ops9b.
Proof. split; [vm_compute; discriminate |]. split; [vm_compute; repeat split | repeat constructor]. Qed.

(** Reconnecting: the world's number is how often it may still break; a connection is as good as it is then. *)
Definition breaking9 : Service Z nat unit nat :=
  MkService (W := Z) unit bool
    (fun s w => (w - 1, Val (s, Ready (if Z.eqb w 2 then Er 1%nat else Ok tt))))
    (fun s r => ret (s, false)) (fun f => ret (true, Ready (Ok tt))) (fun s => ret s) (fun _ w => w) (fun _ w => w).
Definition maker9 : Service Z nat unit nat :=
  MkService (W := Z) unit unit (fun s => ret (s, Ready (Ok tt))) (fun s r => ret (s, tt)) (fun f => ret (f, Ready (Ok tt)))
    (fun s => ret s) (fun _ w => w) (fun _ w => w).
Definition mk9 : Service (Z * Z) nat (st (census breaking9)) nat := census_mk maker9.
Lemma reconnect9_kept : kept fst (reconnect (census breaking9) mk9 4%nat 9)
  (oreconnect (svc := census breaking9) (mk := mk9) (fun _ => 1) none none) (osums none none) none.
Proof. apply (kp_reconnect (osv := fun _ => 1)); [apply C69_any_instances | apply C69_any_connector]. Qed.
(** Connect; keep; the connection breaks, is dropped and replaced; drop all. *)
Example C69_example_reconnect :
  map (fun n => fst (u_world (urun (ustart (reconnect (census breaking9) mk9 4%nat 9) (0, 4) [reconnect_new (census breaking9) mk9 tt])
    (firstn n [UReady 0%nat; UCall 0%nat 5%nat; UReady 0%nat; UReady 0%nat; UPoll 0%nat; UDrop 0%nat; UDropFut 0%nat])))) (seq 0 8)
  = [0; 1; 1; 1; 1; 1; 0; 0].
Proof. vm_compute. reflexivity. Qed.
Example C69_example_hedge_new : exists w1 h,
  hedge_new rt69 retried9 Some (fun _ => true) 0 (fun _ => 0%Z) (fun _ => histo_new 0 1000000000) (fun _ w => w) (2%nat, tt) (1, 0) = (w1, Val h) /\ fst w1 = 2.
Proof. eexists _, _. split; reflexivity. Qed.
