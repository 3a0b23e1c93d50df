(** C64: requests are not multiplied behind the user's back. *)
From Verif Require Import Base Util ReadyCache SpawnReady Load Make Middleware Limits Hedge MeterSpec MeterProof MeterTop.
Set Implicit Arguments.

(** Whatever a program does with any number of instances and clones of a stack and with the response
    futures, the service at the bottom is called at most [k] times per request submitted. *)
Theorem C64_no_amplification : forall W Req Resp Err (calls : W -> nat) k (svc : Service W Req Resp Err) I,
  bounded calls k svc I -> forall w insts ops, Forall I insts -> env_same calls ops ->
  calls (u_world (urun (ustart svc w insts) ops)) <= calls w + k * submitted ops.
Proof. exact bounded_run. Qed.
Print Assumptions C64_no_amplification.

(** Any service can be the bottom. *)
Theorem C64_any_bottom : forall W Req Resp Err (svc : Service W Req Resp Err), bounded fst 1 (counted svc) (fun _ => True).
Proof. intros. apply bd_base. apply counted_counts. Qed.
Print Assumptions C64_any_bottom.

(** ** Cases: a back end that answers every request, at the second poll, with an error. *)
Definition flaky : Service Z nat unit nat :=
  MkService (W := Z) unit bool
    (fun s => ret (s, Ready (Ok tt)))
    (fun s r => ret (s, false))
    (fun f => if f then ret (true, Ready (Er 7)) else ret (true, Pending))
    (fun s => ret s) (fun _ w => w) (fun _ w => w).
Definition rt64 : Rt (nat * Z).
Proof. refine (@MkRt (nat * Z) snd (fun w d => (d <=? snd w)%Z) (fun _ w => w) _ _ _); auto. intros w d E. apply Z.leb_le, E. Defined.
(** two retries at most *)
Definition twice : Policy (nat * Z) nat unit nat :=
  @MkPolicy _ _ _ _ nat (MkTask (W := nat * Z) unit (fun t => ret (t, Ready tt)) (fun _ w => w))
    (fun p r => ret (p, Some r))
    (fun p r v => match p with 0 => ret (p, r, v, None) | S p' => ret (p', r, v, Some tt) end)
    (fun p => ret p).
Definition retried : Service (nat * Z) nat unit nat := retry twice (counted flaky) 9.
Definition hedged := hedge rt64 retried Some (fun _ => true) 0 (fun _ => 0%Z) (fun _ => histo_new 0 1000000000) (fun _ w => w).
Definition limited := conc_limit (timeout rt64 1000 hedged) (fun _ => false) false.

Lemma retried_bounded : bounded fst 3 retried (fun s => fst s <= 2).
Proof.
  eapply bd_weaken;
    [eapply (@bd_retry _ _ _ _ fst 1 (counted flaky) (fun _ => True) twice 9 2 (fun p => p <= 2) (fun p _ => p)) | auto | intros s Hs; split; [exact Hs | exact I]].
  - apply C64_any_bottom.
  - split; [intros t; apply still_ret | intros t w; reflexivity].
  - auto.
  - intros p r Hp w. cbn. split; [reflexivity |]. intros a E. injection E as <-. cbn. auto.
  - intros p r v Hp w. destruct p as [|p]; cbn; (split; [reflexivity |]); intros a E; injection E as <-; cbn; auto with arith.
  - intros p Hp w. cbn. split; [reflexivity |]. intros a E. injection E as <-. exact Hp.
Qed.
Lemma limited_bounded : bounded (fun x : sem * (nat * Z) => fst (snd x)) 6 limited
  (fun s => s = conc_new (timeout rt64 1000 hedged) ((2, tt), ((2, tt), tt))).
Proof.
  eapply bd_weaken; [apply bd_conc_limit, bd_timeout; [apply bd_hedge; [apply retried_bounded | |] |] | auto |].
  - intros d w. reflexivity.
  - intros h w. reflexivity.
  - intros d w. reflexivity.
  - intros s ->. eexists. split; [| reflexivity]. exists (2, tt), (0, 0%Z), (0, 0%Z). split; [auto | reflexivity].
Qed.

(** One request through Hedge over Retry over the failing back end, under Timeout and ConcurrencyLimit: the
    bound of 6 is reached (and, with further polls, not exceeded). *)
Example C64_example : let ops := [UReady 0; UCall 0 5; UPoll 0; UPoll 0; UPoll 0; UPoll 0; UPoll 0; UDropFut 0; UDrop 0] in
  env_same (fun x : sem * (nat * Z) => fst (snd x)) ops /\ submitted ops = 1 /\
  fst (snd (u_world (urun (ustart limited (sem_new 1, (0, 0%Z)) [conc_new (timeout rt64 1000 hedged) ((2, tt), ((2, tt), tt))]) ops))) = 6.
Proof. split; [repeat constructor |]. split; [reflexivity |]. vm_compute. reflexivity. Qed.
(** Dropped early, the same request costs 2. *)
Example C64_example_cancelled : let ops := [UReady 0; UCall 0 5; UPoll 0; UDropFut 0; UPoll 0] in
  fst (snd (u_world (urun (ustart limited (sem_new 1, (0, 0%Z)) [conc_new (timeout rt64 1000 hedged) ((2, tt), ((2, tt), tt))]) ops))) = 2.
Proof. vm_compute. reflexivity. Qed.
(** Two clones, one call each: 2 requests, 6 calls. *)
Example C64_example_retry_clones :
  let ops := [UClone 0; UCall 0 5; UCall 1 6; UPoll 0; UPoll 1; UPoll 0; UPoll 1; UPoll 0; UPoll 1; UPoll 0; UPoll 1] in
  submitted ops = 2 /\ fst (u_world (urun (ustart retried (0, 0%Z) [(2, tt)]) ops)) = 6.
Proof. split; [reflexivity |]. vm_compute. reflexivity. Qed.

(** Balancing over instances that retry: still 3 per request. *)
Definition balanced := balance (K := nat) (DErr := Empty_set) (R := Z) (Metric := nat) Nat.eq_dec retried (service_list (drop_svc retried))
  (fun n w => (w, seq 0 n)) (fun g => ret (g + 1, g)%Z) true (fun s => ret 0) Nat.leb 9.
Lemma balanced_bounded : bounded fst 3 balanced
  (fun s => exists d g, Forall (fun x => fst x <= 2) (snd d) /\ s = balance_new retried (service_list (drop_svc retried)) d g).
Proof.
  apply (@bd_balance (nat * Z) nat nat unit nat Empty_set nat Z Nat.eq_dec fst 3 retried (fun s => fst s <= 2) (service_list (drop_svc retried)))
    with (VD := fun d => Forall (fun x => fst x <= 2) (snd d)).
  - apply retried_bounded.
  - intros [i l] Hd w. cbn in *. destruct l as [|s l]; cbn; (split; [reflexivity |]); intros a E; injection E as <-; cbn; [auto |].
    inversion Hd; subst. auto.
  - intros [i l] w. cbn. revert w. induction l as [|x l IH]; intros w; cbn; [reflexivity |]. rewrite IH. reflexivity.
  - intros n w. reflexivity.
  - intros g. apply still_ret.
  - intros s. apply still_ret.
Qed.
Example C64_example_balance :
  let ops := [UReady 0; UCall 0 5; UReady 0; UCall 0 6; UPoll 0; UPoll 0; UPoll 0; UPoll 0; UPoll 1] in
  submitted ops = 2 /\
  fst (u_world (urun (ustart balanced (0, 0%Z) [balance_new retried (service_list (drop_svc retried)) (service_list_new [(2, tt); (2, tt); (1, tt)]) 0%Z]) ops)) = 4.
Proof. split; [reflexivity |]. vm_compute. reflexivity. Qed.
