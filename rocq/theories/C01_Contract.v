(** C01, C02: the [Service] contract through any stack of middleware. *)
From Verif Require Import Base ContractSpec StackSpec StackProof StackRefute Util ReadyCache SpawnReady Load Make Middleware Limits Hedge Demo.
Set Implicit Arguments.

(** C01.  Take any service that panics as soon as anybody uses it against the
    contract (call without a fresh Ready, use after a readiness error, poll of a
    finished future), put any tower middleware on top of it in any order and any
    depth, and drive the result in any way the contract allows, with any number
    of clones and futures, in any environment: nothing ever panics. *)
Theorem C01_contract_through_any_stack :
  forall c W Req Resp Err (svc : Service W Req Resp Err) I,
    stack c svc I -> forall s0, I s0 -> contract_safe (c_cl c) svc s0.
Proof. exact stack_contract. Qed.
Print Assumptions C01_contract_through_any_stack.

(** C01, second half: every such operation returns, unless a loop that
    user code can keep going (Retry, Reconnect, SpawnReady, Balance) is in the stack. *)
Theorem C01_every_operation_returns :
  forall c W Req Resp Err (svc : Service W Req Resp Err) I,
    stack c svc I -> forall s0, I s0 -> c_div c = false -> always_returns (c_cl c) svc s0.
Proof. exact stack_returns. Qed.
Print Assumptions C01_every_operation_returns.

(** C02.  Readiness persists: once [poll_ready] answered [Ready(Ok)], it does
    not answer [Pending] before the next [call]. *)
Theorem C02_readiness_persists :
  forall c W Req Resp Err (svc : Service W Req Resp Err) I,
    stack c svc I -> forall s0, I s0 -> c_stk c = true -> ready_persists (c_cl c) svc s0.
Proof. exact stack_persists. Qed.
Print Assumptions C02_readiness_persists.

(** Non-vacuity: timeout over concurrency limit over load-shed over the
    supervised service; claims: returns, persists, clonable. *)
Definition sem_rt : Rt (sem * scr).
Proof.
  refine (MkRt (fun x => now scr_rt (snd x)) (fun x d => fired scr_rt (snd x) d)
            (fun d x => (fst x, nap scr_rt d (snd x))) _ _ _); try reflexivity.
  intros w d H. apply (fired_sound scr_rt), H.
Defined.
Definition demo_stack :=
  timeout sem_rt 5 (conc_limit (load_shed (guard warm)) (fun _ => false) true).
Definition demo_s0 : st demo_stack := conc_new (load_shed (guard warm)) (load_shed_new (guard warm) (Idle, 1)).
Example C01_example : stack (Caps false true true) demo_stack
    (fun s => exists x, (exists y, fst y = Idle /\ x = load_shed_new (guard warm) y) /\
                        s = conc_new (load_shed (guard warm)) x).
Proof.
  apply stk_timeout.
  exact (@stk_conc_limit _ _ _ _ _ _ _ true (stk_load_shed
    (stk_base (dv := false) (stk := true) warm_never_panics (fun _ => warm_never_diverges)
                     (fun _ => warm_keeps_ready)))).
Qed.
(** ... and a run of it: shed, then served. *)
Example C01_example_run :
  obs (run_svc demo_stack Idle demo_s0 (sem_new 1, scr0)
    [(fun w => w, SReady); (fun w => w, SCall 7); (fun w => w, SReady)])
  = [ObsReady (Ready (Ok tt));
     ObsCall (svc := demo_stack) 7
       (TimeoutFut (conc_limit (load_shed (guard warm)) (fun _ => false) true) None 5);
     ObsReady Pending].
Proof. reflexivity. Qed.

(** A second one: Timeout over Balance over a fixed list of two supervised services with constant loads. *)
Notation wide := (constant (M' := nat) (guard warm)).
Definition wide_disc : Discover scr nat (st wide) Empty_set := service_list (drop_svc wide).
Definition wide_stack :=
  timeout scr_rt 5 (balance Nat.eq_dec wide wide_disc (fun n w => (w, seq 0 n))
    (hasher_next (fun z => z)) true (fun s => ret (constant_load (svc := guard warm) s)) Nat.leb 5).
Definition wide_s0 : st wide_stack :=
  balance_new wide wide_disc (service_list_new [((Idle, 1), 9); ((Idle, 2), 3)]) 0%Z.
Example C01_example_balance : exists I : st wide_stack -> Prop, stack (Caps true false false) wide_stack I /\ I wide_s0.
Proof.
  eexists. split.
  - apply stk_timeout. eapply stk_balance with (ks := seq 0 2)
      (VD := fun d : nat * list (st wide) => fst d + length (snd d) = 2 /\ Forall (fun s => fst (fst s) = Idle) (snd d)).
    + apply (@stk_constant _ _ _ _ _ nat _ _ (stk_base (dv := false) (stk := true) warm_never_panics (fun _ => warm_never_diverges)
                     (fun _ => warm_keeps_ready))).
    + reflexivity.
    + intros [i l] [Hl HF] w. cbn [fst snd] in *. unfold wide_disc, service_list, poll_discover. cbn [fst snd].
      destruct l as [|s l]; cbn; [auto|]. inversion HF; subst. cbn in Hl. repeat split; auto; lia.
    + intros g w. exact I.
    + intros s w. exact I.
  - exists (service_list_new [((Idle, 1), 9); ((Idle, 2), 3)]), 0%Z. split; [|reflexivity].
    split; [reflexivity|]. repeat constructor.
Qed.
(** ... it waits until an endpoint is ready; the calls go to the endpoints. *)
Example C01_example_balance_run :
  map (fun o : sobs wide_stack => match o with
              | ObsReady (Ready (Ok _)) => inl (Some true) | ObsReady Pending => inl (Some false)
              | ObsCall r f => inr (to_inner f : option (bool * nat)) | _ => inl None end)
    (obs (run_svc wide_stack Idle wide_s0 scr0
      [(fun w => w, SReady); (fun w => w, SReady); (fun w => w, SCall 7); (fun w => w, SReady); (fun w => w, SCall 8)]))
  = [inl (Some false); inl (Some true); inr (Some (false, 7)); inl (Some true); inr (Some (false, 8))].
Proof. vm_compute. reflexivity. Qed.

(** The supervisor has teeth: a middleware that calls without asking for
    readiness makes it panic. *)
Definition eager {W Req Resp Err} (svc : Service W Req Resp Err) : Service W Req Resp Err :=
  MkService (st svc) (fut svc) (fun s => ret (s, Ready (Ok tt))) (call svc) (poll_fut svc)
    (clone svc) (drop_svc svc) (drop_fut svc).
Example C01_teeth :
  obs (run_svc (eager (guard demo)) Idle (Idle, 0) scr0 [(fun w => w, SReady); (fun w => w, SCall 7)])
  = [ObsReady (Ready (Ok tt)); ObsPanic].
Proof. reflexivity. Qed.

(** ** What does not hold *)

(** A clone of a ready [Steer] says it is ready without having asked the cloned
    services, then calls one of them (steer/mod.rs:171-184 copies [not_ready]). *)
Theorem C01_steer_clone_refuted :
  exists (W Req Resp Err : Type) (svc : Service W Req Resp Err) (s0 : st svc),
    never_panics svc /\
    ~ contract_safe true (steer (guard svc) (fun p _ _ => ret (p, 0)) (fun p : unit => ret p))
        (steer_new (guard svc) [(Idle, s0)] tt).
Proof. exact steer_clone_refuted. Qed.
Print Assumptions C01_steer_clone_refuted.

(** [ConcurrencyLimit::with_semaphore] and a semaphore its owner closes: a
    debug build panics in [poll_ready], a release build reports readiness and
    panics in [call]. *)
Theorem C01_closed_semaphore_refuted :
  forall debug : bool,
  exists (W Req Resp Err : Type) (svc : Service W Req Resp Err) (closed : W -> bool) (s0 : st svc),
    never_panics svc /\
    ~ contract_safe true (conc_limit svc closed debug) (conc_new svc s0).
Proof. exact closed_semaphore_refuted. Qed.
Print Assumptions C01_closed_semaphore_refuted.

(** [Reconnect]: after a failed connection attempt it says [Ready] (the error is
    delivered by the next [call]); asked again it may say [Pending]. *)
Theorem C02_reconnect_refuted :
  exists (W Tgt Req Resp Err MErr : Type) (svc : Service W Req Resp Err)
         (mk : Service W Tgt (st svc) MErr) (target : Tgt) (m0 : st mk),
    never_panics svc /\ keeps_ready svc /\ never_panics mk /\ keeps_ready mk /\
    ~ ready_persists false (reconnect svc mk target 5) (reconnect_new svc mk m0).
Proof. exact reconnect_refuted. Qed.
Print Assumptions C02_reconnect_refuted.
