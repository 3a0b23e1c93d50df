(** Every stack is contract-safe. *)
From Verif Require Import Base ContractSpec StackSpec Safe Util ReadyCache SpawnReady Load Make Middleware Limits Hedge
  SafeUtil SafeMore SafeCache SafeRest BufSvcProof DocCode SafeDoc.
Set Implicit Arguments.

(** [safe_from] for a set of fresh instances. *)
Definition safe_all (c : caps) W Req Resp Err (svc : Service W Req Resp Err) (I : st svc -> Prop) :=
  exists R Rdy V, Safe c svc R Rdy V /\ forall s, I s -> R s.

(** A supervisor on top of something safe is safe. *)
Lemma guard_on_safe c W Req Resp Err (svc : Service W Req Resp Err) R Rdy V :
  Safe c svc R Rdy V ->
  Safe c (guard svc)
    (fun s => match fst s with Idle => R (snd s) | Primed => Rdy (snd s) | Dead => False end)
    (fun s => fst s = Primed /\ Rdy (snd s))
    (fun f => fst f = false /\ V (snd f)).
Proof.
  intros HS. split; cbn.
  - intros [p s] [H1 H2]. cbn in *. subst. auto.
  - intros [p s] H. cbn in *.
    assert (HR : R s) by (destruct p; [auto | apply HS; auto | contradiction]).
    destruct p; try contradiction;
    (eapply okm_bind; [apply (sf_ready HS); eauto|]); intros [s1 a] Ha; apply okm_ret; cbn in *;
    destruct a as [|[u|e]]; cbn; auto.
  - intros K [p s] [H1 H2]. cbn in *. subst.
    eapply okm_bind; [apply (sf_stk HS K); eauto|]. intros [s1 a] Ha. apply okm_ret. auto.
  - intros [p s] r [H1 H2]. cbn in *. subst.
    eapply okm_bind; [apply (sf_call HS); eauto|]. intros [s1 f] [A B]. apply okm_ret. cbn. auto.
  - intros [b f] [H1 H2]. cbn in *. subst.
    eapply okm_bind; [apply (sf_poll HS); eauto|]. intros [f1 a] Ha. apply okm_ret. cbn in *.
    intros ->. auto.
  - intros K [p s] H. cbn in *.
    assert (HR : R s) by (destruct p; [auto | apply HS; auto | contradiction]).
    destruct p; try contradiction;
    (eapply okm_bind; [apply (sf_clone HS K); eauto|]); intros s1 Hs1; apply okm_ret; auto.
Qed.

(** The canonical predicates. *)
Lemma safe_canon c W Req Resp Err (svc : Service W Req Resp Err) I :
  safe_all c svc I ->
  Safe c svc
    (fun s => exists s0, I s0 /\ (held (c_cl c) svc s0 Idle s \/ held (c_cl c) svc s0 Primed s))
    (fun s => exists s0, I s0 /\ held (c_cl c) svc s0 Primed s)
    (fun f => exists s0, I s0 /\ in_flight (c_cl c) svc s0 f).
Proof.
  intros (R & Rdy & V & HS & HI).
  assert (HR : forall s0 s, I s0 -> held (c_cl c) svc s0 Idle s -> R s)
    by (intros s0 s H0 Hh; apply (held_inv HS (HI _ H0) Hh)).
  assert (HRd : forall s0 s, I s0 -> held (c_cl c) svc s0 Primed s -> Rdy s)
    by (intros s0 s H0 Hh; apply (held_inv HS (HI _ H0) Hh)).
  assert (HRR : forall s0 s, I s0 ->
    (held (c_cl c) svc s0 Idle s \/ held (c_cl c) svc s0 Primed s) -> R s).
  { intros s0 s H0 [K|K]; [eauto | apply HS; eauto]. }
  split; cbn.
  - intros s (s0 & H0 & K). eauto.
  - intros s (s0 & H0 & K) w.
    pose proof (sf_ready HS _ (HRR _ _ H0 K) w) as Hw.
    destruct (poll_ready svc s w) as [w1 [[s1 a]| |]] eqn:E; cbn in *; auto.
    assert (Hp : held (c_cl c) svc s0 (phase_after a) s1).
    { destruct K as [K|K]; (eapply held_ready; [exact K | discriminate | exact E]). }
    destruct a as [|[u|e]]; cbn in *; eauto 6.
  - intros Hk s (s0 & H0 & K). apply (sf_stk HS Hk). eauto.
  - intros s r (s0 & H0 & K) w.
    pose proof (sf_call HS s r (HRd _ _ H0 K) w) as Hw.
    destruct (call svc s r w) as [w1 [[s1 f]| |]] eqn:E; cbn in *; auto.
    split; exists s0; split; auto.
    + left. eapply held_call; eauto.
    + eapply in_flight_call; eauto.
  - intros f (s0 & H0 & K) w.
    pose proof (sf_poll HS f (in_flight_inv HS (HI _ H0) K) w) as Hw.
    destruct (poll_fut svc f w) as [w1 [[f1 a]| |]] eqn:E; cbn in *; auto.
    intros ->. exists s0; split; auto. eapply in_flight_poll; eauto.
  - intros Hc s (s0 & H0 & K) w.
    pose proof (sf_clone HS Hc s (HRR _ _ H0 K) w) as Hw.
    destruct (clone svc s w) as [w1 [s1| |]] eqn:E; cbn in *; auto.
    exists s0; split; auto. left.
    destruct K as [K|K]; (eapply held_clone; [exact Hc | exact K | discriminate | exact E]).
Qed.

Lemma gives_and W A (m : M W A) P (Q : A -> Prop) :
  gives m P -> (forall w w1 a, m w = (w1, Val a) -> Q a) -> gives m (fun a => P a /\ Q a).
Proof.
  intros H1 H2 w. specialize (H1 w). specialize (H2 w). destruct (m w) as [w1 [a| |]]; cbn in *; eauto.
Qed.
Lemma gives_mono W A (m : M W A) (P Q : A -> Prop) :
  gives m P -> (forall a, P a -> Q a) -> gives m Q.
Proof. intros H1 H2 w. specialize (H1 w). destruct (snd (m w)); auto. Qed.

Lemma stack_safe c W Req Resp Err (svc : Service W Req Resp Err) I :
  stack c svc I -> safe_all c svc I.
Proof.
  induction 1.
  - (* base *)
    pose proof (@guard_safe _ _ _ _ svc dv stk H H0 H1) as G.
    unfold safe_from in G.
    (* the predicates of guard_safe do not depend on the instance; recover them *)
    exists (fun s => exists s0, held true (guard svc) (Idle, s0) Idle s \/ held true (guard svc) (Idle, s0) Primed s).
    exists (fun s => exists s0, held true (guard svc) (Idle, s0) Primed s).
    exists (fun f => exists s0, in_flight true (guard svc) (Idle, s0) f).
    split.
    2:{ intros [p s] Hp. cbn in Hp. subst. exists s. left. constructor. }
    assert (K : forall s0, Safe (Caps dv stk true) (guard svc)
       (fun s => exists s', s' = (Idle, s0) /\ (held true (guard svc) s' Idle s \/ held true (guard svc) s' Primed s))
       (fun s => exists s', s' = (Idle, s0) /\ held true (guard svc) s' Primed s)
       (fun f => exists s', s' = (Idle, s0) /\ in_flight true (guard svc) s' f)).
    { intros s0. apply (@safe_canon (Caps dv stk true) _ _ _ _ (guard svc) (fun s => s = (Idle, s0))).
      destruct (G s0) as (R & Rdy & V & HS & H2). exists R, Rdy, V. split; auto. intros ? ->. auto. }
    split.
    + intros s [s0 Hs]. eauto.
    + intros s [s0 Hs]. eapply okm_mono; [apply (sf_ready (K s0)); eauto|].
      intros [s1 [|[u|e]]]; cbn; auto; intros (s' & -> & Q); eauto.
    + intros Hk s [s0 Hs]. apply (sf_stk (K s0) Hk). eauto.
    + intros s r [s0 Hs]. eapply okm_mono; [apply (sf_call (K s0)); eauto|].
      intros [s1 f]; cbn. intros [(s' & -> & Q) (s'' & -> & Q')]; eauto.
    + intros f [s0 Hs]. eapply okm_mono; [apply (sf_poll (K s0)); eauto|].
      intros [f1 a]; cbn. intros Q Ha. destruct (Q Ha) as (s' & -> & Q'). eauto.
    + intros Hc s [s0 Hs]. eapply okm_mono; [apply (sf_clone (K s0) Hc); eauto|].
      intros s1 (s' & -> & Q'). eauto.
  - eexists _, _, _. split; [eapply service_fn_safe; eauto|]. auto.
  - destruct IHstack as (R & Rdy & V & HS & HI).
    eexists _, _, _. split; [eapply guard_on_safe; eauto|].
    intros [p s] [Hp Hs]. cbn in *. subst. auto.
  - destruct IHstack as (R & Rdy & V & HS & HI). exists R, Rdy, V. split; eauto using safe_weaken.
  - destruct IHstack as (R & Rdy & V & HS & HI). exists R, Rdy, V. split; auto using boxed_safe.
  - destruct IHstack as (R & Rdy & V & HS & HI). eexists _, _, _. split; [eapply map_request_safe; eauto | auto].
  - destruct IHstack as (R & Rdy & V & HS & HI). eexists _, _, _. split; [eapply map_response_safe; eauto | auto].
  - destruct IHstack as (R & Rdy & V & HS & HI). eexists _, _, _. split; [eapply map_err_safe; eauto | auto].
  - destruct IHstack as (R & Rdy & V & HS & HI). eexists _, _, _. split; [eapply map_result_safe; eauto | auto].
  - (* map_future *)
    pose proof (safe_canon IHstack) as HS. eexists _, _, _.
    split; [eapply map_future_safe; [exact HS | eauto | ]|].
    + intros x (s0 & H2 & H3). eauto.
    + cbn. intros s Hs. exists s. split; auto. left. constructor.
  - destruct IHstack as (R & Rdy & V & HS & HI). eexists _, _, _. split; [eapply then_safe; eauto | auto].
  - destruct IHstack as (R & Rdy & V & HS & HI). eexists _, _, _. split; [eapply and_then_safe; eauto | auto].
  - destruct IHstack1 as (R & Rdy & V & HS & HI). destruct IHstack2 as (R' & Rdy' & V' & HS' & HI').
    eexists _, _, _. split; [eapply either_safe; eauto|]. intros [x|x]; cbn; auto.
  - destruct IHstack as (R & Rdy & V & HS & HI). eexists _, _, _. split; [eapply optional_safe; eauto |].
    intros [x|]; cbn; auto.
  - (* future_service *)
    destruct IHstack as (R & Rdy & V & HS & HI). eexists _, _, _. split.
    { eapply future_service_safe; [exact HS | | exact H2].
      intros t Ht.
      eapply gives_mono; [apply (@gives_and _ _ _ _ (fun x => forall s, snd x = Ready (Ok s) -> I s)
         (H0 t Ht))|].
      - intros w w1 [t1 p] E s. cbn. intros ->. eauto.
      - intros [t1 [|[s|e]]] [A B]; cbn in *; auto. }
    intros [x|x]; cbn; auto.
  - destruct IHstack as (R & Rdy & V & HS & HI). eexists _, _, _. split; [eapply timeout_safe; eauto | auto].
  - destruct IHstack as (R & Rdy & V & HS & HI). eexists _, _, _. split; [eapply load_shed_safe; eauto |].
    intros s (x & Hx & ->). cbn. split; auto. discriminate.
  - destruct IHstack as (R & Rdy & V & HS & HI). eexists _, _, _. split; [eapply filter_safe; eauto | cbn; auto].
  - destruct IHstack as (R & Rdy & V & HS & HI). eexists _, _, _.
    split; [eapply async_filter_safe; eauto | cbn; auto].
  - destruct IHstack as (R & Rdy & V & HS & HI). eexists _, _, _.
    split; [eapply retry_safe; eauto | cbn; auto].
  - (* steer *)
    destruct IHstack as (R & Rdy & V & HS & HI). eexists _, _, _.
    split; [eapply steer_safe; eauto |]. intros s (q & l & -> & Hl & HF). cbn. split.
    + split; cbn.
      * intros i x Hx. split.
        -- rewrite Forall_forall in HF. apply HI, HF. eapply nth_error_In; eauto.
        -- intros K. exfalso. apply K. apply in_seq. split; [lia|].
           apply nth_error_Some. congruence.
      * apply Forall_forall. intros i Hi. apply in_seq in Hi. lia.
    + destruct l; cbn; [congruence | lia].
  - (* reconnect *)
    destruct IHstack1 as (R & Rdy & V & HS & HI). destruct IHstack2 as (R' & Rdy' & V' & HS' & HI').
    eexists _, _, _. split.
    { eapply reconnect_safe; [exact HS | exact HS' |].
      intros f Hf w. pose proof (sf_poll HS' f Hf w) as Hw.
      destruct (poll_fut mk f w) as [w1 [[f1 [|[s|e]]]| |]] eqn:E; cbn in *; auto.
      eauto. }
    intros s [(m & Hm & ->)|(x & m & Hx & Hm & ->)]; cbn; auto.
  - destruct IHstack as (R & Rdy & V & HS & HI). eexists _, _, _.
    split; [eapply rate_limit_safe; eauto |]. intros s (x & w & w1 & Hx & E). cbn in *.
    injection E as <- <-. cbn. auto.
  - destruct IHstack as (R & Rdy & V & HS & HI). eexists _, _, _.
    split; [eapply conc_limit_safe; eauto |]. intros s (x & Hx & ->). cbn in *. auto.
  - destruct IHstack as (R & Rdy & V & HS & HI).
    destruct (@hedge_safe _ _ _ _ _ rt _ _ _ _ HS clone_request can_retry mdp quantile getH setH H1 H0)
      as (R' & Rdy' & V' & HS' & HI').
    exists R', Rdy', V'. split; [exact HS'|].
    intros s (x & w & w1 & Hx & E). unfold hedge_new in E.
    unfold bind in E. pose proof (sf_clone HS H0 x (HI _ Hx) w) as Hc.
    destruct (clone svc x w) as [w2 [s1| |]]; cbn in *; try discriminate.
    injection E as <- <-. auto.
  - destruct IHstack as (R & Rdy & V & HS & HI). eexists _, _, _. split; [eapply shared_safe; eauto | auto].
  - destruct IHstack as (R & Rdy & V & HS & HI). exists R, Rdy, V. split; auto using into_service_safe.
  - destruct IHstack as (R & Rdy & V & HS & HI). exists R, Rdy, V. split; auto using as_service_safe.
  - destruct IHstack as (R & Rdy & V & HS & HI). exists R, Rdy, V. split; auto using make_balance_safe.
  - destruct IHstack as (R & Rdy & V & HS & HI). eexists _, _, _. split; [eapply constant_safe; eauto | cbn; auto].
  - destruct IHstack as (R & Rdy & V & HS & HI). eexists _, _, _. split; [eapply tracked_load_safe; eauto | cbn; auto].
  - destruct IHstack as (R & Rdy & V & HS & HI). eexists _, _, _. split; [eapply take_safe; eauto | auto].
  - destruct IHstack as (R & Rdy & V & HS & HI). eexists _, _, _. split; [eapply log_safe; eauto | auto].
  - destruct IHstack as (R & Rdy & V & HS & HI). eexists _, _, _. split; [eapply doc_safe; eauto | auto].
  - destruct IHstack as (R & Rdy & V & HS & HI). eexists _, _, _. split; [eapply guide_safe; eauto | auto].
  - destruct IHstack as (R & Rdy & V & HS & HI). eexists _, _, _. split; [eapply spawn_ready_safe; eauto |].
    intros s (x & Hx & ->). cbn. auto.
  - (* buffer *)
    destruct IHstack as (R & Rdy & V & HS & HI).
    assert (HF : safe_from c svc s0) by (exists R, Rdy, V; auto).
    eexists _, _, _. split; [apply buffer_safe; [exact (safe_contract HF) | intros D; exact (safe_returns HF D)] | cbn; auto].
  - (* balance *)
    destruct IHstack as (R & Rdy & V & HS & HI). eexists _, _, _. split.
    { eapply balance_safe with (VD := VD); [exact HS | exact H0 | | exact H2 | exact H3].
      intros d Hd. eapply gives_mono; [apply H1, Hd|]. intros [d1 [|[[[k s|k]|e]|]]]; cbn [fst snd]; intuition. }
    intros s (d & g & Hd & ->). split; [exact Hd | apply CS_new].
Qed.

Section Conclusions.
  Context (c : caps) {W Req Resp Err : Type} (svc : Service W Req Resp Err) (I : st svc -> Prop).
  Hypothesis HK : stack c svc I.

  Lemma stack_safe_from s0 : I s0 -> safe_from c svc s0.
  Proof. intros H. destruct (stack_safe HK) as (R & Rdy & V & HS & HI). exists R, Rdy, V. auto. Qed.

  Theorem stack_contract s0 : I s0 -> contract_safe (c_cl c) svc s0.
  Proof. intros H. apply safe_contract, stack_safe_from, H. Qed.
  Theorem behind_stack s0 : I s0 -> forall bound w ops,
    BufSvcSpec.no_panic (snd (Buffer.brun (Buffer.bsys0 svc bound s0 w) [] ops)).
  Proof. intros H. exact (behind_calm (stack_contract H)). Qed.
  Theorem stack_persists s0 : I s0 -> c_stk c = true -> ready_persists (c_cl c) svc s0.
  Proof. intros H. apply safe_persists, stack_safe_from, H. Qed.
  Theorem stack_returns s0 : I s0 -> c_div c = false -> always_returns (c_cl c) svc s0.
  Proof. intros H. apply safe_returns, stack_safe_from, H. Qed.
End Conclusions.
