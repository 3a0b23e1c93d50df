(** Contract safety (for StackProof.v) of Constant, PendingRequests, PeakEwma, SpawnReady, Shared, the MakeService
    adapters and MakeBalance. *)
From Verif Require Import Base ContractSpec StackSpec Safe Util Middleware ReadyCache SpawnReady Load Make SafeUtil SafeMore.
Set Implicit Arguments.

Section Rest.
  Context {W Req Resp Err : Type} (c : caps) (svc : Service W Req Resp Err).
  Context (R Rdy : st svc -> Prop) (V : fut svc -> Prop).
  Hypothesis HS : Safe c svc R Rdy V.

  Lemma into_service_safe : Safe c (into_service svc) R Rdy V.
  Proof. destruct HS; split; auto. Qed.
  Lemma as_service_safe : Safe (Caps (c_div c) (c_stk c) false) (as_service svc) R Rdy V.
  Proof. destruct HS; split; auto. discriminate. Qed.

  Lemma constant_safe M' :
    Safe (Caps (c_div c) (c_stk c) false) (constant (M' := M') svc)
      (fun s => R (fst s)) (fun s => Rdy (fst s)) V.
  Proof.
    split; cbn [c_div c_stk c_cl].
    - intros s. apply HS.
    - intros s Hs. cbn [poll_ready constant]. eapply okm_bind; [apply (sf_ready HS); exact Hs|].
      intros [s1 a] Ha. apply okm_ret. exact Ha.
    - intros K s Hs. cbn [poll_ready constant]. eapply okm_bind; [apply (sf_stk HS K); exact Hs|].
      intros [s1 a] Ha. apply okm_ret. exact Ha.
    - intros s r Hs. cbn [call constant]. eapply okm_bind; [apply (sf_call HS); exact Hs|].
      intros [s1 f] Ha. apply okm_ret. exact Ha.
    - intros f Hf. apply (sf_poll HS f Hf).
    - discriminate.
  Qed.

  Lemma shared_safe Tgt : c_cl c = true ->
    Safe (Caps (c_div c) true true) (shared (Tgt := Tgt) svc) R R (Popt R False).
  Proof.
    intros Hc. split; cbn [c_div c_stk c_cl].
    - auto.
    - intros s Hs. apply okm_ret. exact Hs.
    - intros _ s Hs. apply okm_ret. discriminate.
    - intros s r Hs. cbn [call shared]. eapply okm_bind; [apply (sf_clone HS Hc); exact Hs|].
      intros s1 H1. apply okm_ret. split; assumption.
    - intros [f|] Hf; [|contradiction]. apply okm_ret. discriminate.
    - intros _ s Hs. apply (sf_clone HS Hc s Hs).
  Qed.

  (** PendingRequests, PeakEwma *)
  Section Tracked.
    Context {C T : Type} (start : M W T) (finish : T -> C -> W -> C * W) (keep : Resp -> W -> W * bool).
    Hypothesis Hstart : quiet start.
    Lemma lift_w_ok A dv (m : M W A) Q : okm dv m Q -> okm (W := arc (C := C) * W) dv (lift_w m) Q.
    Proof. intros H [n w]. unfold lift_w. specialize (H w). cbn [fst snd]. destruct (m w). exact H. Qed.

    Lemma tracked_load_safe :
      Safe (Caps (c_div c) (c_stk c) false) (tracked_load svc start finish keep) R Rdy
        (fun f => V (tc_inner f) /\ tc_handle f <> None).
    Proof.
      split; cbn [c_div c_stk c_cl].
      - apply HS.
      - intros s Hs. apply lift_w_ok, (sf_ready HS _ Hs).
      - intros K s Hs. apply lift_w_ok, (sf_stk HS K _ Hs).
      - intros s r Hs. cbn [call tracked_load]. unfold tl_call, new_handle.
        eapply okm_bind with (P := fun _ => True).
        + eapply okm_bind; [apply lift_w_ok, okm_quiet, Hstart|]. intros t _. okm_step idtac. apply okm_ret. exact I.
        + intros t _ x. cbv beta. generalize (sf_call HS s r Hs (snd x)).
          destruct (call svc s r (snd x)) as [w1 [[s1 f]| |]]; cbn; auto.
          intros [A B]. repeat split; auto. discriminate.
      - intros f [Hf Hh]. cbn [poll_fut tracked_load]. unfold tc_poll.
        eapply okm_bind; [apply lift_w_ok, (sf_poll HS _ Hf)|]. intros [i [|[v|e]]]; cbn [fst snd]; intros Hi.
        + apply okm_ret. intros _. split; [apply Hi; reflexivity|exact Hh].
        + destruct (tc_handle f) as [t|]; [|congruence].
          eapply okm_bind with (P := fun _ => True).
          { apply lift_w_ok. intros w. cbv beta. destruct (keep v w). exact I. }
          intros k _. destruct k; [apply okm_ret; discriminate|]. okm_step idtac. apply okm_ret. discriminate.
        + apply okm_ret. discriminate.
      - discriminate.
    Qed.
  End Tracked.

  (** SpawnReady *)
  Section Spawn.
    Context (bg : W -> W * nat).
    Definition Rtask (t : rtask svc) : Prop :=
      match t with TRun s => R s | TDone (Ok s) => Rdy s | TDone (Er _) => True | TLost | TTaken => False end.
    Definition Rsr (s : sr_st svc) : Prop := match s with SrSvc x => R x | SrFut t => Rtask t end.
    Definition Rdysr (s : sr_st svc) : Prop := match s with SrSvc x => Rdy x | SrFut _ => False end.

    Lemma task_poll_safe t : Rtask t -> okm true (task_poll t) Rtask.
    Proof.
      intros Ht w. unfold task_poll. destruct t as [s|r| |]; [|exact Ht|exact Ht|exact Ht].
      generalize (sf_ready HS s Ht w). destruct (poll_ready svc s w) as [w1 [[s1 [|[u|e]]]| |]]; cbn; auto.
    Qed.
    Lemma task_polls_safe n : forall t, Rtask t -> okm true (task_polls n t) Rtask.
    Proof.
      induction n as [|n IH]; intros t Ht; cbn [task_polls]; [apply okm_ret; exact Ht|].
      eapply okm_bind; [apply task_poll_safe, Ht|]. intros t1 H1. apply IH, H1.
    Qed.
    Lemma sr_ready_safe n : forall s, Rsr s ->
      okm true (sr_ready bg n s)
        (fun x => match snd x with Pending => Rsr (fst x) | Ready (Ok _) => Rdysr (fst x) | Ready (Er _) => True end).
    Proof.
      induction n as [|n IH]; intros s Hs; cbn [sr_ready]; [apply okm_diverge; reflexivity|].
      destruct s as [x|t].
      - eapply okm_bind; [eapply okm_weaken; [|apply (sf_ready HS _ Hs)]; auto|].
        intros [x1 [|[u|e]]]; cbn [fst snd]; intros Hx; [apply IH; exact Hx|apply okm_ret; exact Hx|apply okm_ret; exact I].
      - eapply okm_bind with (P := fun _ => True).
        { intros w. cbv beta. destruct (bg w). exact I. }
        intros k _. eapply okm_bind; [apply task_polls_safe; exact Hs|].
        intros [x|[x|e]| |] Hx; try contradiction.
        + apply okm_ret. exact Hx.
        + apply IH. apply (sf_sub HS). exact Hx.
        + apply okm_ret. exact I.
    Qed.

    Lemma spawn_ready_safe fuel :
      Safe (Caps true (c_stk c) false) (spawn_ready svc bg fuel) Rsr Rdysr (Vopt svc V).
    Proof.
      split; cbn [c_div c_stk c_cl].
      - intros [x|t] H; [apply (sf_sub HS); exact H|contradiction].
      - apply sr_ready_safe.
      - intros K [x|t] H; [|contradiction]. cbn [poll_ready spawn_ready]. destruct fuel as [|n]; cbn [sr_ready]; [apply okm_diverge; reflexivity|].
        eapply okm_bind; [eapply okm_weaken; [|apply (sf_stk HS K _ H)]; auto|].
        intros [x1 [|r]]; cbn [snd]; intros Hx; [congruence|apply okm_ret; discriminate].
      - intros [x|t] r H; [|contradiction]. cbn [call spawn_ready sr_call].
        eapply okm_bind with (P := fun x => Rsr (fst x) /\ V (snd x)).
        { eapply okm_bind; [eapply okm_weaken; [|apply (sf_call HS _ r H)]; auto|].
          intros [x1 f] Hx. apply okm_ret. exact Hx. }
        intros [s1 f] Hx. apply okm_ret. exact Hx.
      - intros f Hf.
        assert (Hq : forall r : result Resp Err, quiet (W := W) (ret (map_er SrInner r))) by (intros r w1; exact I).
        eapply okm_weaken; [|apply (map_poll_safe HS _ f Hq Hf)]. auto.
      - discriminate.
    Qed.
  End Spawn.
End Rest.

Section MakeBal.
  Context {W K Req Resp Err DErr G Tgt MErr : Type} (svc : Service W Req Resp Err).
  Context (D : Discover W K (st svc) DErr) (mk : Service W Tgt (dst D) MErr) (g0 : M W G).
  Context (c : caps) (R Rdy : st mk -> Prop) (V : fut mk -> Prop).
  Hypothesis HS : Safe c mk R Rdy V.
  Hypothesis Hg : quiet g0.
  Lemma make_balance_safe : Safe c (make_balance svc D mk g0) R Rdy V.
  Proof.
    destruct HS; split; auto. intros f Hf. cbn [poll_fut make_balance].
    eapply okm_bind; [apply sf_poll, Hf|]. intros [f1 [|[d|e]]]; cbn [fst snd]; intros Hi.
    - apply okm_ret. intros _; apply Hi; reflexivity.
    - eapply okm_bind; [apply okm_quiet, Hg|]. intros g _. apply okm_ret. discriminate.
    - apply okm_ret. discriminate.
  Qed.
End MakeBal.
