(** Proofs for C77. *)
From Verif Require Import Base Limits RateSpec RateClock.
Set Implicit Arguments.

Section RateClockProof.
  Context {W Req Resp Err : Type} (rt : Rt W) (rate : rate) (svc : Service W Req Resp Err) (top : Z).
  Notation rlc := (rate_limit_clock rt rate svc top).
  Notation rl := (rate_limit rt rate svc).

  Lemma clock_same_ready (s : rate_limit_st svc) w : (now rt w + r_per rate <= top)%Z ->
    poll_ready rlc s w = poll_ready rl s w.
  Proof.
    intros H. cbn [poll_ready rate_limit_clock rate_limit]. destruct (rl_st s) as [|until rem]; [|reflexivity].
    unfold sleep_poll, bind, get, modify, ret, next_window, get, bind, ret. destruct (fired rt w (rl_sleep s)); [|reflexivity].
    rewrite now_nap. replace (now rt w + r_per rate <=? top)%Z with true by (symmetry; apply Z.leb_le; exact H). reflexivity.
  Qed.
  Lemma clock_same_call (s : rate_limit_st svc) q w : (now rt w + r_per rate <= top)%Z ->
    call rlc s q w = call rl s q w.
  Proof.
    intros H. cbn [call rate_limit_clock rate_limit]. destruct (rl_st s) as [|until rem]; [reflexivity|].
    unfold bind, get, next_window, get, bind, ret.
    destruct (until <=? now rt w)%Z.
    - replace (now rt w + r_per rate <=? top)%Z with true by (symmetry; apply Z.leb_le; exact H). reflexivity.
    - reflexivity.
  Qed.

  Lemma clock_same (s : rate_limit_st svc) w : (now rt w + r_per rate <= top)%Z ->
    poll_ready rlc s w = poll_ready rl s w /\ forall q, call rlc s q w = call rl s q w.
  Proof. intros H. split; [apply clock_same_ready, H | intros q; apply clock_same_call, H]. Qed.

  Lemma clock_same_else (s : rate_limit_st svc) (f : fut svc) w :
    poll_fut rlc f w = poll_fut rl f w /\ clone rlc s w = clone rl s w /\ drop_svc rlc s w = drop_svc rl s w /\ drop_fut rlc f w = drop_fut rl f w.
  Proof. repeat split. Qed.

  Lemma clock_ready_panics (s : rate_limit_st svc) w :
    snd (poll_ready rlc s w) = Panic <->
    match rl_st s with
    | RlReady _ _ => snd (poll_ready svc (rl_inner s) w) = Panic
    | RlLimited => fired rt w (rl_sleep s) = true /\
        ((top < now rt w + r_per rate)%Z \/ snd (poll_ready svc (rl_inner s) (nap rt (rl_sleep s) w)) = Panic)
    end.
  Proof.
    cbn [poll_ready rate_limit_clock]. destruct (rl_st s) as [|until rem].
    - unfold sleep_poll, next_window, bind, get, modify, ret, panic. destruct (fired rt w (rl_sleep s)); [|cbn; split; [discriminate|intros [H _]; discriminate]].
      rewrite now_nap. destruct (now rt w + r_per rate <=? top)%Z eqn:E; cbn [snd].
      + apply Z.leb_le in E. destruct (poll_ready svc (rl_inner s) (nap rt (rl_sleep s) w)) as [w1 [[s1 a]| |]]; cbn;
          split; try discriminate; auto; intros [_ [K|K]]; try lia; discriminate.
      + apply Z.leb_gt in E. split; auto.
    - unfold bind, ret. destruct (poll_ready svc (rl_inner s) w) as [w1 [[s1 a]| |]]; cbn; split; auto; discriminate.
  Qed.
  Lemma clock_call_panics (s : rate_limit_st svc) q w :
    snd (call rlc s q w) = Panic <->
    match rl_st s with
    | RlReady until _ => (until <= now rt w /\ top < now rt w + r_per rate)%Z \/ snd (call svc (rl_inner s) q w) = Panic
    | RlLimited => True
    end.
  Proof.
    cbn [call rate_limit_clock]. destruct (rl_st s) as [|until rem]; [cbn; tauto|].
    unfold next_window, bind, get, ret, panic.
    destruct (until <=? now rt w)%Z eqn:Eu.
    - apply Z.leb_le in Eu. destruct (now rt w + r_per rate <=? top)%Z eqn:E; cbn [snd].
      + apply Z.leb_le in E. destruct (1 <? r_num rate)%N; destruct (call svc (rl_inner s) q w) as [w1 [[s1 a]| |]]; cbn;
          split; try discriminate; auto; intros [K|K]; try lia; discriminate.
      + apply Z.leb_gt in E. split; auto.
    - apply Z.leb_gt in Eu. destruct (1 <? rem)%N; destruct (call svc (rl_inner s) q w) as [w1 [[s1 a]| |]]; cbn;
          split; try discriminate; auto; intros [K|K]; try lia; discriminate.
  Qed.

  (** A period that does not fit, from the beginning. *)
  Lemma clock_too_long (s0 : st svc) w0 w s ops : time_flows rt svc -> Forall (fun o => forward rt (fst o)) ops ->
    (top < now rt w0 + r_per rate)%Z ->
    rate_limit_new rt rate svc s0 w0 = (w, Val s) ->
    Forall (fun e => match snd (fst e) with ObsCall _ _ => False | _ => True end) (run_svc rlc Idle s w ops).
  Proof.
    intros [Ht1 Ht2] Hops Htop E. unfold rate_limit_new, bind, get, ret in E. injection E as <- <-.
    assert (G : forall ops (p : phase) (s : rate_limit_st svc) w, Forall (fun o => forward rt (fst o)) ops ->
       (now rt w0 <= now rt w)%Z -> rl_st s = RlReady (now rt w0) (r_num rate) ->
       Forall (fun e => match snd (fst e) with ObsCall _ _ => False | _ => True end) (run_svc rlc p s w ops)).
    { clear Hops ops. induction ops as [|[g o] ops IH]; intros p s w Ho Hw Hs; [constructor|].
      inversion Ho as [|? ? Hg Ho']; subst. cbn [fst] in Hg. specialize (Hg w).
      destruct o as [|q]; [destruct p|destruct p]; cbn [run_svc];
        try (constructor; [exact I|apply IH; auto; lia]).
      1,2: cbn [poll_ready rate_limit_clock]; rewrite Hs; unfold bind, ret;
        pose proof (Ht1 (rl_inner s) (g w)) as Hk;
        destruct (poll_ready svc (rl_inner s) (g w)) as [w1 [[s1 a]| |]]; cbn [fst snd] in *;
        (constructor; [exact I|]); try constructor; apply IH; auto; lia.
      cbn [call rate_limit_clock]. rewrite Hs. unfold next_window, bind, get, ret, panic.
      replace (now rt w0 <=? now rt (g w))%Z with true by (symmetry; apply Z.leb_le; lia).
      replace (now rt (g w) + r_per rate <=? top)%Z with false by (symmetry; apply Z.leb_gt; lia).
      constructor; [exact I|constructor]. }
    apply G; auto. lia.
  Qed.
End RateClockProof.
