(** C64: from the layers to stacks and programs. *)
From Verif Require Import Base Util ReadyCache SpawnReady Load Make Middleware Limits Hedge MeterSpec MeterProof MeterMore MeterCache.
Set Implicit Arguments.

Lemma metered_weaken W Req Resp Err (calls : W -> nat) k k' (svc : Service W Req Resp Err) R V :
  Metered calls k svc R V -> k <= k' -> Metered calls k' svc R V.
Proof.
  intros H L. constructor; try apply H. intros s r HR. eapply mok_weaken; [apply (mt_call H r HR) | exact L |].
  intros x n Hx Ln. exists n. split; [exact Hx | lia].
Qed.

Theorem bounded_metered W Req Resp Err (calls : W -> nat) k (svc : Service W Req Resp Err) I :
  bounded calls k svc I -> metered_from calls k svc I.
Proof.
  intros HB. induction HB.
  - apply counts_metered; assumption.
  - apply service_fn_metered; assumption.
  - destruct IHHB as (R & V & HM & HI). exists R, V. split; [eapply metered_weaken; eassumption | auto].
  - destruct IHHB as (R & V & HM & HI). exists R, V. split; [apply boxed_m, HM | exact HI].
  - destruct IHHB as (R & V & HM & HI). exists R, V. split; [apply map_request_m; assumption | exact HI].
  - destruct IHHB as (R & V & HM & HI). eexists R, _. split; [apply map_response_m; eassumption | exact HI].
  - destruct IHHB as (R & V & HM & HI). eexists R, _. split; [apply map_err_m; eassumption | exact HI].
  - destruct IHHB as (R & V & HM & HI). eexists R, _. split; [apply map_result_m; eassumption | exact HI].
  - destruct IHHB as (R & V & HM & HI). eexists R, _. split; [apply then_m; eassumption | exact HI].
  - destruct IHHB as (R & V & HM & HI). eexists R, _. split; [apply and_then_m; eassumption | exact HI].
  - destruct IHHB1 as (Ra & Va & HMa & HIa). destruct IHHB2 as (Rb & Vb & HMb & HIb).
    eexists _, _. split; [apply (either_m HMa HMb) |]. intros [x|y]; cbn; auto.
  - destruct IHHB as (R & V & HM & HI). eexists _, _. split; [apply (optional_m HM) |]. intros [x|]; cbn; auto.
  - destruct IHHB as (R & V & HM & HI). eexists _, _. split; [eapply future_service_m; eassumption |]. intros [t|x]; cbn; auto.
  - destruct IHHB as (R & V & HM & HI). eexists R, _. split; [apply timeout_m; eassumption | exact HI].
  - destruct IHHB as (R & V & HM & HI). eexists _, _. split; [apply (load_shed_m HM) |]. intros s (x & Hx & ->). cbn. auto.
  - destruct IHHB as (R & V & HM & HI). eexists _, _. split; [apply filter_m; eassumption |]. intros s Hs. cbn. auto.
  - destruct IHHB as (R & V & HM & HI). eexists _, _. split; [apply async_filter_m; eassumption |]. intros s Hs. cbn. auto.
  - destruct IHHB as (R & V & HM & HI). eexists _, _. split; [eapply retry_m; eassumption |]. intros s [G1 G2]. cbn. auto.
  - destruct IHHB as (R & V & HM & HI). eexists _, _. split; [apply steer_m; eassumption |].
    intros s (q & l & -> & Hl). cbn. eapply Forall_impl; [| exact Hl]. exact HI.
  - destruct IHHB1 as (R & V & HM & HI). destruct IHHB2 as (Rm & Vm & HMm & HIm).
    eexists _, _. split; [apply (reconnect_m HM target HMm I HI); assumption |].
    intros s [(m & Hm & ->)|(x & m & Hx & Hm & ->)]; cbn; split; cbn; auto.
  - destruct IHHB as (R & V & HM & HI). eexists _, _. split; [apply rate_limit_m; eassumption |].
    intros s (x & w & w1 & Hx & E). injection E as _ <-. cbn. auto.
  - destruct IHHB as (R & V & HM & HI). eexists _, _. split; [apply (conc_m HM) |]. intros s (x & Hx & ->). cbn. auto.
  - destruct IHHB as (R & V & HM & HI).
    destruct (hedge_m HM rt clone_request can_retry mdp quantile getH setH H H0) as (V' & HH).
    eexists _, _. split; [exact HH |]. intros s (x & w & w1 & Hx & E). unfold hedge_new, bind in E.
    generalize (mt_clone HM (HI x Hx) w). destruct (clone svc x w) as [w2 [s1| |]]; try discriminate.
    injection E as _ <-. intros (_ & n & [H1 _] & _). cbn. auto.
  - destruct IHHB as (R & V & HM & HI). eexists _, _. split; [apply (shared_m HM) | exact HI].
  - destruct IHHB as (R & V & HM & HI). eexists _, _. split; [apply (into_service_m HM) | exact HI].
  - destruct IHHB as (R & V & HM & HI). eexists _, _. split; [apply (as_service_m HM) | exact HI].
  - destruct IHHB as (R & V & HM & HI). eexists _, _. split; [exact (make_balance_m svc D HM H) | exact HI].
  - destruct IHHB as (R & V & HM & HI). eexists _, _. split; [apply (constant_m HM) |]. intros s Hs. cbn. auto.
  - destruct IHHB as (R & V & HM & HI). eexists _, _. split; [apply tracked_m; eassumption | exact HI].
  - destruct IHHB as (R & V & HM & HI). eexists _, _. split; [apply (spawn_ready_m HM); eassumption |].
    intros s (x & Hx & ->). cbn. auto.
  - destruct IHHB as (R & V & HM & HI). eexists _, _. split; [apply (@balance_m _ _ _ _ _ _ _ _ keq calls k svc D R V HM sched H1 next_u64 debug load le I HI VD H H0 H2 H3) |].
    intros s (d & g & Hd & ->). cbn. split; [exact Hd | split; constructor].
Qed.

(** ** Programs *)
Section Program.
  Context {W Req Resp Err : Type} (calls : W -> nat) (k : nat) (svc : Service W Req Resp Err).
  Context (R : st svc -> Prop) (V : fut svc -> nat -> Prop) (H : Metered calls k svc R V).

  (** the futures together hold at most this much credit *)
  Inductive credits : list (option (fut svc)) -> nat -> Prop :=
  | cr_nil : credits [] 0
  | cr_none l n : credits l n -> credits (None :: l) n
  | cr_some f m l n : V f m -> credits l n -> credits (Some f :: l) (m + n).
  Lemma credits_snoc l n f m : credits l n -> V f m -> credits (l ++ [Some f]) (n + m).
  Proof.
    intros Hl Hf. induction Hl as [|l n Hl IH|g m' l n Hg Hl IH]; cbn.
    - replace m with (m + 0) by lia. constructor; [exact Hf | constructor].
    - constructor. exact IH.
    - rewrite <- Nat.add_assoc. constructor; assumption.
  Qed.
  Lemma credits_at l n j f : credits l n -> held_at l j = Some f ->
    exists m n', V f m /\ n = m + n' /\ credits (set_nth j None l) n' /\
      (forall f1 m1, V f1 m1 -> credits (set_nth j (Some f1) l) (m1 + n')).
  Proof.
    intros Hl. revert j. induction Hl as [|l n Hl IH|g m' l n Hg Hl IH]; intros j E.
    - destruct j; discriminate.
    - destruct j as [|j]; [discriminate |]. destruct (IH j E) as (m & n' & H1 & H2 & H3 & H4).
      exists m, n'. split; [exact H1 |]. split; [exact H2 |]. split; [constructor; exact H3 |]. intros f1 m1 Hf. cbn. constructor. auto.
    - destruct j as [|j].
      + injection E as <-. exists m', n. split; [exact Hg |]. split; [reflexivity |]. split; [constructor; exact Hl |].
        intros f1 m1 Hf. cbn. constructor; assumption.
      + destruct (IH j E) as (m & n' & H1 & H2 & H3 & H4). exists m, (m' + n'). split; [exact H1 |]. split; [lia |].
        split; [cbn; constructor; assumption |]. intros f1 m1 Hf. cbn. replace (m1 + (m' + n')) with (m' + (m1 + n')) by lia.
        constructor; auto.
  Qed.

  Definition Inv (y : prog svc) (b : nat) : Prop :=
    Forall (fun o => match o with Some s => R s | None => True end) (u_svcs y) /\
    exists n, credits (u_futs y) n /\ calls (u_world y) + n <= b.

  Lemma held_R l i s : Forall (fun o => match o with Some s => R s | None => True end) l -> held_at l i = Some s -> R s.
  Proof.
    intros Hl. unfold held_at. destruct (nth_error l i) as [o|] eqn:E; [| discriminate]. intros ->.
    exact (forall_nth _ Hl E).
  Qed.

  Lemma ustep_inv y b o : Inv y b -> (match o with UEnv g => same calls g | _ => True end) ->
    Inv (ustep y o) (b + k * submitted [o]).
  Proof.
    intros (Hs & n & Hc & L) Ho. destruct o as [i|i r|i|i|j|j|g]; cbn [ustep submitted].
    - destruct (held_at (u_svcs y) i) as [s|] eqn:E; [| split; [exact Hs | exists n; split; [exact Hc | lia]]].
      generalize (mt_ready H (held_R i Hs E) (u_world y)).
      destruct (poll_ready svc s (u_world y)) as [w1 [[s1 a]| |]].
      + intros (L0 & m & [H1 ->] & L1). split; [apply forall_set_nth; assumption |]. exists n. split; [exact Hc |]. cbn. lia.
      + intros L1. split; [apply forall_set_nth; [exact Hs | exact I] |]. exists n. split; [exact Hc |]. cbn. lia.
      + intros L1. split; [apply forall_set_nth; [exact Hs | exact I] |]. exists n. split; [exact Hc |]. cbn. lia.
    - destruct (held_at (u_svcs y) i) as [s|] eqn:E; [| split; [exact Hs | exists n; split; [exact Hc | lia]]].
      generalize (mt_call H r (held_R i Hs E) (u_world y)).
      destruct (call svc s r (u_world y)) as [w1 [[s1 f]| |]].
      + intros (L0 & m & [H1 H2] & L1). split; [apply forall_set_nth; assumption |]. exists (n + m).
        split; [apply credits_snoc; assumption |]. cbn. lia.
      + intros L1. split; [apply forall_set_nth; [exact Hs | exact I] |]. exists n. split; [exact Hc |]. cbn. lia.
      + intros L1. split; [apply forall_set_nth; [exact Hs | exact I] |]. exists n. split; [exact Hc |]. cbn. lia.
    - destruct (held_at (u_svcs y) i) as [s|] eqn:E; [| split; [exact Hs | exists n; split; [exact Hc | lia]]].
      generalize (mt_clone H (held_R i Hs E) (u_world y)).
      destruct (clone svc s (u_world y)) as [w1 [s1| |]].
      + intros (L0 & m & [H1 ->] & L1). split; [cbn; apply Forall_app; split; [exact Hs | constructor; [exact H1 | constructor]] |].
        exists n. split; [exact Hc |]. cbn. lia.
      + intros L1. split; [exact Hs |]. exists n. split; [exact Hc |]. cbn. lia.
      + intros L1. split; [exact Hs |]. exists n. split; [exact Hc |]. cbn. lia.
    - destruct (held_at (u_svcs y) i) as [s|] eqn:E; [| split; [exact Hs | exists n; split; [exact Hc | lia]]].
      split; [apply forall_set_nth; [exact Hs | exact I] |]. exists n. split; [exact Hc |]. cbn. rewrite (mt_drop_svc H s _). lia.
    - destruct (held_at (u_futs y) j) as [f|] eqn:E; [| split; [exact Hs | exists n; split; [exact Hc | lia]]].
      destruct (credits_at j Hc E) as (m & n' & H1 & -> & H3 & H4).
      generalize (mt_poll H H1 (u_world y)).
      destruct (poll_fut svc f (u_world y)) as [w1 [[f1 a]| |]].
      + intros (L0 & m1 & H2 & L1). split; [exact Hs |]. exists (m1 + n'). split; [apply H4, H2 |]. cbn. lia.
      + intros L1. split; [exact Hs |]. exists n'. split; [exact H3 |]. cbn. lia.
      + intros L1. split; [exact Hs |]. exists n'. split; [exact H3 |]. cbn. lia.
    - destruct (held_at (u_futs y) j) as [f|] eqn:E; [| split; [exact Hs | exists n; split; [exact Hc | lia]]].
      destruct (credits_at j Hc E) as (m & n' & H1 & -> & H3 & H4).
      split; [exact Hs |]. exists n'. split; [exact H3 |]. cbn. rewrite (mt_drop_fut H f _). lia.
    - split; [exact Hs |]. exists n. split; [exact Hc |]. cbn. rewrite (Ho (u_world y)). lia.
  Qed.

  Lemma submitted_cons o (l : list (@uop W Req)) : submitted (o :: l) = submitted [o] + submitted l.
  Proof. destruct o; reflexivity. Qed.

  Lemma urun_inv l : forall y b, Inv y b -> env_same calls l -> Inv (urun y l) (b + k * submitted l).
  Proof.
    induction l as [|o l IH]; intros y b HI He.
    - cbn. replace (b + k * 0) with b by lia. exact HI.
    - inversion He as [|? ? H1 H2]; subst. rewrite submitted_cons.
      replace (b + k * (submitted [o] + submitted l)) with (b + k * submitted [o] + k * submitted l) by lia.
      change (urun y (o :: l)) with (urun (ustep y o) l). apply IH; [apply ustep_inv; assumption | exact H2].
  Qed.
End Program.

Theorem bounded_run W Req Resp Err (calls : W -> nat) k (svc : Service W Req Resp Err) I :
  bounded calls k svc I -> forall w insts ops, Forall I insts -> env_same calls ops ->
  calls (u_world (urun (ustart svc w insts) ops)) <= calls w + k * submitted ops.
Proof.
  intros HB w insts ops Hi He. destruct (bounded_metered HB) as (R & V & HM & HI).
  assert (H0 : Inv calls R V (ustart svc w insts) (calls w)).
  { split; cbn; [| exists 0; split; [constructor | lia]].
    rewrite Forall_forall in *. intros o Ho. apply in_map_iff in Ho. destruct Ho as (s & <- & Hs). auto. }
  destruct (urun_inv HM H0 He) as (_ & n & _ & L). lia.
Qed.
