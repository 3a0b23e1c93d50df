(** C65: from the layers to stacks and programs. *)
From Verif Require Import Base Util ReadyCache SpawnReady Load Make Middleware Limits Hedge MeterSpec MeterProof MeterMore FlightSpec FlightProof.
Set Implicit Arguments.
Local Open Scope Z_scope.

Theorem direct_owning W Req Resp Err (live : W -> Z) k (svc : Service W Req Resp Err) :
  direct live k svc -> exists own, Owning live k svc own.
Proof.
  intros HB. induction HB; try (destruct IHHB as (own & HO)).
  - eexists. apply flies_owning. assumption.
  - eexists. apply service_fn_o; assumption.
  - eexists. apply apart_o. assumption.
  - eexists. eapply weaken_o; eassumption.
  - eexists. apply boxed_o; eassumption.
  - eexists. apply map_request_o; eassumption.
  - eexists. apply map_response_o; eassumption.
  - eexists. apply map_err_o; eassumption.
  - eexists. apply map_result_o; eassumption.
  - eexists. apply then_o; eassumption.
  - eexists. apply and_then_o; eassumption.
  - destruct IHHB1 as (oa & Ha), IHHB2 as (ob & Hb). eexists. apply either_o; eassumption.
  - eexists. apply optional_o; eassumption.
  - eexists. apply future_service_o; eassumption.
  - eexists. apply timeout_o; eassumption.
  - eexists. apply load_shed_o; eassumption.
  - eexists. apply filter_o; eassumption.
  - eexists. apply async_filter_o; eassumption.
  - eexists. apply retry_o; eassumption.
  - eexists. apply steer_o; eassumption.
  - eexists. apply reconnect_o; eassumption.
  - eexists. apply rate_limit_o; eassumption.
  - eexists. apply conc_o; eassumption.
  - eapply hedge_o; eassumption.
  - eexists. apply shared_o with (1 := HO).
  - eexists. apply into_service_o; eassumption.
  - eexists. apply as_service_o; eassumption.
  - eexists. apply make_balance_o; eassumption.
  - eexists. apply constant_o; eassumption.
  - eexists. apply tracked_o; eassumption.
  - eexists. apply spawn_ready_o; eassumption.
  - eexists. apply balance_o; eassumption.
Qed.

Section Program.
  Context {W Req Resp Err : Type} (live : W -> Z) (k : Z) (svc : Service W Req Resp Err).
  Context (own : fut svc -> Z) (H : Owning live k svc own).
  Fixpoint total (l : list (option (fut svc))) : Z :=
    match l with [] => 0 | Some f :: l' => own f + total l' | None :: l' => total l' end.
  Lemma total_snoc l f : total (l ++ [Some f]) = total l + own f.
  Proof. induction l as [|[x|] l IH]; cbn; lia. Qed.
  Lemma total_at l : forall j f o, held_at l j = Some f ->
    total (set_nth j o l) = total l - own f + match o with Some x => own x | None => 0 end.
  Proof.
    induction l as [|x l IH]; intros [|j] f o E; try discriminate.
    - cbn in E. subst x. cbn. destruct o; lia.
    - specialize (IH j f o E). cbn. destruct x; lia.
  Qed.
  Lemma total_le l : 0 <= total l <= k * holding svc l.
  Proof. induction l as [|[x|] l IH]; cbn [total holding]; [lia | generalize (ow_le H x); lia | exact IH]. Qed.

  Lemma ustep_o y o c : op_ok y o -> (match o with UEnv g => same live g | _ => True end) ->
    live (u_world y) = c + total (u_futs y) -> live (u_world (ustep y o)) = c + total (u_futs (ustep y o)).
  Proof.
    intros Hop Ho E. destruct o as [i|i r|i|i|j|j|g]; cbn [ustep op_ok] in *.
    - destruct (held_at (u_svcs y) i) as [s|]; [| exact E]. generalize (proj1 (ow_ready H s (u_world y))).
      destruct (poll_ready svc s (u_world y)) as [w1 [[s1 a]| |]]; try contradiction. cbn. lia.
    - destruct (held_at (u_svcs y) i) as [s|]; [| exact E]. generalize (ow_call H s r (u_world y)).
      destruct (call svc s r (u_world y)) as [w1 [[s1 f]| |]]; try contradiction. intros HC. generalize (HC _ _ eq_refl). cbn.
      rewrite total_snoc. lia.
    - destruct (held_at (u_svcs y) i) as [s|]; [| exact E]. generalize (proj1 (ow_clone H s (u_world y))).
      destruct (clone svc s (u_world y)) as [w1 [s1| |]]; try contradiction. cbn. lia.
    - destruct (held_at (u_svcs y) i) as [s|]; [| exact E]. cbn. rewrite (ow_drop_svc H s _). exact E.
    - destruct (held_at (u_futs y) j) as [f|] eqn:Ef; [| exact E]. generalize (ow_poll H f (u_world y)).
      destruct (poll_fut svc f (u_world y)) as [w1 [[f1 a]| |]]; try contradiction. intros HC. generalize (HC _ _ eq_refl). cbn.
      rewrite (total_at _ _ (Some f1) Ef). lia.
    - destruct (held_at (u_futs y) j) as [f|] eqn:Ef; [| exact E]. cbn. rewrite (ow_drop_fut H f _), (total_at _ _ None Ef). lia.
    - cbn. rewrite (Ho (u_world y)). exact E.
  Qed.
  Lemma urun_o l c : forall y, calm y l -> env_same_z live l ->
    live (u_world y) = c + total (u_futs y) -> live (u_world (urun y l)) = c + total (u_futs (urun y l)).
  Proof.
    induction l as [|o l IH]; intros y Hc He E; [exact E |]. destruct Hc as [Hop Hc]. inversion He; subst.
    change (urun y (o :: l)) with (urun (ustep y o) l). apply IH; [exact Hc | assumption |]. apply ustep_o; assumption.
  Qed.
End Program.

Theorem direct_run W Req Resp Err (live : W -> Z) k (svc : Service W Req Resp Err) :
  direct live k svc -> forall w insts ops, calm (ustart svc w insts) ops -> env_same_z live ops ->
  let y := urun (ustart svc w insts) ops in
  live w <= live (u_world y) <= live w + k * holding svc (u_futs y).
Proof.
  intros HD w insts ops Hc He. destruct (direct_owning HD) as (own & HO). cbv zeta.
  rewrite (@urun_o _ _ _ _ live k svc own HO ops (live w) (ustart svc w insts) Hc He) by (cbn; lia).
  generalize (total_le HO (u_futs (urun (ustart svc w insts) ops))). lia.
Qed.
Theorem direct_cancelled W Req Resp Err (live : W -> Z) k (svc : Service W Req Resp Err) :
  direct live k svc -> forall w insts ops, calm (ustart svc w insts) ops -> env_same_z live ops ->
  let y := urun (ustart svc w insts) ops in
  holding svc (u_futs y) = 0 -> live (u_world y) = live w.
Proof. intros HD w insts ops Hc He y E. generalize (@direct_run _ _ _ _ live k svc HD w insts ops Hc He). cbv zeta. fold y. rewrite E. lia. Qed.
Theorem in_the_air_direct W Req Resp Err (svc : Service W Req Resp Err) : direct fst 1 (in_the_air svc).
Proof. apply dr_base, in_the_air_flies. Qed.
