(** C69: from the layers to stacks and programs. *)
From Verif Require Import Base Util ReadyCache SpawnReady Load Make Middleware Limits Hedge MeterSpec MeterProof FlightSpec KeepSpec KeepProof KeepMore.
Set Implicit Arguments.
Local Open Scope Z_scope.

Theorem kept_holds W Req Resp Err (live : W -> Z) (svc : Service W Req Resp Err) osv own orp :
  kept live svc osv own orp -> holds live svc osv own orp.
Proof.
  intros HK. induction HK.
  - assumption.
  - apply service_fn_k; assumption.
  - apply (boxed_k IHHK).
  - apply (map_request_k IHHK); assumption.
  - apply (map_response_k IHHK); assumption.
  - apply (map_err_k IHHK); assumption.
  - apply (map_result_k IHHK); assumption.
  - apply (then_k IHHK); assumption.
  - apply (and_then_k IHHK); assumption.
  - apply (either_k IHHK1 IHHK2).
  - apply (optional_k IHHK).
  - apply (future_service_k IHHK); assumption.
  - apply (timeout_k IHHK); assumption.
  - apply (load_shed_k IHHK).
  - apply (filter_k IHHK); assumption.
  - apply (async_filter_k IHHK); assumption.
  - apply (retry_k IHHK); assumption.
  - apply (steer_k IHHK); assumption.
  - apply (reconnect_k target IHHK1 IHHK2).
  - apply (rate_limit_k IHHK); assumption.
  - apply (conc_k IHHK).
  - apply (hedge_k IHHK); assumption.
  - apply (shared_k IHHK).
  - apply (into_service_k IHHK).
  - apply make_balance_k; assumption.
  - apply (constant_k IHHK).
  - apply (tracked_k IHHK); assumption.
  - apply (spawn_ready_k IHHK); assumption.
  - eapply (balance_k keq IHHK); eassumption.
Qed.

Section Program.
  Context {W Req Resp Err : Type} (live : W -> Z) (svc : Service W Req Resp Err).
  Context osv own (H : holds live svc osv own none).
  Lemma total_at A (o : A -> Z) l : forall j x y, held_at l j = Some x -> osum (oopt o) (set_nth j y l) = osum (oopt o) l - o x + oopt o y.
  Proof.
    induction l as [|z l IH]; intros [|j] x y E; try discriminate.
    - cbn in E. subst z. cbn. lia.
    - specialize (IH j x y E). cbn. lia.
  Qed.
  Lemma total_ge A (o : A -> Z) l : (forall x, 0 <= o x) -> forall j x, held_at l j = Some x -> o x <= osum (oopt o) l.
  Proof.
    intros L. induction l as [|z l IH]; intros [|j] x E; try discriminate.
    - cbn in E. subst z. cbn. generalize (osum_nonneg (oopt o) l (fun x => oopt_nonneg o x L)). lia.
    - specialize (IH j x E). cbn. generalize (oopt_nonneg o z L). lia.
  Qed.
  Lemma total_snoc A (o : A -> Z) l x : osum (oopt o) (l ++ [Some x]) = osum (oopt o) l + o x.
  Proof. rewrite osum_app. cbn. lia. Qed.

  Lemma ustep_k y o c : 0 <= c -> op_ok y o -> (match o with UEnv g => same live g | _ => True end) ->
    live (u_world y) = c + holding_in osv own y -> live (u_world (ustep y o)) = c + holding_in osv own (ustep y o).
  Proof.
    intros Hc Hop Ho E. unfold holding_in in *.
    assert (LS := osum_nonneg (oopt osv) (u_svcs y) (fun x => oopt_nonneg osv x (ho_svc0 H))).
    assert (LF := osum_nonneg (oopt own) (u_futs y) (fun x => oopt_nonneg own x (ho_fut0 H))).
    assert (GS := total_ge osv (u_svcs y) (ho_svc0 H)). assert (GF := total_ge own (u_futs y) (ho_fut0 H)).
    destruct o as [i|i r|i|i|j|j|g]; cbn [ustep op_ok] in *.
    - destruct (held_at (u_svcs y) i) as [s|] eqn:Es; [| exact E]. specialize (GS _ _ Es). generalize (ho_ready H s (u_world y)).
      destruct (poll_ready svc s (u_world y)) as [w1 [[s1 a]| |]]; try contradiction. intros HC. specialize (HC _ _ ltac:(lia) eq_refl).
      cbn [u_world u_svcs u_futs fst] in *. rewrite (total_at osv _ _ (Some s1) Es). cbn [oopt]. lia.
    - destruct (held_at (u_svcs y) i) as [s|] eqn:Es; [| exact E]. specialize (GS _ _ Es). generalize (ho_call H s r (u_world y)).
      destruct (call svc s r (u_world y)) as [w1 [[s1 f]| |]]; try contradiction. intros HC. specialize (HC _ _ ltac:(lia) eq_refl).
      cbn [u_world u_svcs u_futs fst snd] in *. rewrite (total_at osv _ _ (Some s1) Es), total_snoc. cbn [oopt]. lia.
    - destruct (held_at (u_svcs y) i) as [s|] eqn:Es; [| exact E]. specialize (GS _ _ Es). generalize (ho_clone H s (u_world y)).
      destruct (clone svc s (u_world y)) as [w1 [s1| |]]; try contradiction. intros HC. specialize (HC _ _ ltac:(lia) eq_refl).
      cbn [u_world u_svcs u_futs fst snd] in *. rewrite total_snoc. lia.
    - destruct (held_at (u_svcs y) i) as [s|] eqn:Es; [| exact E]. specialize (GS _ _ Es).
      cbn [u_world u_svcs u_futs]. rewrite (ho_drop_svc H s) by lia. rewrite (total_at osv _ _ None Es). cbn [oopt]. lia.
    - destruct (held_at (u_futs y) j) as [f|] eqn:Es; [| exact E]. specialize (GF _ _ Es). generalize (ho_poll H f (u_world y)).
      destruct (poll_fut svc f (u_world y)) as [w1 [[f1 a]| |]]; try contradiction. intros HC. specialize (HC _ _ ltac:(lia) eq_refl).
      cbn [fst snd] in HC. rewrite in_none in HC. cbn [u_world u_svcs u_futs]. rewrite (total_at own _ _ (Some f1) Es). cbn [oopt]. lia.
    - destruct (held_at (u_futs y) j) as [f|] eqn:Es; [| exact E]. specialize (GF _ _ Es).
      cbn [u_world u_svcs u_futs]. rewrite (ho_drop_fut H f) by lia. rewrite (total_at own _ _ None Es). cbn [oopt]. lia.
    - cbn. rewrite (Ho (u_world y)). exact E.
  Qed.
  Lemma urun_k l c : 0 <= c -> forall y, calm y l -> env_same_z live l ->
    live (u_world y) = c + holding_in osv own y -> live (u_world (urun y l)) = c + holding_in osv own (urun y l).
  Proof.
    intros Hc0. induction l as [|o l IH]; intros y Hc He E; [exact E |]. destruct Hc as [Hop Hc]. inversion He; subst.
    change (urun y (o :: l)) with (urun (ustep y o) l). apply IH; [exact Hc | assumption |]. apply ustep_k; assumption.
  Qed.
  Lemma osum_map_some l : osum (oopt osv) (map Some l) = osum osv l.
  Proof. induction l as [|x l IH]; cbn; [reflexivity |]. rewrite IH. reflexivity. Qed.
End Program.

Theorem kept_run W Req Resp Err (live : W -> Z) (svc : Service W Req Resp Err) osv own :
  kept live svc osv own none -> forall w insts ops, osum osv insts <= live w -> calm (ustart svc w insts) ops -> env_same_z live ops ->
  let y := urun (ustart svc w insts) ops in
  live (u_world y) = live w - osum osv insts + holding_in osv own y.
Proof.
  intros HK w insts ops Hw Hc He. cbv zeta.
  apply (@urun_k _ _ _ _ live svc osv own (kept_holds HK) ops (live w - osum osv insts) ltac:(lia) (ustart svc w insts) Hc He).
  unfold holding_in, ustart. cbn [u_world u_svcs u_futs osum]. rewrite osum_map_some. lia.
Qed.

Lemma census_holds W Req Resp Err (svc : Service W Req Resp Err) : holds fst (census svc) (fun _ => 1) none none.
Proof.
  assert (HL : forall A b (m : M W A), bal fst b (lift_k m) (fun _ => b)).
  { intros A b m x x1 a _ E. unfold lift_k in E. destruct (m (snd x)) as [w1 o]. injection E as <- _. cbn. lia. }
  constructor; cbn [census poll_ready call poll_fut clone drop_svc drop_fut]; unfold none; try lia.
  - intros s. apply HL.
  - intros s r. eapply bal_post; [apply HL |]. intros [s1 f]. reflexivity.
  - intros f. eapply bal_post; [apply HL |]. intros [f1 [|[v|e]]]; reflexivity.
  - intros s x x1 a _ E. unfold bind, lift_k, modify, ret in E. destruct (clone svc s (snd x)) as [w1 [s1| |]]; try discriminate.
    injection E as <- <-. cbn. lia.
  - intros s x _. reflexivity.
  - intros f x _. cbn. lia.
Qed.
Lemma census_mk_holds W Tgt Made MErr (mk : Service W Tgt Made MErr) : holds fst (census_mk mk) none none (fun _ => 1).
Proof.
  assert (HL : forall A b (m : M W A), bal fst b (lift_k m) (fun _ => b)).
  { intros A b m x x1 a _ E. unfold lift_k in E. destruct (m (snd x)) as [w1 o]. injection E as <- _. cbn. lia. }
  constructor; cbn [census_mk poll_ready call poll_fut clone drop_svc drop_fut]; unfold none; try lia.
  - intros s. apply HL.
  - intros s r. eapply bal_post; [apply HL |]. intros [s1 f]. reflexivity.
  - intros f x x1 a _ E. unfold bind, lift_k, modify, ret in E. destruct (poll_fut mk f (snd x)) as [w1 [[f1 p]| |]]; try discriminate.
    injection E as <- <-. destruct p as [|[v|e]]; cbn; lia.
  - intros s. eapply bal_post; [apply HL |]. intros a. reflexivity.
  - intros s x _. cbn. lia.
  - intros f x _. cbn. lia.
Qed.
Lemma in_the_air_holds W Req Resp Err (svc : Service W Req Resp Err) : holds fst (in_the_air svc) none (fun _ => 1) none.
Proof.
  assert (HL : forall A b (m : M W A), bal fst b (lift_z m) (fun _ => b)).
  { intros A b m x x1 a _ E. unfold lift_z in E. destruct (m (snd x)) as [w1 o]. injection E as <- _. cbn. lia. }
  constructor; cbn [in_the_air poll_ready call poll_fut clone drop_svc drop_fut]; unfold none; try lia.
  - intros s. apply HL.
  - intros s r x x1 a _ E. unfold bind, lift_z, modify, ret in E. destruct (call svc s r (snd x)) as [w1 [s1| |]]; try discriminate.
    injection E as <- <-. cbn. lia.
  - intros f. eapply bal_post; [apply HL |]. intros [f1 [|[v|e]]]; reflexivity.
  - intros s. eapply bal_post; [apply HL |]. intros a. reflexivity.
  - intros s x _. cbn. lia.
  - intros f x _. cbn. lia.
Qed.

Lemma service_list_holds W X E (live : W -> Z) (xdrop : X -> W -> W) (osv : X -> Z) :
  (forall x, gone live (osv x) (xdrop x)) -> (forall x, 0 <= osv x) ->
  disc_holds live (service_list (E := E) xdrop) osv (fun d => osum osv (snd d)).
Proof.
  intros Hd H0. constructor; cbn [service_list poll_discover ddrop].
  - intros [i [|s l]]; apply bal_ret; cbn; lia.
  - intros d. apply gone_all; assumption.
  - intros d. apply osum_nonneg, H0.
Qed.
Lemma map_discover_holds W K S S' E (live : W -> Z) (D : Discover W K S E) (f : S -> M W S') (osv : S -> Z) (osv' : S' -> Z) od :
  disc_holds live D osv od -> (forall s, 0 <= osv s) -> (forall s, bal live (osv s) (f s) osv') -> disc_holds live (map_discover D f) osv' od.
Proof.
  intros HD H0 Hf. constructor; cbn [map_discover poll_discover ddrop]; try apply HD.
  intros d. eapply bal_bind; [apply (do_poll HD) | lia |]. intros [d1 p]. assert (L := do_0 HD d1).
  destruct p as [|[[[k s|k]|e]|]]; cbn [fst snd in_change]; try (apply bal_ret; cbn; lia).
  eapply bal_bind; [apply Hf | lia |]. intros s1. apply bal_ret. cbn. lia.
Qed.

Lemma none_held A (o : A -> Z) l : (forall i, held_at l i = None) -> osum (oopt o) l = 0.
Proof.
  induction l as [|x l IH]; intros HN; [reflexivity |]. assert (E := HN O). cbn in E. subst x. cbn.
  apply IH. intros i. exact (HN (S i)).
Qed.
Theorem kept_released W Req Resp Err (live : W -> Z) (svc : Service W Req Resp Err) osv own :
  kept live svc osv own none -> forall w insts ops, osum osv insts <= live w -> calm (ustart svc w insts) ops -> env_same_z live ops ->
  let y := urun (ustart svc w insts) ops in
  (forall i, held_at (u_svcs y) i = None) -> (forall j, held_at (u_futs y) j = None) ->
  live (u_world y) = live w - osum osv insts.
Proof.
  intros HK w insts ops Hw Hc He. cbv zeta. intros HS HF. assert (E := kept_run HK w insts Hw Hc He). cbv zeta in E.
  unfold holding_in in E. rewrite (none_held _ _ HS), (none_held _ _ HF) in E. lia.
Qed.
Lemma census_kept W Req Resp Err (svc : Service W Req Resp Err) : kept fst (census svc) (fun _ => 1) none none.
Proof. apply kp_base, census_holds. Qed.
Lemma census_mk_kept W Tgt Made MErr (mk : Service W Tgt Made MErr) : kept fst (census_mk mk) none none (fun _ => 1).
Proof. apply kp_base, census_mk_holds. Qed.
Lemma in_the_air_kept W Req Resp Err (svc : Service W Req Resp Err) : kept fst (in_the_air svc) none (fun _ => 1) none.
Proof. apply kp_base, in_the_air_holds. Qed.

Theorem hedge_new_kept W Req Resp Err (live : W -> Z) (svc : Service W Req Resp Err) osv own orp (rt : Rt W)
    clone_request can_retry mdp quantile getH setH :
  kept live svc osv own orp -> forall s w w1 h, osv s <= live w ->
  hedge_new rt svc clone_request can_retry mdp quantile getH setH s w = (w1, Val h) ->
  live w1 = live w - osv s + (osv (fst h) + osv (fst (snd h))).
Proof.
  intros HK s w w1 h L E. assert (H := ho_clone (kept_holds HK) s).
  assert (X : bal live (osv s) (hedge_new rt svc clone_request can_retry mdp quantile getH setH s) (fun h => osv (fst h) + osv (fst (snd h)))).
  { unfold hedge_new. eapply bal_bind; [exact H | apply Z.le_refl |]. intros s1. apply bal_ret. cbn. lia. }
  assert (Y := X w w1 h L E). cbn beta in Y. lia.
Qed.
