(** The constructor of the retry budget. *)
From Coq Require Import Reals Lra.
From Flocq Require Import Core BinarySingleNaN.
From Verif Require Import Base Float FloatProof Tps TpsSpec TpsTop TpsNew TpsNewSpec.
Set Implicit Arguments.
Local Open Scope Z_scope.

Lemma percent_ok (p : f32) : Bleb (f32_of 0 0) p = true /\ Bleb p (f32_of 1000 0) = true <-> is_finite p = true /\ (0 <= B2R p <= 1000)%R.
Proof.
  destruct zero32 as [Z0 Z1]. destruct thousand32 as [T0 T1]. destruct (is_finite p) eqn:F.
  - rewrite (Bleb_correct _ _ _ _ Z1 F), (Bleb_correct _ _ _ _ F T1), Z0, T0.
    destruct (Rle_bool_spec 0 (B2R p)), (Rle_bool_spec (B2R p) 1000); split; intros (A & B); split; try discriminate; auto; try lra.
  - split; [|intros (A & _); discriminate A]. intros [A B]. exfalso. destruct p as [s|[|]| |s m e H]; try discriminate F; cbv in A, B; discriminate.
Qed.

Lemma new_valid ttl m p now : (exists r, tps_new ttl m p now = Val r) <-> valid_args ttl m p.
Proof.
  unfold valid_args. assert (P := percent_ok p). unfold tps_new.
  destruct (Z.leb_spec 1000000000 ttl) as [A|A]; cbn [negb]; [|split; [intros [r H]; discriminate H|lia]].
  destruct (Z.leb_spec ttl 60000000000) as [B|B]; cbn [negb]; [|split; [intros [r H]; discriminate H|lia]].
  destruct (Bleb (f32_of 0 0) p); cbn [negb]; [|split; [intros [r H]; discriminate H|intros (_ & _ & H); apply P in H; destruct H; discriminate]].
  destruct (Bleb p (f32_of 1000 0)); cbn [negb]; [|split; [intros [r H]; discriminate H|intros (_ & _ & H); apply P in H; destruct H; discriminate]].
  destruct (Z.ltb_spec m (2 ^ 31 - 1)) as [C|C]; cbn [negb]; [|split; [intros [r H]; discriminate H|lia]].
  split; [|intros _; destruct (weights p); eauto]. intros _. split; [lia|]. split; [exact C|]. apply P. auto.
Qed.
Lemma new_panics ttl m p now : ~ valid_args ttl m p -> tps_new ttl m p now = Panic.
Proof.
  intros H. assert (V := new_valid ttl m p now). unfold tps_new in *.
  repeat match goal with |- (if ?b then _ else _) = _ => destruct b end; auto. destruct (weights p). destruct H. apply V. eauto.
Qed.

Lemma quot_weights (num p : f32) (d : Z) : is_finite num = true -> is_finite p = true -> B2R num = IZR d -> (0 < B2R p)%R ->
  (B2R p <= IZR d)%R -> (1 <= d <= 1000) -> (/ IZR (2 ^ 62) <= B2R p -> IZR d <= B2R p * IZR (2 ^ 62))%R ->
  let w := cast isize_min isize_max (div32 num p) in
  1 <= w <= isize_max /\ (IZR w * B2R p <= IZR d * (1 + u24))%R /\
  ((/ IZR (2 ^ 62) <= B2R p)%R -> (IZR d * (1 - u24) < (IZR w + 1) * B2R p)%R).
Proof.
  intros Fn Fp En Pp Ge Hd Hb w.
  assert (Q := @quot_cast num p Fn Pp ltac:(rewrite En; apply Rlt_le_trans with 1%R; [lra|apply IZR_le; lia]) ltac:(lra) isize_min isize_max ltac:(vm_compute; congruence) ltac:(vm_compute; congruence)).
  assert (Hm : (IZR isize_max <= bpow radix2 64)%R) by (change (bpow radix2 64) with (IZR (2 ^ 64)); apply IZR_le; vm_compute; congruence).
  specialize (Q Hm). fold w in Q. rewrite En in Q. destruct Q as (Q1 & Q2 & Q3).
  assert (U : (/ 2 * bpow radix2 (-24 + 1) = u24)%R) by (unfold u24; cbn; lra). rewrite U in *.
  assert (I : (IZR d / B2R p * B2R p = IZR d)%R) by (field; lra).
  split; [exact Q1|]. split.
  - apply Rle_trans with (IZR d / B2R p * (1 + u24) * B2R p)%R; [apply Rmult_le_compat_r; lra|].
    replace (IZR d / B2R p * (1 + u24) * B2R p)%R with (IZR d / B2R p * B2R p * (1 + u24))%R by ring. rewrite I. lra.
  - intros H. specialize (Hb H).
    assert (X : (IZR d / B2R p <= IZR (2 ^ 62))%R) by (apply (Rmult_le_reg_r (B2R p)); [exact Pp|]; rewrite I; lra).
    assert (Y : (IZR d / B2R p * (1 + u24) < IZR isize_max)%R).
    { apply Rle_lt_trans with (IZR (2 ^ 62) * (1 + u24))%R; [apply Rmult_le_compat_r; [unfold u24; lra|exact X]|].
      unfold u24. change isize_max with 9223372036854775807. change (2 ^ 62) with 4611686018427387904. lra. }
    specialize (Q3 Y). apply (Rmult_lt_compat_r (B2R p)) in Q3; [|exact Pp].
    replace ((IZR d / B2R p * (1 - u24) - 1) * B2R p)%R with (IZR d / B2R p * B2R p * (1 - u24) - B2R p)%R in Q3 by ring.
    rewrite I in Q3. lra.
Qed.

Lemma weights_right (p : f32) d w : is_finite p = true -> (0 <= B2R p <= 1000)%R -> weights p = (d, w) -> weights_for (B2R p) d w.
Proof.
  intros F R E. unfold weights in E. destruct zero32 as [Z0 Z1]. destruct thousand32 as [T0 T1]. destruct one32 as [O0 O1].
  rewrite (Beqb_correct _ _ _ _ F Z1), (Bleb_correct _ _ _ _ F O1), Z0, O0 in E. unfold weights_for.
  destruct (Req_bool_spec (B2R p) 0) as [A|A].
  - injection E as <- <-. split; [vm_compute; split; congruence|]. split; [auto|]. split; [lra|]. split; [lra|]. lra.
  - destruct (Rle_bool_spec (B2R p) 1) as [B|B]; injection E as <- <-.
    + destruct (@quot_weights (f32_of 1 0) p 1 O1 F O0 ltac:(lra) B ltac:(lia)) as (Q1 & Q2 & Q3).
      { intros H. apply (Rmult_le_compat_r (IZR (2 ^ 62))) in H; [|apply IZR_le; vm_compute; congruence]. rewrite Rinv_l in H; [lra|]. apply not_0_IZR. vm_compute. congruence. }
      split; [exact Q1|]. split; [lra|]. split; [auto|]. split; [lra|]. auto.
    + destruct (@quot_weights (f32_of 1000 0) p 1000 T1 F T0 ltac:(lra) ltac:(lra) ltac:(lia)) as (Q1 & Q2 & Q3).
      { intros _. apply Rle_trans with (1 * IZR (2 ^ 62))%R; [|apply Rmult_le_compat_r; [apply IZR_le; vm_compute; congruence|lra]]. rewrite Rmult_1_l. apply IZR_le. vm_compute. congruence. }
      split; [exact Q1|]. split; [lra|]. split; [lra|]. split; [auto|]. auto.
Qed.

Lemma new_weights ttl m p now c b : 0 <= m -> tps_new ttl m p now = Val (c, b) ->
  b = tps_start now /\ t_window c = ttl / 10 /\
  weights_for (B2R p) (t_deposit c) (t_withdraw c) /\
  t_reserve c = Z.min isize_max (m * (ttl / 1000000000) * t_withdraw c).
Proof.
  intros Hm E. assert (V : valid_args ttl m p) by (apply (new_valid ttl m p now); eauto). destruct V as (V1 & V2 & V3 & V4).
  unfold tps_new in E. repeat match type of E with (if ?b then _ else _) = _ => destruct b; [discriminate E|] end.
  destruct (weights p) as [d w] eqn:W. assert (R := weights_right _ V3 V4 W). injection E as <- <-. cbn [t_window t_deposit t_withdraw t_reserve].
  repeat (split; [auto; fail|]). unfold tps_reserve, sat_mul, clamp. destruct R as (Hw & _).
  assert (0 <= m * (ttl / 1000000000) <= 2 ^ 31 * 60).
  { assert (1 <= ttl / 1000000000 <= 60) by (split; [apply Z.div_le_lower_bound; lia|apply Z.div_le_upper_bound; lia]). nia. }
  assert (A : Z.max isize_min (Z.min isize_max (m * (ttl / 1000000000))) = m * (ttl / 1000000000)) by (unfold isize_min, isize_max in *; lia).
  rewrite A. rewrite Z.max_r; [reflexivity|]. assert (0 <= m * (ttl / 1000000000) * w) by nia. unfold isize_min, isize_max in *. lia.
Qed.

Lemma new_sane ttl m p now c b : 0 <= m -> tps_new ttl m p now = Val (c, b) -> sane c.
Proof.
  intros Hm E. assert (V : valid_args ttl m p) by (apply (new_valid ttl m p now); eauto). destruct V as (V1 & V2 & V3 & V4).
  destruct (@new_weights ttl m p now c _ Hm E) as (_ & H2 & (H3 & H4 & H5 & H6 & _) & H7).
  split.
  - rewrite H2. enough (1 <= ttl / 10) by lia. apply Z.div_le_lower_bound; lia.
  - rewrite H7. assert (0 <= m * (ttl / 1000000000)) by (apply Z.mul_nonneg_nonneg; [lia|apply Z.div_pos; lia]).
    assert (0 <= m * (ttl / 1000000000) * t_withdraw c) by nia. unfold isize_max in *. lia.
  - destruct (Req_dec (B2R p) 0) as [X|X]; [destruct (H4 X); lia|]. destruct (Rle_dec (B2R p) 1) as [Y|Y]; [rewrite H5 by lra; lia|rewrite H6 by lra; lia].
  - lia.
Qed.

(** For the user: how many retries. *)
Lemma new_retries ttl m p now c b ops1 t ops2 answers1 answers2 : 0 <= m -> tps_new ttl m p now = Val (c, b) ->
  (B2R p = 0 \/ / IZR (2 ^ 62) <= B2R p)%R ->
  in_order now (ops1 ++ (t, Withdraw) :: ops2) -> fits c (ops1 ++ (t, Withdraw) :: ops2) ->
  tps_run c b (ops1 ++ (t, Withdraw) :: ops2) = answers1 ++ Val (Some true) :: answers2 ->
  length answers1 = length ops1 ->
  (IZR (wds (within (5 * (ttl / 10)) t (history ops1 answers1)) + 1) <=
   IZR (m * (ttl / 1000000000)) + 2 * B2R p * (16777216 / 16777215) * IZR (deps (within (11 * (ttl / 10)) t (history ops1 answers1))))%R.
Proof.
  intros Hm E Hp O F Ans L. assert (V : valid_args ttl m p) by (apply (new_valid ttl m p now); eauto). destruct V as (V1 & V2 & V3 & V4).
  assert (S := @new_sane ttl m p now c _ Hm E).
  destruct (@new_weights ttl m p now c _ Hm E) as (-> & H2 & (H3 & H4 & H5 & H6 & H8) & H7).
  assert (B := @budget_bound c now ops1 t ops2 answers1 true answers2 S O F Ans L). cbn [negb] in B. cbv zeta in B. rewrite H2 in B.
  set (W := wds _) in *. set (D := deps _) in *.
  assert (B' : t_withdraw c * (W + 1) <= m * (ttl / 1000000000) * t_withdraw c + t_deposit c * D) by lia.
  apply IZR_le in B'. rewrite plus_IZR, !mult_IZR in B'.
  assert (Wp : (1 <= IZR (t_withdraw c))%R) by (apply IZR_le; lia).
  assert (Dp : (0 <= IZR D)%R).
  { apply IZR_le. unfold D. clear. generalize (within (11 * (ttl / 10)) t (history ops1 answers1)). intros h. induction h as [|[x|x] h IH]; cbn [deps]; lia. }
  assert (K : (IZR (t_deposit c) <= IZR (t_withdraw c) * (2 * B2R p * (16777216 / 16777215)))%R).
  { destruct Hp as [Hp|Hp].
    - destruct (H4 Hp) as [-> _]. rewrite Hp. lra.
    - assert (Pp : (0 < B2R p)%R) by (eapply Rlt_le_trans; [|exact Hp]; apply Rinv_0_lt_compat; apply IZR_lt; vm_compute; congruence).
      destruct (H8 Pp) as [_ H9]. specialize (H9 Hp). unfold u24 in H9.
      assert ((IZR (t_withdraw c) + 1) * B2R p <= 2 * IZR (t_withdraw c) * B2R p)%R by (apply Rmult_le_compat_r; lra). lra. }
  apply (Rmult_le_compat_r (IZR D)) in K; [|exact Dp].
  apply (Rmult_le_reg_l (IZR (t_withdraw c))); [lra|]. rewrite mult_IZR in *. lra.
Qed.

(** The documented percentage is not kept: 70 % gives one retry per call, as 100 % would. *)
Lemma seventy_is_hundred now : exists b c, tps_new 1000000000 0 seventy now = Val (c, b) /\ t_deposit c = 1 /\ t_withdraw c = 1 /\
  Bltb seventy (f32_of 1 0) = true.
Proof. eexists. eexists. split; [reflexivity|]. vm_compute. auto. Qed.
(** For a tiny percentage the reserve covers one retry, whatever the minimum per second. *)
Lemma tiny_reserve now : exists b c, tps_new 1000000000 100 (f32_of 1 (-70)) now = Val (c, b) /\ t_reserve c = t_withdraw c /\ t_withdraw c = isize_max.
Proof. eexists. eexists. split; [reflexivity|]. vm_compute. auto. Qed.
