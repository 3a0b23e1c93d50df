(** Rounding in the update of the Peak-EWMA estimate. *)
From Coq Require Import Reals Lra.
From Flocq Require Import Core BinarySingleNaN Relative Sterbenz.
From Verif Require Import Base Float FloatProof BackoffProof.
Set Implicit Arguments.
Local Open Scope R_scope.

Definition h : R := / 2 * bpow radix2 (-1074).
Lemma h_pos : 0 < h.
Proof. unfold h. assert (P := bpow_gt_0 radix2 (-1074)). lra. Qed.
Lemma u_pos : 0 < u53.
Proof. unfold u53. lra. Qed.
(** Negligible. *)
Lemma h_small : 100 * h <= u53 * u53.
Proof.
  unfold h. assert (bpow radix2 (-1074) <= bpow radix2 (-120)) by (apply bpow_le; lia).
  assert (E : u53 * u53 = bpow radix2 (-106)).
  { assert (X : u53 = bpow radix2 (-53)) by (unfold u53; cbn; lra). rewrite X, <- bpow_plus. reflexivity. }
  rewrite E. replace (bpow radix2 (-106)) with (bpow radix2 14 * bpow radix2 (-120)) by (rewrite <- bpow_plus; reflexivity).
  assert (P := bpow_gt_0 radix2 (-120)). change (bpow radix2 14) with 16384. lra.
Qed.
Lemma rnd_err x : 0 <= x -> x * (1 - u53) - h <= rnd x <= x * (1 + u53) + h.
Proof.
  intros H. change (SpecFloat.fexp 53 1024) with (FLT_exp (-1074) 53).
  destruct (error_N_FLT radix2 (-1074) 53 eq_refl (fun z => negb (Z.even z)) x) as (eps & eta & H1 & H2 & _ & ->).
  replace (/ 2 * bpow radix2 (- (53) + 1)) with u53 in H1 by (symmetry; apply u53_eq).
  apply Rabs_le_inv in H1. apply Rabs_le_inv in H2. fold h in H2.
  assert (x * eps <= x * u53) by (apply Rmult_le_compat_l; lra).
  assert (x * (- u53) <= x * eps) by (apply Rmult_le_compat_l; lra). lra.
Qed.
Lemma rnd_nonneg x : 0 <= x -> 0 <= rnd x.
Proof. intros H. rewrite <- rnd_0 at 1. apply rnd_le. exact H. Qed.
Lemma fmt_1 : fmt 1.
Proof. change 1 with (bpow radix2 0). apply generic_format_bpow. vm_compute. discriminate. Qed.

(** One step of the average: old estimate [e], sample [r], weight [d]. *)
Definition ewma (e r d : R) : R := rnd (rnd (e * d) + rnd (r * rnd (1 - d))).

Section Step.
  Variables e r d : R.
  Hypothesis Fe : fmt e.
  Hypothesis Fd : fmt d.
  Hypothesis He : 0 <= e.
  Hypothesis Hr : 0 <= r.
  Hypothesis Hd : 0 <= d <= 1.

  Lemma rec_range : 0 <= rnd (1 - d) <= 1.
  Proof.
    split; [apply rnd_nonneg; lra|]. rewrite <- (rnd_id fmt_1) at 2. apply rnd_le. lra.
  Qed.
  Lemma ewma_nonneg : 0 <= ewma e r d.
  Proof.
    assert (R := rec_range). unfold ewma. apply rnd_nonneg.
    assert (0 <= rnd (e * d)) by (apply rnd_nonneg; apply Rmult_le_pos; lra).
    assert (0 <= rnd (r * rnd (1 - d))) by (apply rnd_nonneg; apply Rmult_le_pos; lra). lra.
  Qed.
  Lemma decay_le : rnd (e * d) <= e.
  Proof.
    rewrite <- (rnd_id Fe) at 2. apply rnd_le. rewrite <- (Rmult_1_r e) at 2. apply Rmult_le_compat_l; lra.
  Qed.
  (** A sample of zero: the estimate does not grow. *)
  Lemma ewma_zero : r = 0 -> ewma e r d <= e.
  Proof.
    intros ->. unfold ewma. rewrite Rmult_0_l, rnd_0, Rplus_0_r.
    rewrite (@rnd_id (rnd (e * d))); [apply decay_le|]. apply generic_format_round; [apply fexp_correct; reflexivity|apply valid_rnd_N].
  Qed.

  Lemma ewma_hi : ewma e r d <= (e * d + r * (1 - d)) * ((1 + u53) * (1 + u53) * (1 + u53)) + 10 * h * (1 + r).
  Proof.
    assert (R := rec_range). assert (U := u_pos). assert (P := h_pos).
    assert (U1 : u53 <= / 1000) by (unfold u53; lra).
    assert (A0 : 0 <= e * d) by (apply Rmult_le_pos; lra).
    assert (A := proj2 (rnd_err A0)). assert (C := proj2 (@rnd_err (1 - d) ltac:(lra))).
    assert (B0 : 0 <= r * rnd (1 - d)) by (apply Rmult_le_pos; lra).
    assert (B := proj2 (rnd_err B0)).
    assert (S0 : 0 <= rnd (e * d) + rnd (r * rnd (1 - d))).
    { assert (X := rnd_nonneg A0). assert (Y := rnd_nonneg B0). lra. }
    assert (S := proj2 (rnd_err S0)). unfold ewma. apply (Rle_trans _ _ _ S).
    assert (B1 : r * rnd (1 - d) <= r * ((1 - d) * (1 + u53) + h)) by (apply Rmult_le_compat_l; lra).
    assert (B2 : r * rnd (1 - d) * (1 + u53) <= r * ((1 - d) * (1 + u53) + h) * (1 + u53)) by (apply Rmult_le_compat_r; lra).
    assert (T : (rnd (e * d) + rnd (r * rnd (1 - d))) * (1 + u53) <=
      (e * d * (1 + u53) + h + (r * ((1 - d) * (1 + u53) + h) * (1 + u53) + h)) * (1 + u53)) by (apply Rmult_le_compat_r; lra).
    assert (X1 : e * d * (1 + u53) * (1 + u53) <= e * d * (1 + u53) * (1 + u53) * (1 + u53)).
    { rewrite <- (Rmult_1_r (e * d * (1 + u53) * (1 + u53))) at 1. apply Rmult_le_compat_l; [|lra]. repeat apply Rmult_le_pos; lra. }
    assert (X2 : r * h * (1 + u53) * (1 + u53) <= 2 * (r * h)).
    { rewrite Rmult_assoc. rewrite (Rmult_comm 2). apply Rmult_le_compat_l; [apply Rmult_le_pos; lra|].
      apply Rle_trans with ((1 + / 1000) * (1 + / 1000)); [apply Rmult_le_compat; lra|lra]. }
    assert (X3 : h * (1 + u53) <= h * 2) by (apply Rmult_le_compat_l; lra).
    assert (X4 : 0 <= r * h) by (apply Rmult_le_pos; lra).
    apply Rle_trans with ((e * d * (1 + u53) * (1 + u53)) + r * (1 - d) * (1 + u53) * (1 + u53) * (1 + u53) + r * h * (1 + u53) * (1 + u53) + 2 * (h * (1 + u53)) + h);
    [|]; lra.
  Qed.
  Lemma ewma_lo : r <= e -> 1 <= r -> r * (1 - 8 * u53) <= ewma e r d.
  Proof.
    intros Hre H1. assert (R := rec_range). assert (U := u_pos). assert (P := h_pos).
    assert (U1 : u53 <= / 1000) by (unfold u53; lra). assert (Hs := h_small).
    assert (A0 : 0 <= e * d) by (apply Rmult_le_pos; lra).
    assert (A := proj1 (rnd_err A0)). assert (C := proj1 (@rnd_err (1 - d) ltac:(lra))).
    assert (B0 : 0 <= r * rnd (1 - d)) by (apply Rmult_le_pos; lra).
    assert (B := proj1 (rnd_err B0)).
    assert (S0 : 0 <= rnd (e * d) + rnd (r * rnd (1 - d))).
    { assert (X := rnd_nonneg A0). assert (Y := rnd_nonneg B0). lra. }
    assert (S := proj1 (rnd_err S0)). unfold ewma. refine (Rle_trans _ _ _ _ S).
    assert (A1 : r * d <= e * d) by (apply Rmult_le_compat_r; lra).
    assert (A2 : r * d * (1 - u53) <= e * d * (1 - u53)) by (apply Rmult_le_compat_r; lra).
    assert (B1 : r * ((1 - d) * (1 - u53) - h) <= r * rnd (1 - d)) by (apply Rmult_le_compat_l; lra).
    assert (B2 : r * ((1 - d) * (1 - u53) - h) * (1 - u53) <= r * rnd (1 - d) * (1 - u53)) by (apply Rmult_le_compat_r; lra).
    assert (Uu : (1 - u53) * (1 - u53) = 1 - 2 * u53 + u53 * u53) by ring.
    assert (Uq : 0 <= u53 * u53) by (apply Rmult_le_pos; lra).
    assert (A3 : r * d * ((1 - u53) * (1 - u53)) <= r * d * (1 - u53)).
    { apply Rmult_le_compat_l; [apply Rmult_le_pos; lra|]. rewrite Uu. assert (u53 * u53 <= u53 * 1) by (apply Rmult_le_compat_l; lra). lra. }
    assert (Hrh : 0 <= r * h) by (apply Rmult_le_pos; lra).
    assert (Hrh2 : h <= r * h) by (rewrite <- (Rmult_1_l h) at 1; apply Rmult_le_compat_r; lra).
    assert (B3 : r * h * (1 - u53) <= r * h) by (rewrite <- (Rmult_1_r (r * h)) at 2; apply Rmult_le_compat_l; lra).
    assert (Sum : r * ((1 - u53) * (1 - u53)) - 3 * (r * h) <= rnd (e * d) + rnd (r * rnd (1 - d))) by lra.
    assert (Sum2 : (r * ((1 - u53) * (1 - u53)) - 3 * (r * h)) * (1 - u53) <= (rnd (e * d) + rnd (r * rnd (1 - d))) * (1 - u53)) by (apply Rmult_le_compat_r; lra).
    assert (F1 : r * (100 * h) <= r * (u53 * u53)) by (apply Rmult_le_compat_l; lra).
    assert (F2 : r * (u53 * u53) <= r * u53).
    { apply Rmult_le_compat_l; [lra|]. rewrite <- (Rmult_1_r u53) at 3. apply Rmult_le_compat_l; lra. }
    assert (F3 : 0 <= r * (u53 * u53)) by (apply Rmult_le_pos; lra).
    assert (F4 : r * (u53 * u53) * u53 <= r * (u53 * u53) * 1) by (apply Rmult_le_compat_l; lra).
    assert (F5 : r * h * u53 <= r * h * 1) by (apply Rmult_le_compat_l; lra).
    assert (F6 : 0 <= r * h * u53) by (apply Rmult_le_pos; lra).
    assert (Ex : (r * ((1 - u53) * (1 - u53)) - 3 * (r * h)) * (1 - u53) =
      r - 3 * (r * u53) + 3 * (r * (u53 * u53)) - r * (u53 * u53) * u53 - 3 * (r * h) + 3 * (r * h * u53)) by ring.
    lra.
  Qed.

  (** Well above the sample, and with little decay: the estimate does not grow. *)
  Lemma ewma_down : 1 <= e -> / 2 <= d -> ulp radix2 (SpecFloat.fexp 53 1024) e <= e - r -> ewma e r d <= e.
  Proof.
    intros He1 Hd2 Hu. set (q := ulp radix2 (SpecFloat.fexp 53 1024) e) in *.
    assert (V : Valid_exp (SpecFloat.fexp 53 1024)) by (apply fexp_correct; reflexivity).
    assert (Ex : rnd (1 - d) = 1 - d).
    { apply rnd_id. apply sterbenz; [apply fexp_correct; reflexivity|apply (fexp_monotone 53 1024)|apply fmt_1|exact Fd|lra]. }
    unfold ewma. rewrite Ex.
    destruct (Req_dec d 1) as [->|Nd].
    { replace (r * (1 - 1)) with 0 by ring. rewrite rnd_0, Rplus_0_r, Rmult_1_r, (rnd_id Fe). rewrite (rnd_id Fe). lra. }
    assert (A : rnd (e * d) <= e * d + / 2 * q).
    { assert (X := error_le_half_ulp radix2 (SpecFloat.fexp 53 1024) (fun z => negb (Z.even z)) (e * d)).
      assert (Y : ulp radix2 (SpecFloat.fexp 53 1024) (e * d) <= q).
      { apply ulp_le; [exact V|apply (fexp_monotone 53 1024)|]. rewrite !Rabs_pos_eq; [|lra|apply Rmult_le_pos; lra].
        rewrite <- (Rmult_1_r e) at 2. apply Rmult_le_compat_l; lra. }
      apply Rabs_le_inv in X. lra. }
    assert (B : rnd (r * (1 - d)) <= r * (1 - d) * (1 + u53) + h) by (apply rnd_err; apply Rmult_le_pos; lra).
    apply round_N_le_midp; [exact V|exact Fe|]. rewrite succ_eq_pos by lra. fold q.
    assert (Q1 : e * u53 < q).
    { assert (X := ulp_FLT_gt radix2 (-1074) 53 e). rewrite Rabs_pos_eq in X by lra.
      replace (bpow radix2 (- (53))) with u53 in X by (unfold u53; cbn; lra). exact X. }
    assert (Dp : u53 <= 1 - d).
    { assert (X : d <= pred radix2 (SpecFloat.fexp 53 1024) (bpow radix2 0)).
      { apply pred_ge_gt; [exact V|exact Fd| |cbn; lra]. exact fmt_1. }
      rewrite pred_bpow in X. replace (bpow radix2 (SpecFloat.fexp 53 1024 0)) with u53 in X by (unfold u53; cbn; lra). cbn in X. lra. }
    assert (Qp : 0 < q).
    { assert (0 <= e * u53) by (apply Rmult_le_pos; [lra|assert (X := u_pos); lra]). lra. }
    assert (U := u_pos). assert (U1 : u53 <= / 1000) by (unfold u53; lra). assert (Hs := h_small). assert (P := h_pos).
    assert (R1 : r * (1 - d) * (1 + u53) <= (e - q) * (1 - d) * (1 + u53)).
    { apply Rmult_le_compat_r; [lra|]. apply Rmult_le_compat_r; lra. }
    assert (R2 : e * u53 * (1 - d) <= q * (1 - d)) by (apply Rmult_le_compat_r; lra).
    assert (R3 : u53 * u53 * u53 <= q * (1 - d) * u53).
    { apply Rmult_le_compat_r; [lra|]. apply Rmult_le_compat; try lra. assert (u53 * 1 <= e * u53) by (rewrite (Rmult_comm e); apply Rmult_le_compat_l; lra). lra. }
    assert (R4 : h < u53 * u53 * u53).
    { unfold h. assert (bpow radix2 (-1074) <= bpow radix2 (-159)) by (apply bpow_le; lia).
      assert (E : u53 * u53 * u53 = bpow radix2 (-159)).
      { assert (X : u53 = bpow radix2 (-53)) by (unfold u53; cbn; lra). rewrite X, <- !bpow_plus. reflexivity. }
      rewrite E. assert (X := bpow_gt_0 radix2 (-159)). lra. }
    assert (Ex2 : e * d + / 2 * q + ((e - q) * (1 - d) * (1 + u53) + h) =
      e + / 2 * q + (e * u53 * (1 - d) - q * (1 - d)) - q * (1 - d) * u53 + h) by ring.
    lra.
  Qed.

  (** The bound is kept. *)
  Lemma ewma_bound M : 1 <= M -> r <= M -> r <= e -> (r = 0 \/ 1 <= r) -> e <= M * (1 + 8 * u53) ->
    ewma e r d <= M * (1 + 8 * u53).
  Proof.
    intros HM Hr2 Hre Hcase HeM. destruct Hcase as [Z|H1]; [apply Rle_trans with e; [apply ewma_zero; exact Z|exact HeM]|].
    assert (U := u_pos). assert (U1 : u53 <= / 1000) by (unfold u53; lra). assert (Hs := h_small). assert (P := h_pos).
    assert (K : forall c, 0 <= c <= 4 -> e * d + r * (1 - d) <= M * (1 + c * u53) -> ewma e r d <= M * (1 + 8 * u53)).
    { intros c Hc HK. apply (Rle_trans _ _ _ ewma_hi).
      assert (Uu : u53 * u53 <= u53 * / 1000) by (apply Rmult_le_compat_l; lra).
      assert (Uu0 : 0 <= u53 * u53) by (apply Rmult_le_pos; lra).
      assert (C3 : (1 + u53) * (1 + u53) * (1 + u53) <= 1 + 3 * u53 + / 100 * u53).
      { assert (u53 * u53 * u53 <= u53 * u53 * 1) by (apply Rmult_le_compat_l; lra).
        replace ((1 + u53) * (1 + u53) * (1 + u53)) with (1 + 3 * u53 + 3 * (u53 * u53) + u53 * u53 * u53) by ring. lra. }
      assert (K2 : (e * d + r * (1 - d)) * ((1 + u53) * (1 + u53) * (1 + u53)) <= M * (1 + 4 * u53) * (1 + 3 * u53 + / 100 * u53)).
      { assert (c * u53 <= 4 * u53) by (apply Rmult_le_compat_r; lra).
        apply Rmult_le_compat; [|repeat apply Rmult_le_pos; lra| |exact C3].
        - assert (0 <= e * d) by (apply Rmult_le_pos; lra). assert (0 <= r * (1 - d)) by (apply Rmult_le_pos; lra). lra.
        - apply (Rle_trans _ _ _ HK). apply Rmult_le_compat_l; lra. }
      assert (H10 : 10 * h * (1 + r) <= M * (20 * h)).
      { replace (10 * h * (1 + r)) with (h * (10 * (1 + r))) by ring. replace (M * (20 * h)) with (h * (20 * M)) by ring. apply Rmult_le_compat_l; lra. }
      assert (H11 : M * (20 * h) <= M * (u53 * u53)) by (apply Rmult_le_compat_l; lra).
      assert (H12 : M * (u53 * u53) <= M * (u53 * / 1000)) by (apply Rmult_le_compat_l; lra).
      replace (M * (1 + 4 * u53) * (1 + 3 * u53 + / 100 * u53)) with
        (M + M * u53 * (7 + / 100) + M * (u53 * u53) * (12 + 4 * / 100)) in K2 by ring.
      assert (0 <= M * u53) by (apply Rmult_le_pos; lra). lra. }
    destruct (Rlt_le_dec d (/ 2)) as [Ld|Ld].
    - apply (K 4); [lra|].
      assert (X1 : e * d <= M * (1 + 8 * u53) * d) by (apply Rmult_le_compat_r; lra).
      assert (X2 : r * (1 - d) <= M * (1 - d)) by (apply Rmult_le_compat_r; lra).
      assert (X3 : M * (8 * u53) * d <= M * (8 * u53) * / 2) by (apply Rmult_le_compat_l; [repeat apply Rmult_le_pos; lra|lra]).
      lra.
    - destruct (Rle_lt_dec (ulp radix2 (SpecFloat.fexp 53 1024) e) (e - r)) as [Lu|Lu].
      { apply Rle_trans with e; [apply ewma_down; lra|exact HeM]. }
      apply (K 4); [lra|].
      assert (Q : ulp radix2 (SpecFloat.fexp 53 1024) e <= e * (2 * u53)).
      { assert (X := ulp_FLT_le radix2 (-1074) 53 e). rewrite Rabs_pos_eq in X by lra.
        replace (bpow radix2 (1 - 53)) with (2 * u53) in X by (unfold u53; cbn; lra).
        apply X. apply Rle_trans with (bpow radix2 0); [apply bpow_le; lia|cbn; lra]. }
      assert (X1 : e * d <= e * d) by lra.
      assert (X2 : r * (1 - d) <= e * (1 - d)) by (apply Rmult_le_compat_r; lra).
      assert (X3 : e * (2 * u53) <= M * (1 + 8 * u53) * (2 * u53)) by (apply Rmult_le_compat_r; lra).
      assert (X4 : M * (u53 * u53) <= M * (u53 * / 1000)).
      { apply Rmult_le_compat_l; [lra|]. apply Rmult_le_compat_l; lra. }
      assert (0 <= M * u53) by (apply Rmult_le_pos; lra).
      lra.
  Qed.
End Step.
