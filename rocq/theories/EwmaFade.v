(** Proofs for C90. *)
From Coq Require Import Reals Lra.
From Flocq Require Import Core BinarySingleNaN Relative.
From Verif Require Import Base Middleware Float FloatProof BackoffProof EwmaReal Load LoadSpec LoadProof EwmaSpec EwmaProof EwmaTop EwmaFadeSpec.
Set Implicit Arguments.
Local Open Scope R_scope.

Definition c : R := 7 / 2 * u53.
Definition del : R := bpow radix2 (-1000).
Lemma c_pos : 0 < c.
Proof. unfold c, u53. lra. Qed.
Lemma del_pos : 0 < del.
Proof. apply bpow_gt_0. Qed.
Lemma rnd_neg x : rnd (- x) = - rnd x.
Proof. apply round_NE_opp. Qed.
Lemma exp_le x y : x <= y -> exp x <= exp y.
Proof. intros [H| ->]; [left; now apply exp_increasing | right; reflexivity]. Qed.
Lemma exp_pos0 x : 0 < exp x.
Proof. apply exp_pos. Qed.
Lemma exp_le1 x : x <= 0 -> exp x <= 1.
Proof. intros H. rewrite <- exp_0. now apply exp_le. Qed.

Section Fade.
  Context (exp64 : f64 -> f64) (decay : f64).
  Hypothesis Hexp : exp_ok exp64.
  Hypothesis Hnear : exp_near exp64.
  Hypothesis Fdecay : is_finite decay = true.
  Hypothesis Rdecay : 1 <= B2R decay <= bpow radix2 65.

  (** The exponent, as computed. *)
  Lemma exponent d : (0 <= d <= u64_max)%Z ->
    let x := div64 (neg64 (nanos d)) decay in
    let a := IZR d / B2R decay in
    is_finite x = true /\ B2R x <= 0 /\ - (a * (1 + 8 * u53)) <= B2R x <= - (a * (1 - 8 * u53)).
  Proof.
    intros Hd. cbn zeta. destruct (nanos_ok (proj1 Hd)) as (Fe & Re & Ri & _ & Hi & Lo). specialize (Lo (proj2 Hd)).
    set (el := nanos d) in *. assert (U := u_pos). assert (U1 : u53 <= / 1000) by (unfold u53; lra).
    assert (Dp : 0 < B2R decay) by lra. assert (Di : 0 < / B2R decay) by (apply Rinv_0_lt_compat; exact Dp).
    assert (En : B2R (neg64 el) = - B2R el) by apply B2R_Bopp.
    assert (Fn : is_finite (neg64 el) = true) by (unfold neg64; rewrite is_finite_Bopp; exact Fe).
    set (q := B2R el / B2R decay).
    assert (Q0 : 0 <= q) by (apply Rmult_le_pos; lra).
    assert (Qhi : q <= bpow radix2 65).
    { unfold q, Rdiv. apply Rle_trans with (B2R el * 1); [apply Rmult_le_compat_l; [lra|]; rewrite <- Rinv_1; apply Rinv_le; lra|].
      assert (bpow radix2 64 + bpow radix2 33 <= bpow radix2 65) by (cbn; lra). lra. }
    assert (Rq : 0 <= rnd q <= bpow radix2 65) by (split; [apply rnd_nonneg; exact Q0 | apply rnd_pow; [lia|lia|exact Qhi]]).
    assert (C := Bdiv_correct 53 1024 prec64 emax64 mode_NE (neg64 el) decay ltac:(lra)).
    cbn [round_mode] in C. fold (div64 (neg64 el) decay) in C. rewrite En in C.
    replace (- B2R el / B2R decay) with (- q) in C by (unfold q, Rdiv; ring).
    rewrite rnd_neg, Rabs_Ropp, Rabs_pos_eq in C by lra.
    assert (bpow radix2 65 < bpow radix2 1024) by (apply bpow_lt; lia).
    rewrite Rlt_bool_true in C by lra. destruct C as (C1 & C2 & _). rewrite Fn in C2.
    assert (Nq : q * (1 - u53) <= rnd q <= q * (1 + u53)).
    { destruct Ri as [Z|Ge].
      - assert (q = 0) as -> by (unfold q; rewrite Z; unfold Rdiv; ring). rewrite rnd_0. lra.
      - assert (Nm : bpow radix2 (-1022) <= q).
        { apply Rle_trans with (bpow radix2 (-65)); [apply bpow_le; lia|]. unfold q, Rdiv.
          apply Rle_trans with (1 * / B2R decay); [|apply Rmult_le_compat_r; lra]. rewrite Rmult_1_l.
          change (-65)%Z with (- (65))%Z. rewrite bpow_opp. apply Rinv_le; lra. }
        assert (X := rnd_near Nm). rewrite u53_eq in X. apply Rabs_le_inv in X. lra. }
    set (a := IZR d / B2R decay).
    assert (D0 : 0 <= IZR d) by (apply IZR_le; lia).
    assert (A0 : 0 <= a) by (apply Rmult_le_pos; lra).
    assert (Qa : a * (1 - 3 * u53) <= q <= a * ((1 + u53) * (1 + u53))).
    { unfold a, q, Rdiv. split.
      - replace (IZR d * / B2R decay * (1 - 3 * u53)) with (IZR d * (1 - 3 * u53) * / B2R decay) by ring. apply Rmult_le_compat_r; lra.
      - replace (IZR d * / B2R decay * ((1 + u53) * (1 + u53))) with (IZR d * ((1 + u53) * (1 + u53)) * / B2R decay) by ring.
        apply Rmult_le_compat_r; lra. }
    assert (Uq : u53 * u53 <= u53 * / 1000) by (apply Rmult_le_compat_l; lra). assert (Uq0 : 0 <= u53 * u53) by (apply Rmult_le_pos; lra).
    assert (Uc : u53 * u53 * u53 <= u53 * u53 * 1) by (apply Rmult_le_compat_l; lra).
    assert (B1 : rnd q <= a * (1 + 8 * u53)).
    { apply Rle_trans with (q * (1 + u53)); [lra|].
      apply Rle_trans with (a * ((1 + u53) * (1 + u53)) * (1 + u53)); [apply Rmult_le_compat_r; lra|]. rewrite Rmult_assoc.
      apply Rmult_le_compat_l; [exact A0|]. replace ((1 + u53) * (1 + u53) * (1 + u53)) with (1 + 3 * u53 + 3 * (u53 * u53) + u53 * u53 * u53) by ring. lra. }
    assert (B2 : a * (1 - 8 * u53) <= rnd q).
    { apply Rle_trans with (q * (1 - u53)); [|lra].
      apply Rle_trans with (a * (1 - 3 * u53) * (1 - u53)); [|apply Rmult_le_compat_r; lra]. rewrite Rmult_assoc.
      apply Rmult_le_compat_l; [exact A0|]. replace ((1 - 3 * u53) * (1 - u53)) with (1 - 4 * u53 + 3 * (u53 * u53)) by ring. lra. }
    rewrite C1. repeat split; try lra. exact C2.
  Qed.

  (** One look. *)
  Lemma fade_step old last now : is_finite old = true -> 0 <= B2R old <= bpow radix2 65 -> (last <= now)%Z -> (now - last <= u64_max)%Z ->
    let a := IZR (now - last) / B2R decay in
    let x := B2R (rtt_next exp64 decay old last now 0) in
    B2R old * exp (- (a * (1 + 8 * u53))) * (1 - c) - del <= x <= B2R old * exp (- (a * (1 - 8 * u53))) * (1 + c) + del.
  Proof.
    intros Fo Ho Hl Hu. cbn zeta. assert (Z0 : B2R (nanos 0) = 0) by (vm_compute; reflexivity).
    assert (Fz : is_finite (nanos 0) = true) by reflexivity.
    assert (Es : since now last = (now - last)%Z) by (unfold since; lia).
    unfold rtt_next. unfold lt64. rewrite (Bltb_correct 53 1024 old (nanos 0) Fo Fz). rewrite Z0.
    rewrite Rlt_bool_false by lra. rewrite Es.
    destruct (@exponent (now - last) ltac:(lia)) as (Fx & Nx & Bx). set (x := div64 (neg64 (nanos (now - last))) decay) in *.
    set (a := IZR (now - last) / B2R decay) in *.
    assert (Npos : nonpos x).
    { destruct x as [s|s| |s m e He]; cbn in Fx; try discriminate; cbn [nonpos]; exact Nx. }
    destruct (@Hexp _ Npos) as [Fd Rd]. assert (Nd := Hnear x Fx Nx). set (d := exp64 x) in *.
    destruct (sub_one d Fd Rd) as [Eo Fs]. assert (Rs := rec_range Rd). rewrite <- Eo in Rs.
    destruct (@mul_pos old d Fo Fd Ho ltac:(lra)) as (E1 & F1 & N1).
    destruct (@mul_pos (nanos 0) (sub64 f_one d) Fz Fs ltac:(rewrite Z0; pose proof (bpow_gt_0 radix2 65); lra) ltac:(lra)) as (E2 & F2 & N2).
    rewrite Z0, Rmult_0_l, rnd_0 in E2.
    assert (P70 : bpow radix2 65 <= bpow radix2 70) by (apply bpow_le; lia).
    assert (M1 : B2R (mul64 old d) <= bpow radix2 70).
    { rewrite E1. apply rnd_pow; [lia|lia|]. apply Rle_trans with (B2R old * 1); [apply Rmult_le_compat_l; lra|lra]. }
    destruct (@add_pos _ _ F1 F2 ltac:(lra) ltac:(rewrite E2; pose proof (bpow_gt_0 radix2 70); lra)) as [E3 _].
    rewrite E3, E2, Rplus_0_r, (rnd_id (fmt_b2r _)), E1.
    apply Rabs_le_inv in Nd. assert (U := u_pos). assert (U1 : u53 <= / 1000) by (unfold u53; lra).
    replace (bpow radix2 (-52)) with (2 * u53) in Nd by (unfold u53; cbn; lra).
    replace (bpow radix2 (-1074)) with (2 * h) in Nd by (unfold h; lra).
    assert (Hp := h_pos). set (y := exp (B2R x)) in *. assert (Y0 : 0 < y) by apply exp_pos.
    assert (Yhi : y <= exp (- (a * (1 - 8 * u53)))) by (apply exp_le; lra).
    assert (Ylo : exp (- (a * (1 + 8 * u53))) <= y) by (apply exp_le; lra).
    assert (R := rnd_err (Rmult_le_pos _ _ (proj1 Ho) (proj1 Rd))).
    assert (Uq : u53 * u53 <= u53 * / 1000) by (apply Rmult_le_compat_l; lra). assert (Uq0 : 0 <= u53 * u53) by (apply Rmult_le_pos; lra).
    assert (T : B2R old * h * 10 + h <= del).
    { apply Rle_trans with (bpow radix2 65 * h * 10 + h).
      - apply Rplus_le_compat_r. apply Rmult_le_compat_r; [lra|]. apply Rmult_le_compat_r; lra.
      - unfold h, del. replace (bpow radix2 (-1000)) with (bpow radix2 74 * bpow radix2 (-1074)) by (rewrite <- bpow_plus; reflexivity).
        assert (P := bpow_gt_0 radix2 (-1074)). change (bpow radix2 74) with 18889465931478580854784. change (bpow radix2 65) with 36893488147419103232. lra. }
    assert (OY0 : 0 <= B2R old * y) by (apply Rmult_le_pos; lra).
    assert (OYU : 0 <= B2R old * y * u53) by (apply Rmult_le_pos; lra).
    assert (OYUq : B2R old * y * (u53 * u53) <= B2R old * y * (u53 * / 1000)) by (apply Rmult_le_compat_l; lra).
    assert (OYUq0 : 0 <= B2R old * y * (u53 * u53)) by (apply Rmult_le_pos; lra).
    assert (OH0 : 0 <= B2R old * h) by (apply Rmult_le_pos; lra).
    assert (OHU : B2R old * h * u53 <= B2R old * h * 1) by (apply Rmult_le_compat_l; lra).
    assert (OHU0 : 0 <= B2R old * h * u53) by (apply Rmult_le_pos; lra).
    split.
    - apply Rle_trans with (B2R old * y * (1 - c) - del).
      + apply Rplus_le_compat_r. apply Rmult_le_compat_r; [unfold c; lra|]. apply Rmult_le_compat_l; lra.
      + apply Rle_trans with (B2R old * B2R d * (1 - u53) - h); [|lra].
        assert (X : B2R old * (y * (1 - 2 * u53) - 2 * h) <= B2R old * B2R d) by (apply Rmult_le_compat_l; lra).
        assert (X2 : B2R old * (y * (1 - 2 * u53) - 2 * h) * (1 - u53) <= B2R old * B2R d * (1 - u53)) by (apply Rmult_le_compat_r; lra).
        replace (B2R old * (y * (1 - 2 * u53) - 2 * h) * (1 - u53)) with
          (B2R old * y - 3 * (B2R old * y * u53) + 2 * (B2R old * y * (u53 * u53)) - 2 * (B2R old * h) + 2 * (B2R old * h * u53)) in X2 by ring.
        unfold c. lra.
    - apply Rle_trans with (B2R old * y * (1 + c) + del).
      + apply Rle_trans with (B2R old * B2R d * (1 + u53) + h); [lra|].
        assert (X : B2R old * B2R d <= B2R old * (y * (1 + 2 * u53) + 2 * h)) by (apply Rmult_le_compat_l; lra).
        assert (X2 : B2R old * B2R d * (1 + u53) <= B2R old * (y * (1 + 2 * u53) + 2 * h) * (1 + u53)) by (apply Rmult_le_compat_r; lra).
        replace (B2R old * (y * (1 + 2 * u53) + 2 * h) * (1 + u53)) with
          (B2R old * y + 3 * (B2R old * y * u53) + 2 * (B2R old * y * (u53 * u53)) + 2 * (B2R old * h) + 2 * (B2R old * h * u53)) in X2 by ring.
        unfold c. lra.
      + apply Rplus_le_compat_r. apply Rmult_le_compat_r; [unfold c; lra|]. apply Rmult_le_compat_l; lra.
  Qed.
End Fade.
