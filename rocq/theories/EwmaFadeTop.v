(** Proofs for C90: whole histories. *)
From Coq Require Import Reals Lra.
From Flocq Require Import Core BinarySingleNaN Relative.
From Verif Require Import Base Middleware Float FloatProof BackoffProof EwmaReal Load LoadSpec LoadProof EwmaSpec EwmaProof EwmaTop EwmaFadeSpec EwmaFade.
Set Implicit Arguments.
Local Open Scope R_scope.

Section Top.
  Context {W Req Resp Err : Type} (svc : Service W Req Resp Err) (keep : Resp -> W -> W * bool).
  Context (clk : W -> W * Z) (exp64 : f64 -> f64) (decay : f64) (default : Z) (time : W -> Z).
  Notation start := (pe_start clk).
  Notation finish := (pe_finish clk exp64 decay).
  Notation rsys := (rsys (C := rtt_est) (T := Z) svc).
  Notation rload := (pe_rload clk exp64 decay).
  Notation rstep := (rsys_step (svc := svc) start finish keep rload).
  Notation rrun := (rsys_run (svc := svc) start finish keep rload).
  Hypothesis Hexp : exp_ok exp64.
  Hypothesis Hnear : exp_near exp64.
  Hypothesis Fdecay : is_finite decay = true.
  Hypothesis Rdecay : 1 <= B2R decay <= bpow radix2 65.
  Hypothesis Fw : forward svc keep clk time.
  Hypothesis Ic : instant clk time.

  Lemma quiet_step2 (o : lop W Req) (z : rsys) : forward_op time o -> let '(z1, b) := rstep o z in
    b <> LoPanic -> b <> LoDiverge -> quiet (o, b, r_w z1) ->
    (time (r_w z) <= time (r_w z1))%Z /\ r_reqs z1 = r_reqs z /\
    ((r_est z1 = r_est z /\ match b with LoLoad _ => False | _ => True end) \/
     ((exists m, b = LoLoad m) /\ time (r_w z1) = time (r_w z) /\ update_at (r_est z1) = time (r_w z) /\
      rtt_ns (r_est z1) = rtt_next exp64 decay (rtt_ns (r_est z)) (update_at (r_est z)) (time (r_w z)) 0)).
  Proof.
    intros Fo. destruct z as [s rf rq c w]. destruct o as [|r|j|j|j| | |g]; cbn [rsys_step r_svc r_futs r_reqs r_est r_w].
    - destruct s as [s|]; [|cbn [r_w r_reqs r_est]; auto with zarith]. assert (X := fw_ready Fw s w).
      destruct (poll_ready svc s w) as [w1 [[s1 a]| |]]; cbn [fst] in X; cbn [r_w r_reqs r_est]; auto.
    - destruct s as [s|]; [|cbn [r_w r_reqs r_est]; auto with zarith]. destruct (start w) as [w1 [t| |]]; try congruence.
      destruct (call svc s r w1) as [w2 [[s1 f]| |]]; [intros _ _ []| |congruence]. destruct (finish t c w2). congruence.
    - destruct (nth_error rf j) as [[f|]|] eqn:Ef; try (cbn [r_w r_reqs r_est]; auto with zarith; fail).
      assert (X := fw_poll Fw f w).
      destruct (poll_fut svc f w) as [w1 [[f1 a]| |]] eqn:Ep; try congruence; cbn [fst] in X. destruct a as [|[v|e]]; try (cbn [r_w r_reqs r_est]; auto; fail).
      destruct (nth_error rq j) as [[t|t|]|] eqn:Eq; try congruence. destruct (keep v w1) as [w2 [|]]; [intros _ _ []|].
      destruct (finish t c w2) as [c3 w3]. intros _ _ [].
    - destruct (nth_error rf j) as [[f|]|] eqn:Ef; try (cbn [r_w r_reqs r_est]; auto with zarith; fail).
      destruct (nth_error rq j) as [[t|t|]|] eqn:Eq; try (intros _ _ []; fail).
      cbv zeta. destruct (finish t c (drop_fut svc f w)) as [c3 w3]. intros _ _ [].
    - destruct (nth_error rq j) as [[t|t|]|] eqn:Eq; try (cbn [r_w r_reqs r_est]; auto with zarith; fail). destruct (finish t c w) as [c3 w3]. intros _ _ [].
    - destruct s as [s|]; [|cbn [r_w r_reqs r_est]; auto with zarith]. unfold pe_rload, rtt_decay. destruct (Ic w) as [I1 I2].
      destruct (clk w) as [w1 a]. cbn [fst snd] in I1, I2. unfold rtt_update. destruct (Ic w1) as [J1 J2].
      destruct (clk w1) as [w2 b]. cbn [fst snd] in J1, J2. intros _ _ _. cbn. rewrite since_self. subst a b.
      split; [lia|]. split; [reflexivity|]. right. split; [eexists; reflexivity|]. split; [congruence|]. split; [exact I2|]. now rewrite I2.
    - destruct s as [s|]; [|cbn [r_w r_reqs r_est]; auto with zarith]. assert (X := fw_drop Fw s w). cbn [r_w r_reqs r_est]; auto.
    - cbn [forward_op] in Fo. cbn [r_w r_reqs r_est]. auto.
  Qed.

  Lemma bigM_ok : 1 <= bigM <= bpow radix2 64 + bpow radix2 33.
  Proof. unfold bigM. cbn [bpow]. cbn. lra. Qed.
  Lemma decay_pos : 0 < B2R decay.
  Proof. lra. Qed.
  Notation K := (8 * u53).
  Lemma pow_c n : 1 <= (1 + c) ^ n.
  Proof. apply pow_R1_Rle. assert (X := c_pos). lra. Qed.
  Lemma pow_d n : 0 <= (1 - c) ^ n <= 1.
  Proof.
    assert (X := c_pos). assert (c < 1) by (unfold c, u53; lra). induction n as [|n IH]; cbn [pow]; [lra|].
    split; [apply Rmult_le_pos; lra|]. apply Rle_trans with (1 * 1); [|lra]. apply Rmult_le_compat; lra.
  Qed.

  Lemma fade_run l : forall (z : rsys) h1 m ok w2 h2, bounded bigM (rtt_ns (r_est z)) -> Forall (@quiet W Req Resp Err) h1 ->
    Forall (forward_op time) l -> (update_at (r_est z) <= time (r_w z))%Z -> (time w2 - update_at (r_est z) <= u64_max)%Z ->
    rrun z l = h1 ++ (LLoad, LoLoad (m, ok), w2) :: h2 ->
    let n := S (looks h1) in let A := IZR (time w2 - update_at (r_est z)) / B2R decay in let e0 := B2R (rtt_ns (r_est z)) in
    (update_at (r_est z) <= time w2)%Z /\
    exists x, bounded bigM x /\ m = mul64 x (f64_of (Z.of_nat (S (open z)) mod u32_mod) 0) /\
      e0 * exp (- (A * (1 + K))) * (1 - c) ^ n - INR n * del <= B2R x <= (e0 * exp (- (A * (1 - K))) + INR n * del) * (1 + c) ^ n.
  Proof.
    assert (HM := bigM_ok). assert (Dp := decay_pos). assert (Cp := c_pos). assert (Lp := del_pos).
    assert (C1 : c < 1) by (unfold c, u53; lra). assert (U := u_pos). assert (U1 : u53 <= / 1000) by (unfold u53; lra).
    assert (Di : 0 < / B2R decay) by (apply Rinv_0_lt_compat; exact Dp).
    induction l as [|o l IH]; intros z h1 m ok w2 h2 HI HQ HF HU HT E; cbn [rsys_run] in E; [destruct h1; discriminate|].
    inversion HF as [|? ? Fo HF']; subst. assert (Hq := @quiet_step2 o z Fo). destruct (rstep o z) as [z1 b] eqn:Es.
    assert (Hb : b <> LoPanic /\ b <> LoDiverge).
    { destruct h1 as [|e h1]; [injection E as _ -> _ _; split; discriminate|]. injection E as _ E.
      destruct b; split; try discriminate; destruct h1; discriminate. }
    destruct Hb as [B1 B2].
    assert (Hq1 : quiet (o, b, r_w z1)).
    { destruct h1 as [|e h1]; [injection E as -> -> _ _; exact I|]. injection E as <- E. inversion HQ; assumption. }
    destruct (Hq B1 B2 Hq1) as (Ht & Hr & He). clear Hq.
    assert (Z0 : B2R (nanos 0) = 0) by (vm_compute; reflexivity).
    destruct h1 as [|e h1].
    - (* the last look *)
      injection E as -> Eb Ew E. subst b. destruct He as [[_ []]|(_ & T1 & T2 & T3)]. cbn [looks List.filter length].
      assert (Et : time w2 = time (r_w z)) by (rewrite <- Ew; exact T1). split; [lia|]. rewrite Et in *.
      exists (rtt_ns (r_est z1)). split; [|split].
      + rewrite T3. apply rtt_next_bounded; auto; [lia|]. rewrite Z0. lra.
      + cbn [rsys_step] in Es. destruct (r_svc z); [|discriminate]. unfold pe_rload in Es.
        destruct (rtt_decay clk exp64 decay (r_est z) (r_w z)) as [e1 w3]. injection Es as Ez Em Eo. subst z1 m. reflexivity.
      + rewrite T3. assert (S := @fade_step exp64 decay Hexp Hnear Rdecay (rtt_ns (r_est z)) (update_at (r_est z)) (time (r_w z)) (proj1 HI) (M_range (proj2 HM) HI) HU HT).
        cbv zeta in S. cbn [INR pow]. rewrite Rmult_1_l, !Rmult_1_r. split; [apply S|].
        apply (Rle_trans _ _ _ (proj2 S)). assert (0 <= del * c) by (apply Rmult_le_pos; lra). lra.
    - cbn in E. injection E as Ee E. subst e.
      assert (E' : rrun z1 l = h1 ++ (LLoad, LoLoad (m, ok), w2) :: h2)
        by (destruct b; try exact E; destruct h1; discriminate).
      inversion HQ as [|? ? _ HQ']; subst.
      destruct He as [[Ee Hnl]|((mm & Eb) & T1 & T2 & T3)].
      + (* nothing *)
        assert (El : looks ((o, b, r_w z1) :: h1) = looks h1) by (unfold looks; destruct b; cbn in Hnl |- *; try reflexivity; destruct Hnl).
        rewrite El. rewrite <- Ee in HI, HU, HT |- *.
        destruct (IH z1 h1 m ok w2 h2 HI HQ' HF' ltac:(lia) HT E') as (Y0 & x & X1 & X2 & X3).
        split; [exact Y0|]. exists x. split; [exact X1|]. split; [|exact X3]. unfold open in *. now rewrite Hr in X2.
      + (* a look *)
        assert (El : looks ((o, b, r_w z1) :: h1) = S (looks h1)) by (subst b; reflexivity). rewrite El.
        assert (HI1 : bounded bigM (rtt_ns (r_est z1))).
        { rewrite T3. apply rtt_next_bounded; auto; [lia|]. rewrite Z0. lra. }
        destruct (IH z1 h1 m ok w2 h2 HI1 HQ' HF' ltac:(lia) ltac:(lia) E') as (Y0 & x & X1 & X2 & X3).
        split; [lia|]. exists x. split; [exact X1|]. split; [unfold open in *; now rewrite Hr in X2|].
        rewrite T2 in X3, Y0.
        assert (Sp := @fade_step exp64 decay Hexp Hnear Rdecay (rtt_ns (r_est z)) (update_at (r_est z)) (time (r_w z)) (proj1 HI) (M_range (proj2 HM) HI) HU ltac:(lia)).
        cbv zeta in Sp. rewrite <- T3 in Sp. set (e1 := B2R (rtt_ns (r_est z1))) in *. set (e0 := B2R (rtt_ns (r_est z))) in *.
        assert (E0 : 0 <= e0) by apply HI. assert (E10 : 0 <= e1) by apply HI1.
        set (n := S (looks h1)) in *.
        set (a1 := IZR (time (r_w z) - update_at (r_est z)) / B2R decay) in *.
        set (a2 := IZR (time w2 - time (r_w z)) / B2R decay) in *.
        assert (EA : IZR (time w2 - update_at (r_est z)) / B2R decay = a1 + a2).
        { unfold a1, a2, Rdiv. rewrite <- Rmult_plus_distr_r, <- plus_IZR. do 2 f_equal. lia. }
        rewrite EA. assert (A2 : 0 <= a2) by (apply Rmult_le_pos; [apply IZR_le; lia|lra]).
        replace (- ((a1 + a2) * (1 + K))) with (- (a1 * (1 + K)) + - (a2 * (1 + K))) by ring.
        replace (- ((a1 + a2) * (1 - K))) with (- (a1 * (1 - K)) + - (a2 * (1 - K))) by ring. rewrite !exp_plus.
        set (g1 := exp (- (a1 * (1 + K)))) in *. set (g2 := exp (- (a2 * (1 + K)))) in *.
        set (f1 := exp (- (a1 * (1 - K)))) in *. set (f2 := exp (- (a2 * (1 - K)))) in *.
        assert (G1 : 0 < g1) by apply exp_pos. assert (F1 : 0 < f1) by apply exp_pos.
        assert (G2 : 0 < g2 <= 1) by (split; [apply exp_pos|apply exp_le1; assert (0 <= a2 * (1 + K)) by (apply Rmult_le_pos; lra); lra]).
        assert (F2 : 0 < f2 <= 1) by (split; [apply exp_pos|apply exp_le1; assert (0 <= a2 * (1 - K)) by (apply Rmult_le_pos; lra); lra]).
        assert (P1 := pow_c n). assert (P2 := pow_d n). rewrite (S_INR n). cbn [pow].
        assert (N0 : 0 <= INR n) by apply pos_INR.
        set (P := (1 + c) ^ n) in *. set (Q := (1 - c) ^ n) in *. set (N := INR n) in *.
        split.
        * apply Rle_trans with (e1 * g2 * Q - N * del); [|apply X3].
          assert (X : (e0 * g1 * (1 - c) - del) * (g2 * Q) <= e1 * (g2 * Q)) by (apply Rmult_le_compat_r; [apply Rmult_le_pos; lra|apply Sp]).
          assert (Y : del * (g2 * Q) <= del * 1).
          { apply Rmult_le_compat_l; [lra|]. replace 1 with (1 * 1) by ring. apply Rmult_le_compat; lra. }
          replace ((e0 * g1 * (1 - c) - del) * (g2 * Q)) with (e0 * (g1 * g2) * ((1 - c) * Q) - del * (g2 * Q)) in X by ring. lra.
        * apply Rle_trans with ((e1 * f2 + N * del) * P); [apply X3|].
          assert (X : e1 * f2 <= (e0 * f1 * (1 + c) + del) * f2) by (apply Rmult_le_compat_r; [lra|apply Sp]).
          assert (Y : del * f2 <= del * 1) by (apply Rmult_le_compat_l; lra).
          apply Rle_trans with ((e0 * (f1 * f2) + (N + 1) * del) * (1 + c) * P); [|right; ring].
          apply Rmult_le_compat_r; [lra|].
          assert (0 <= (N + 1) * del * c) by (repeat apply Rmult_le_pos; lra).
          replace ((e0 * f1 * (1 + c) + del) * f2) with (e0 * (f1 * f2) * (1 + c) + del * f2) in X by ring.
          replace ((e0 * (f1 * f2) + (N + 1) * del) * (1 + c)) with (e0 * (f1 * f2) * (1 + c) + (N * del + del) + (N + 1) * del * c) by ring. lra.
  Qed.

  (** From loads to loads. *)
  Lemma to_loads e x k n g f m1 m2 : 0 <= e -> 0 <= x -> 0 <= k <= bpow radix2 32 -> 0 <= g <= 1 -> 0 <= f <= 1 -> (1 <= n)%nat ->
    e * g * (1 - c) ^ n - INR n * del <= x <= (e * f + INR n * del) * (1 + c) ^ n ->
    m1 = rnd (e * k) -> m2 = rnd (x * k) ->
    m1 * g * (1 - K) ^ n - INR n * bpow radix2 (-960) <= m2 <= (m1 * f + INR n * bpow radix2 (-960)) * (1 + K) ^ n.
  Proof.
    intros He Hx Hk Hg Hf Hn [Lo Hi] E1 E2. assert (Cp := c_pos). assert (Lp := del_pos). assert (Hp := h_pos).
    assert (C1 : c < 1) by (unfold c, u53; lra). assert (U := u_pos). assert (U1 : u53 <= / 1000) by (unfold u53; lra).
    assert (Uq : u53 * u53 <= u53 * / 1000) by (apply Rmult_le_compat_l; lra). assert (Uq0 : 0 <= u53 * u53) by (apply Rmult_le_pos; lra).
    assert (Uc0 : 0 <= u53 * u53 * u53) by (repeat apply Rmult_le_pos; lra).
    assert (Uc : u53 * u53 * u53 <= u53 * u53 * / 1000) by (apply Rmult_le_compat_l; lra).
    set (N := INR n) in *. assert (N1 : 1 <= N) by (unfold N; apply (le_INR 1); exact Hn).
    assert (ek : 0 <= e * k) by (apply Rmult_le_pos; lra). assert (xk : 0 <= x * k) by (apply Rmult_le_pos; lra).
    assert (R1 := rnd_err ek). rewrite <- E1 in R1. assert (R2 := rnd_err xk). rewrite <- E2 in R2.
    assert (M1 : 0 <= m1) by (rewrite E1; apply rnd_nonneg; exact ek).
    set (eta := bpow radix2 (-960)) in *.
    assert (Et : 10 * (del * bpow radix2 32) + 10 * h <= eta /\ 0 < eta).
    { unfold eta, del, h. replace (bpow radix2 (-960)) with (bpow radix2 114 * bpow radix2 (-1074)) by (rewrite <- bpow_plus; reflexivity).
      replace (bpow radix2 (-1000)) with (bpow radix2 74 * bpow radix2 (-1074)) by (rewrite <- bpow_plus; reflexivity).
      assert (P := bpow_gt_0 radix2 (-1074)). change (bpow radix2 74) with 18889465931478580854784. change (bpow radix2 32) with 4294967296.
      change (bpow radix2 114) with 20769187434139310514121985316880384. lra. }
    destruct Et as [Et Ep].
    assert (DK : del * k <= del * bpow radix2 32) by (apply Rmult_le_compat_l; lra). assert (DK0 : 0 <= del * k) by (apply Rmult_le_pos; lra).
    (* (1 + c)^(n+1) <= (1 + K)^n *)
    assert (Cs : (1 + c) * (1 + c) <= 1 + K).
    { unfold c. replace ((1 + 7 / 2 * u53) * (1 + 7 / 2 * u53)) with (1 + 7 * u53 + 49 / 4 * (u53 * u53)) by field. lra. }
    assert (Ds : 1 - K <= (1 - c) * (1 - c)).
    { unfold c. replace ((1 - 7 / 2 * u53) * (1 - 7 / 2 * u53)) with (1 - 7 * u53 + 49 / 4 * (u53 * u53)) by field. lra. }
    assert (PU : (1 + c) * (1 + c) ^ n <= (1 + K) ^ n).
    { destruct n as [|n]; [lia|]. cbn [pow]. rewrite <- Rmult_assoc. apply Rmult_le_compat; [apply Rmult_le_pos; lra|apply pow_le; lra|lra|].
      apply pow_incr. unfold c. lra. }
    assert (PL : (1 - K) ^ n <= (1 - c) * (1 - c) ^ n /\ 0 <= (1 - K) ^ n).
    { split; [|apply pow_le; lra]. destruct n as [|n]; [lia|]. cbn [pow]. rewrite <- Rmult_assoc. apply Rmult_le_compat; [lra|apply pow_le; lra|lra|].
      apply pow_incr. unfold c. lra. }
    assert (P1 := pow_c n). assert (P2 := pow_d n). set (P := (1 + c) ^ n) in *. set (Q := (1 - c) ^ n) in *.
    split.
    - (* lower *)
      assert (A1 : m1 * (1 - u53) <= e * k + h).
      { assert (e * k * (1 + u53) * (1 - u53) <= e * k).
        { replace (e * k * (1 + u53) * (1 - u53)) with (e * k - e * k * (u53 * u53)) by ring. assert (0 <= e * k * (u53 * u53)) by (apply Rmult_le_pos; lra). lra. }
        assert (m1 * (1 - u53) <= (e * k * (1 + u53) + h) * (1 - u53)) by (apply Rmult_le_compat_r; lra).
        assert (0 <= h * u53) by (apply Rmult_le_pos; lra). lra. }
      assert (A2 : (e * g * Q - N * del) * k <= x * k) by (apply Rmult_le_compat_r; lra).
      assert (A3 : (e * g * Q - N * del) * k * (1 - u53) <= x * k * (1 - u53)) by (apply Rmult_le_compat_r; lra).
      assert (GQ : 0 <= g * Q <= 1).
      { split; [apply Rmult_le_pos; lra|]. replace 1 with (1 * 1) by ring. apply Rmult_le_compat; lra. }
      assert (A4 : (m1 * (1 - u53) - h) * (g * Q) <= e * k * (g * Q)) by (apply Rmult_le_compat_r; lra).
      assert (A5 : (m1 * (1 - u53) - h) * (g * Q) * (1 - u53) <= e * k * (g * Q) * (1 - u53)) by (apply Rmult_le_compat_r; lra).
      assert (A6 : h * (g * Q) * (1 - u53) <= h * 1 * 1).
      { apply Rmult_le_compat; try lra; [apply Rmult_le_pos; lra|]. apply Rmult_le_compat_l; lra. }
      assert (A7 : m1 * g * (1 - K) ^ n <= m1 * g * ((1 - u53) * (1 - u53) * Q)).
      { apply Rmult_le_compat_l; [apply Rmult_le_pos; lra|]. apply (Rle_trans _ _ _ (proj1 PL)). apply Rmult_le_compat_r; [lra|].
        unfold c. replace ((1 - u53) * (1 - u53)) with (1 - 2 * u53 + u53 * u53) by ring. lra. }
      assert (A8 : N * del * k * (1 - u53) <= N * (del * bpow radix2 32)).
      { apply Rle_trans with (N * (del * k) * 1); [|rewrite Rmult_1_r; apply Rmult_le_compat_l; lra].
        rewrite Rmult_assoc with (r1 := N). apply Rmult_le_compat_l; [apply Rmult_le_pos; lra|lra]. }
      assert (A9 : 1 * h <= N * h) by (apply Rmult_le_compat_r; lra).
      assert (B0 : N * (10 * (del * bpow radix2 32) + 10 * h) <= N * eta) by (apply Rmult_le_compat_l; lra).
      assert (B1 : 0 <= N * (del * bpow radix2 32)) by (apply Rmult_le_pos; lra).
      replace ((e * g * Q - N * del) * k * (1 - u53)) with (e * k * (g * Q) * (1 - u53) - N * del * k * (1 - u53)) in A3 by ring.
      replace ((m1 * (1 - u53) - h) * (g * Q) * (1 - u53)) with (m1 * g * ((1 - u53) * (1 - u53) * Q) - h * (g * Q) * (1 - u53)) in A5 by ring.
      rewrite Rmult_plus_distr_l in B0. lra.
    - (* upper *)
      assert (A1 : e * k <= (m1 + h) * (1 + 2 * u53)).
      { assert (e * k * (1 - u53) * (1 + 2 * u53) <= (m1 + h) * (1 + 2 * u53)) by (apply Rmult_le_compat_r; lra).
        assert (e * k * 1 <= e * k * ((1 - u53) * (1 + 2 * u53))).
        { apply Rmult_le_compat_l; [exact ek|]. replace ((1 - u53) * (1 + 2 * u53)) with (1 + u53 - 2 * (u53 * u53)) by ring. lra. }
        rewrite <- Rmult_assoc in H0. lra. }
      assert (A2 : x * k <= (e * f + N * del) * P * k) by (apply Rmult_le_compat_r; lra).
      assert (A3 : x * k * (1 + u53) <= (e * f + N * del) * P * k * (1 + u53)) by (apply Rmult_le_compat_r; lra).
      assert (B1 : e * k * f <= (m1 + h) * (1 + 2 * u53) * f) by (apply Rmult_le_compat_r; lra).
      assert (B2 : (e * f + N * del) * k * (1 + u53) <= (m1 * f + N * eta) * (1 + c) - h).
      { replace ((e * f + N * del) * k * (1 + u53)) with (e * k * f * (1 + u53) + N * (del * k) * (1 + u53)) by ring.
        assert (X : e * k * f * (1 + u53) <= (m1 + h) * (1 + 2 * u53) * f * (1 + u53)) by (apply Rmult_le_compat_r; lra).
        assert (Y : h * ((1 + 2 * u53) * f * (1 + u53)) <= h * 2).
        { apply Rmult_le_compat_l; [lra|]. apply Rle_trans with ((1 + 2 * u53) * 1 * (1 + u53)).
          - apply Rmult_le_compat_r; [lra|]. apply Rmult_le_compat_l; lra.
          - replace ((1 + 2 * u53) * 1 * (1 + u53)) with (1 + 3 * u53 + 2 * (u53 * u53)) by ring. lra. }
        assert (mf : 0 <= m1 * f) by (apply Rmult_le_pos; lra).
        assert (V : m1 * f * ((1 + 2 * u53) * (1 + u53)) <= m1 * f * (1 + c)).
        { apply Rmult_le_compat_l; [exact mf|]. unfold c. replace ((1 + 2 * u53) * (1 + u53)) with (1 + 3 * u53 + 2 * (u53 * u53)) by ring. lra. }
        replace ((m1 + h) * (1 + 2 * u53) * f * (1 + u53)) with (m1 * f * ((1 + 2 * u53) * (1 + u53)) + h * ((1 + 2 * u53) * f * (1 + u53))) in X by ring.
        assert (T1 : N * (del * k) * (1 + u53) <= N * (del * bpow radix2 32) * 2).
        { apply Rmult_le_compat; try lra; [apply Rmult_le_pos; lra|]. apply Rmult_le_compat_l; lra. }
        assert (T2 : 1 * h <= N * h) by (apply Rmult_le_compat_r; lra).
        assert (T3 : N * (10 * (del * bpow radix2 32) + 10 * h) <= N * eta) by (apply Rmult_le_compat_l; lra).
        assert (T4 : 0 <= N * (del * bpow radix2 32)) by (apply Rmult_le_pos; lra).
        assert (T5 : 0 <= N * eta * c) by (repeat apply Rmult_le_pos; lra).
        rewrite Rmult_plus_distr_l in T3.
        replace ((m1 * f + N * eta) * (1 + c)) with (m1 * f * (1 + c) + N * eta + N * eta * c) by ring. lra. }
      apply Rle_trans with (x * k * (1 + u53) + h); [lra|].
      apply Rle_trans with ((m1 * f + N * eta) * ((1 + c) * P)).
      + assert (B3 : (e * f + N * del) * k * (1 + u53) * P <= ((m1 * f + N * eta) * (1 + c) - h) * P) by (apply Rmult_le_compat_r; lra).
        assert (B4 : h * 1 <= h * P) by (apply Rmult_le_compat_l; lra).
        replace ((e * f + N * del) * P * k * (1 + u53)) with ((e * f + N * del) * k * (1 + u53) * P) in A3 by ring.
        replace (((m1 * f + N * eta) * (1 + c) - h) * P) with ((m1 * f + N * eta) * ((1 + c) * P) - h * P) in B3 by ring. lra.
      + apply Rmult_le_compat_l; [|exact PU]. assert (0 <= m1 * f) by (apply Rmult_le_pos; lra). assert (0 <= N * eta) by (apply Rmult_le_pos; lra). lra.
  Qed.
End Top.
