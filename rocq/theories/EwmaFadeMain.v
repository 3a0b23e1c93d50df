(** Proofs for C90: the theorems. *)
From Coq Require Import Reals Lra.
From Flocq Require Import Core BinarySingleNaN Relative.
From Verif Require Import Base Middleware Float FloatProof BackoffProof EwmaReal Load LoadSpec LoadProof EwmaSpec EwmaProof EwmaTop EwmaFadeSpec EwmaFade EwmaFadeTop LoadDemo.
Set Implicit Arguments.
Local Open Scope R_scope.

Section Main.
  Context {W Req Resp Err : Type} (svc : Service W Req Resp Err) (keep : Resp -> W -> W * bool).
  Context (clk : W -> W * Z) (exp64 : f64 -> f64) (decay : f64) (default : Z) (time : W -> Z).
  Notation start := (pe_start clk).
  Notation finish := (pe_finish clk exp64 decay).
  Notation rsys := (rsys (C := rtt_est) (T := Z) svc).
  Notation rload := (pe_rload clk exp64 decay).
  Notation rstep := (rsys_step (svc := svc) start finish keep rload).
  Notation rrun := (rsys_run (svc := svc) start finish keep rload).
  Hypothesis Hexp : exp_ok exp64.
  Hypothesis Hnear : exp_near exp64.
  Hypothesis Fdecay : is_finite decay = true.
  Hypothesis Rdecay : 1 <= B2R decay <= bpow radix2 65.
  Hypothesis Fw : forward svc keep clk time.
  Hypothesis Ic : instant clk time.
  Notation K := (8 * u53).
  Notation age w1 w2 := (IZR (time w2 - time w1) / B2R decay).

  Lemma fade_after l : forall (z : rsys) h0 m1 ok1 w1 h1 m2 ok2 w2 h2, bounded bigM (rtt_ns (r_est z)) -> Forall (@quiet W Req Resp Err) h1 ->
    Forall (forward_op time) l -> (time w2 - time w1 <= u64_max)%Z ->
    rrun z l = h0 ++ (LLoad, LoLoad (m1, ok1), w1) :: h1 ++ (LLoad, LoLoad (m2, ok2), w2) :: h2 ->
    (time w1 <= time w2)%Z /\ 0 <= B2R m1 <= bpow radix2 97 /\ 0 <= B2R m2 /\
    let n := S (looks h1) in
    B2R m1 * exp (- (age w1 w2 * (1 + K))) * (1 - K) ^ n - INR n * bpow radix2 (-960) <= B2R m2 <=
    (B2R m1 * exp (- (age w1 w2 * (1 - K))) + INR n * bpow radix2 (-960)) * (1 + K) ^ n.
  Proof.
    assert (HM := bigM_ok). assert (Dp : 0 < B2R decay) by lra.
    induction l as [|o l IH]; intros z h0 m1 ok1 w1 h1 m2 ok2 w2 h2 HI HQ HF HT E; cbn [rsys_run] in E; [destruct h0; discriminate|].
    inversion HF as [|? ? Fo HF']; subst.
    assert (Hes := @est_step _ _ _ _ svc keep clk exp64 decay o z). assert (Hq := @quiet_step2 _ _ _ _ svc keep clk exp64 decay time Fw Ic o z Fo).
    destruct (rstep o z) as [z1 b] eqn:Es.
    assert (HI1 : b <> LoPanic -> b <> LoDiverge -> bounded bigM (rtt_ns (r_est z1))).
    { intros B1 B2. destruct (Hes B1 B2) as [X|X (now & Y)|a X X0 (now & Y)].
      - now rewrite X.
      - rewrite Y. apply rtt_next_bounded; auto; [lia|]. apply nanos_ok. lia.
      - rewrite Y. apply rtt_next_bounded; auto. apply nanos_ok. exact X0. }
    destruct h0 as [|e h0].
    - cbn in E. injection E as -> Eb Ew E. subst b. specialize (HI1 ltac:(discriminate) ltac:(discriminate)).
      destruct (Hq ltac:(discriminate) ltac:(discriminate) I) as (Ht & Hr & [[_ []]|(_ & T1 & T2 & T3)]).
      assert (Et : update_at (r_est z1) = time w1) by (rewrite <- Ew; congruence).
      assert (Em : m1 = mul64 (rtt_ns (r_est z1)) (f64_of (Z.of_nat (S (open z)) mod u32_mod) 0)).
      { cbn [rsys_step] in Es. destruct (r_svc z); [|discriminate]. unfold pe_rload in Es.
        destruct (rtt_decay clk exp64 decay (r_est z) (r_w z)) as [e1 w3]. injection Es as Ez Em Eo. subst z1 m1. reflexivity. }
      destruct (@fade_run _ _ _ _ svc keep clk exp64 decay time Hexp Hnear Fdecay Rdecay Fw Ic l z1 h1 m2 ok2 w2 h2 HI1 HQ HF') as (Y0 & x & X1 & X2 & X3);
        [rewrite Et, <- Ew; lia | rewrite Et; exact HT | exact E |].
      assert (Eo : open z1 = open z) by (unfold open; now rewrite Hr). rewrite Eo in X2. rewrite Et in X3, Y0. split; [exact Y0|].
      pose (q := (Z.of_nat (S (open z)) mod u32_mod)%Z). assert (Hk : (0 <= q < u32_mod)%Z) by (apply Z.mod_pos_bound; reflexivity).
      fold q in X2, Em. assert (Rx := M_range (proj2 HM) X1). assert (Re := M_range (proj2 HM) HI1).
      destruct (mul_load x (proj1 X1) Rx Hk) as [E2 _]. destruct (mul_load (rtt_ns (r_est z1)) (proj1 HI1) Re Hk) as [E1 _].
      assert (K0 : 0 <= IZR q <= bpow radix2 32).
      { split; [apply IZR_le; lia|]. change (bpow radix2 32) with (IZR (2 ^ 32)). apply IZR_le. unfold u32_mod in Hk. lia. }
      rewrite <- Em in E1. rewrite <- X2 in E2.
      assert (A0 : 0 <= age w1 w2) by (apply Rmult_le_pos; [apply IZR_le; lia|left; apply Rinv_0_lt_compat; exact Dp]).
      assert (U := u_pos). assert (U1 : u53 <= / 1000) by (unfold u53; lra).
      split; [|split].
      + rewrite E1. split; [apply rnd_nonneg; apply Rmult_le_pos; lra|]. apply rnd_pow; [lia|lia|]. change 97%Z with (65 + 32)%Z. rewrite bpow_plus.
        apply Rmult_le_compat; lra.
      + rewrite E2. apply rnd_nonneg. apply Rmult_le_pos; lra.
      + cbv zeta. apply to_loads with (e := B2R (rtt_ns (r_est z1))) (x := B2R x) (k := IZR q); auto; try lra; try lia.
        * split; [left; apply exp_pos|]. apply exp_le1. assert (0 <= age w1 w2 * (1 + K)) by (apply Rmult_le_pos; lra). lra.
        * split; [left; apply exp_pos|]. apply exp_le1. assert (0 <= age w1 w2 * (1 - K)) by (apply Rmult_le_pos; lra). lra.
    - cbn in E. injection E as Ee E. subst e.
      assert (Hb : b <> LoPanic /\ b <> LoDiverge) by (destruct b; split; try discriminate; destruct h0; discriminate).
      assert (E' : rrun z1 l = h0 ++ (LLoad, LoLoad (m1, ok1), w1) :: h1 ++ (LLoad, LoLoad (m2, ok2), w2) :: h2)
        by (destruct b; try exact E; destruct h0; discriminate).
      destruct Hb as [B1 B2]. eapply IH; [apply HI1; assumption|exact HQ|exact HF'|exact HT|exact E'].
  Qed.

  Lemma K_eq : bpow radix2 (-50) = K.
  Proof. unfold u53. cbn. lra. Qed.
  Lemma start_bounded s w : (0 <= default)%Z -> bounded bigM (rtt_ns (r_est (pe_rstart svc clk decay default s w))).
  Proof.
    intros Hd. rewrite pe_start_est. destruct (nanos_ok Hd) as (F & R & _). split; [exact F|]. fold bigM in R. assert (U := u_pos).
    assert (1 <= bigM) by (unfold bigM; cbn; lra).
    split; [lra|]. apply Rle_trans with (bigM * 1); [lra|apply Rmult_le_compat_l; lra].
  Qed.

  Lemma pe_load_fades s w l h0 m1 ok1 w1 h1 m2 ok2 w2 h2 : (0 <= default)%Z ->
    pe_history svc keep clk exp64 decay default s w l = h0 ++ (LLoad, LoLoad (m1, ok1), w1) :: h1 ++ (LLoad, LoLoad (m2, ok2), w2) :: h2 ->
    Forall (forward_op time) l -> Forall (@quiet W Req Resp Err) h1 -> (time w2 - time w1 <= u64_max)%Z ->
    let n := S (looks h1) in let eps := bpow radix2 (-50) in let tiny := bpow radix2 (-960) in
    B2R m1 * exp (- age w1 w2 * (1 + eps)) * (1 - eps) ^ n - INR n * tiny <= B2R m2 <=
    (B2R m1 * exp (- age w1 w2 * (1 - eps)) + INR n * tiny) * (1 + eps) ^ n.
  Proof.
    intros Hd. rewrite pe_refines. intros E HF HQ HT. cbv zeta. rewrite K_eq.
    destruct (@fade_after l _ h0 m1 ok1 w1 h1 m2 ok2 w2 h2 (start_bounded s w Hd) HQ HF HT E) as (_ & _ & _ & X). cbv zeta in X.
    rewrite !Ropp_mult_distr_l in X. exact X.
  Qed.

  (** A hundred decay times. *)
  Lemma exp_100 : exp (- 100 * (1 - bpow radix2 (-50))) <= bpow radix2 (-99).
  Proof.
    assert (B : bpow radix2 (-50) <= / 100) by (cbn; lra). assert (B0 := bpow_gt_0 radix2 (-50)).
    apply Rle_trans with (exp (- INR 99)).
    { apply exp_le. rewrite INR_IZR_INZ. cbn [Z.of_nat Pos.of_succ_nat Pos.succ]. lra. }
    rewrite exp_Ropp. change (-99)%Z with (- (99))%Z. rewrite bpow_opp. apply Rinv_le; [apply bpow_gt_0|].
    assert (E : forall n, 2 ^ n <= exp (INR n)).
    { induction n as [|n IHn]; [cbn; rewrite exp_0; lra|]. rewrite S_INR, exp_plus. cbn [pow]. rewrite Rmult_comm.
      assert (X := @exp_ineq1 1 ltac:(lra)). assert (0 <= 2 ^ n) by (apply pow_le; lra).
      apply Rmult_le_compat; lra. }
    specialize (E 99%nat). replace (bpow radix2 99) with (2 ^ 99); [exact E|]. rewrite bpow_powerRZ. rewrite <- (Z2Nat.id 99) by lia.
    rewrite <- pow_powerRZ. change (IZR radix2) with 2. f_equal.
  Qed.
  Lemma pow_below n : INR n <= bpow radix2 40 -> (1 + K) ^ n <= 2.
  Proof.
    intros Hn. assert (U := u_pos).
    assert (X : (1 + K) ^ n <= exp (INR n * K)).
    { clear Hn. induction n as [|n IHn]; [cbn; rewrite Rmult_0_l, exp_0; lra|]. rewrite S_INR, Rmult_plus_distr_r, exp_plus. cbn [pow]. rewrite Rmult_comm.
      apply Rmult_le_compat; [apply pow_le; lra|lra|exact IHn|]. rewrite Rmult_1_l.
      destruct (Req_dec K 0) as [Z|Z]; [rewrite Z, exp_0; lra|]. left. apply exp_ineq1. exact Z. }
    apply (Rle_trans _ _ _ X).
    assert (Y : INR n * K <= / 1000).
    { apply Rle_trans with (bpow radix2 40 * K); [apply Rmult_le_compat_r; lra|]. unfold u53. cbn. lra. }
    (* exp y <= 1 / (1 - y) *)
    set (y := INR n * K) in *. assert (Y0 : 0 <= y) by (apply Rmult_le_pos; [apply pos_INR|lra]).
    destruct (Req_dec y 0) as [->|Ny]; [rewrite exp_0; lra|].
    assert (V := @exp_ineq1 (- y) ltac:(lra)). rewrite exp_Ropp in V.
    assert (P := exp_pos y). assert (exp y * (1 - y) <= 1).
    { apply Rle_trans with (exp y * / exp y); [apply Rmult_le_compat_l; lra|]. rewrite Rinv_r; lra. }
    assert (exp y * (/ 2) <= exp y * (1 - y)) by (apply Rmult_le_compat_l; lra). lra.
  Qed.
  Lemma pe_second_chance s w l h0 m1 ok1 w1 h1 m2 ok2 w2 h2 : (0 <= default)%Z ->
    pe_history svc keep clk exp64 decay default s w l = h0 ++ (LLoad, LoLoad (m1, ok1), w1) :: h1 ++ (LLoad, LoLoad (m2, ok2), w2) :: h2 ->
    Forall (forward_op time) l -> Forall (@quiet W Req Resp Err) h1 -> (time w2 - time w1 <= u64_max)%Z ->
    100 * B2R decay <= IZR (time w2 - time w1) -> INR (S (looks h1)) <= bpow radix2 40 -> B2R m2 <= 1.
  Proof.
    intros Hd. rewrite pe_refines. intros E HF HQ HT HA HN.
    destruct (@fade_after l _ h0 m1 ok1 w1 h1 m2 ok2 w2 h2 (start_bounded s w Hd) HQ HF HT E) as (_ & M1 & _ & _ & X).
    set (n := S (looks h1)) in *. assert (U := u_pos).
    assert (Dp : 0 < B2R decay) by lra.
    assert (A : 100 <= age w1 w2).
    { apply Rmult_le_reg_r with (B2R decay); [exact Dp|]. unfold Rdiv. rewrite Rmult_assoc, Rinv_l, Rmult_1_r by lra. exact HA. }
    assert (X100 := exp_100). rewrite K_eq in X100.
    assert (F : exp (- (age w1 w2 * (1 - K))) <= bpow radix2 (-99)).
    { apply Rle_trans with (exp (- 100 * (1 - K))); [|exact X100]. apply exp_le.
      assert (100 * (1 - K) <= age w1 w2 * (1 - K)) by (apply Rmult_le_compat_r; [unfold u53; lra|exact A]). lra. }
    assert (P := pow_below _ HN). assert (P0 : 0 <= (1 + K) ^ n) by (apply pow_le; lra).
    apply (Rle_trans _ _ _ X).
    assert (F0 := exp_pos (- (age w1 w2 * (1 - K)))).
    assert (V : B2R m1 * exp (- (age w1 w2 * (1 - K))) <= / 4).
    { apply Rle_trans with (bpow radix2 97 * bpow radix2 (-99)); [apply Rmult_le_compat; lra|]. rewrite <- bpow_plus. change (97 + -99)%Z with (-2)%Z. cbn. lra. }
    assert (T : INR n * bpow radix2 (-960) <= / 4).
    { apply Rle_trans with (bpow radix2 40 * bpow radix2 (-960)); [apply Rmult_le_compat_r; [apply bpow_ge_0|exact HN]|]. rewrite <- bpow_plus.
      apply Rle_trans with (bpow radix2 (-2)); [apply bpow_le; lia|cbn; lra]. }
    apply Rle_trans with ((/ 4 + / 4) * 2); [|lra]. apply Rmult_le_compat; try lra.
    assert (0 <= B2R m1 * exp (- (age w1 w2 * (1 - K)))) by (apply Rmult_le_pos; lra).
    assert (0 <= INR n * bpow radix2 (-960)) by (apply Rmult_le_pos; [apply pos_INR|apply bpow_ge_0]). lra.
  Qed.
End Main.

(** There is such an exponential: the correctly rounded one. *)
Definition exp_rounded (x : f64) : f64 :=
  match x with
  | B754_infinity true => B754_zero false
  | _ => let r := rnd (exp (B2R x)) in
         binary_normalize 53 1024 prec64 emax64 mode_NE (Ztrunc (scaled_mantissa radix2 (SpecFloat.fexp 53 1024) r)) (cexp radix2 (SpecFloat.fexp 53 1024) r) false
  end.
Lemma exp_rounded_real x : is_finite x = true -> B2R x <= 0 -> is_finite (exp_rounded x) = true /\ B2R (exp_rounded x) = rnd (exp (B2R x)).
Proof.
  intros Fx Hx. set (r := rnd (exp (B2R x))).
  assert (E : exp_rounded x = binary_normalize 53 1024 prec64 emax64 mode_NE (Ztrunc (scaled_mantissa radix2 (SpecFloat.fexp 53 1024) r)) (cexp radix2 (SpecFloat.fexp 53 1024) r) false).
  { destruct x as [s|s| |s m e He]; try discriminate; reflexivity. }
  rewrite E. assert (C := binary_normalize_correct 53 1024 prec64 emax64 mode_NE (Ztrunc (scaled_mantissa radix2 (SpecFloat.fexp 53 1024) r)) (cexp radix2 (SpecFloat.fexp 53 1024) r) false).
  cbn [round_mode] in C. cbv zeta in C.
  assert (G : fmt r) by (apply generic_format_round; [apply fexp_correct; reflexivity|apply valid_rnd_N]).
  assert (Er : F2R (Float radix2 (Ztrunc (scaled_mantissa radix2 (SpecFloat.fexp 53 1024) r)) (cexp radix2 (SpecFloat.fexp 53 1024) r)) = r) by (symmetry; exact G).
  rewrite Er in C. rewrite (rnd_id G) in C.
  assert (R : 0 <= r <= 1).
  { unfold r. split; [apply rnd_nonneg; left; apply exp_pos|]. rewrite <- (rnd_id fmt_1). apply rnd_le. apply exp_le1. exact Hx. }
  assert (bpow radix2 0 < bpow radix2 1024) by (apply bpow_lt; lia). change (bpow radix2 0) with 1 in H.
  rewrite Rlt_bool_true in C by (rewrite Rabs_pos_eq by lra; lra). destruct C as (C1 & C2 & _). split; assumption.
Qed.
Lemma exp_rounded_ok : exp_ok exp_rounded.
Proof.
  intros x Hx. destruct x as [s|s| |s m e He]; cbn [nonpos] in Hx.
  - destruct (@exp_rounded_real (B754_zero s) eq_refl Hx) as [A B]. split; [exact A|]. rewrite B. split; [apply rnd_nonneg; left; apply exp_pos|].
    rewrite <- (rnd_id fmt_1). apply rnd_le. apply exp_le1. exact Hx.
  - subst s. cbn. split; [reflexivity|lra].
  - destruct Hx.
  - destruct (@exp_rounded_real (B754_finite s m e He) eq_refl Hx) as [A B]. split; [exact A|]. rewrite B. split; [apply rnd_nonneg; left; apply exp_pos|].
    rewrite <- (rnd_id fmt_1). apply rnd_le. apply exp_le1. exact Hx.
Qed.
Lemma exp_rounded_near : exp_near exp_rounded.
Proof.
  intros x Fx Hx. destruct (@exp_rounded_real x Fx Hx) as [_ ->]. assert (P := exp_pos (B2R x)). assert (R := rnd_err (Rlt_le _ _ P)).
  assert (Hp := h_pos). replace (bpow radix2 (-52)) with (2 * u53) by (unfold u53; cbn; lra).
  replace (bpow radix2 (-1074)) with (2 * h) by (unfold h; lra). assert (U := u_pos).
  assert (0 <= exp (B2R x) * u53) by (apply Rmult_le_pos; lra). apply Rabs_le. split; lra.
Qed.
Lemma not_near_one : ~ exp_near (fun _ => f_one).
Proof.
  intros H. destruct f_one_ok as [E _]. specialize (H (f64_of (-1) 0) eq_refl).
  assert (B : B2R (f64_of (-1) 0) = -1).
  { rewrite <- SF2R_B2SF. replace (B2SF (f64_of (-1) 0)) with (SpecFloat.S754_finite true 4503599627370496 (-52)) by (vm_compute; reflexivity).
    unfold SF2R, F2R. cbn. lra. }
  rewrite B, E in H. specialize (H ltac:(lra)). apply Rabs_le_inv in H.
  assert (X : exp (-1) <= / 2).
  { replace (-1) with (- (1)) by lra. rewrite exp_Ropp. apply Rinv_le; [lra|]. assert (V := @exp_ineq1 1 ltac:(lra)). lra. }
  assert (Y : bpow radix2 (-52) <= / 4) by (apply Rle_trans with (bpow radix2 (-2)); [apply bpow_le; lia|cbn; lra]).
  assert (Z : bpow radix2 (-1074) <= / 8) by (apply Rle_trans with (bpow radix2 (-3)); [apply bpow_le; lia|cbn; lra]).
  assert (P := exp_pos (-1)). assert (exp (-1) * bpow radix2 (-52) <= / 2 * / 4) by (apply Rmult_le_compat; try lra; apply bpow_ge_0). lra.
Qed.
Lemma decay_range d : (1 <= d <= u64_max)%Z -> 1 <= B2R (nanos d) <= bpow radix2 65.
Proof.
  intros Hd. destruct (@nanos_ok d ltac:(lia)) as (_ & R & Ri & Z & _). split.
  - destruct Ri as [E|E]; [apply Z in E; lia|exact E].
  - apply Rle_trans with (bpow radix2 64 + bpow radix2 33); [apply R|cbn; lra].
Qed.
Lemma decay_demo_range : 1 <= B2R (nanos (10 * LoadDemo.sec)) <= bpow radix2 65.
Proof. apply decay_range. split; vm_compute; discriminate. Qed.
Definition no_start {W Req} (o : lop W Req) : Prop := match o with LLoad | LEnv _ | LReady => True | _ => False end.
Lemma all_quiet_run {W Req Resp Err} (svc : Service W Req Resp Err) keep clk exp64 decay l : Forall (@no_start W Req) l ->
  forall z : rsys (C := rtt_est) (T := Z) svc,
  Forall (@quiet W Req Resp Err) (rsys_run (svc := svc) (pe_start clk) (pe_finish clk exp64 decay) keep (pe_rload clk exp64 decay) z l).
Proof.
  induction 1 as [|o l Ho _ IH]; intros z; [constructor|]. cbn [rsys_run]. destruct (rsys_step _ _ _ _ o z) as [z1 b]. constructor.
  - destruct o; cbn in Ho; try destruct Ho; exact I.
  - destruct b; try apply IH; constructor.
Qed.
