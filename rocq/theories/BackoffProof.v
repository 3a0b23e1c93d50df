(** Proofs on the backoff. *)
From Coq Require Import Reals Lra.
From Flocq Require Import Core BinarySingleNaN Relative.
From Verif Require Import Base Float FloatProof ReadyCache Backoff BackoffSpec.
Set Implicit Arguments.
Local Open Scope R_scope.

Notation rnd := (round radix2 (SpecFloat.fexp 53 1024) ZnearestE).
Notation fmt := (generic_format radix2 (SpecFloat.fexp 53 1024)).

Lemma big_gap : bpow radix2 128 < bpow radix2 1024.
Proof. apply bpow_lt. lia. Qed.
Lemma fmt_int m e : (Z.abs m <= 2 ^ 53)%Z -> (-1074 <= e)%Z -> fmt (F2R (Float radix2 m e)).
Proof.
  intros H He. change (SpecFloat.fexp 53 1024) with (FLT_exp (-1074) 53). destruct (Z.eq_dec (Z.abs m) (2 ^ 53)) as [E|E].
  - assert (X : F2R (Float radix2 m e) = F2R (Float radix2 (Z.sgn m) (e + 53))).
    { unfold F2R. cbn [Fnum Fexp]. rewrite bpow_plus. change (bpow radix2 53) with (IZR (2 ^ 53)). assert (Q := Z.abs_sgn m). rewrite E in Q. apply (f_equal IZR) in Q. rewrite mult_IZR in Q. rewrite <- Q. ring. }
    rewrite X. apply generic_format_FLT. exists (Float radix2 (Z.sgn m) (e + 53)); [reflexivity| |cbn; lia]. cbn [Fnum].
    destruct m; vm_compute; reflexivity.
  - apply generic_format_FLT. exists (Float radix2 m e); [reflexivity| |exact He]. cbn [Fnum].
    change (Zpower_nat radix2 53)%Z with (2 ^ 53)%Z. change (Zpower radix2 53) with (2 ^ 53)%Z. lia.
Qed.
Lemma fmt_b2r (x : f64) : fmt (B2R x).
Proof. apply generic_format_B2R. Qed.
Lemma rnd_id x : fmt x -> rnd x = x.
Proof. apply round_generic. apply valid_rnd_N. Qed.
Lemma rnd_le x y : x <= y -> rnd x <= rnd y.
Proof. apply round_le; [apply fexp_correct; reflexivity|apply valid_rnd_N]. Qed.
Lemma rnd_0 : rnd 0 = 0.
Proof. apply round_0. apply valid_rnd_N. Qed.
Lemma fmt_0 : fmt 0.
Proof. apply generic_format_0. Qed.
Lemma rnd_near x : bpow radix2 (-1022) <= x -> Rabs (rnd x - x) <= / 2 * bpow radix2 (-53 + 1) * x.
Proof.
  intros H. assert (P := bpow_gt_0 radix2 (-1022)). rewrite <- (Rabs_pos_eq x) at 3 by lra.
  change (SpecFloat.fexp 53 1024) with (FLT_exp (-1074) 53).
  apply (relative_error_N_FLT radix2 (-1074) 53 eq_refl (fun z => negb (Z.even z)) x). rewrite Rabs_pos_eq by lra. exact H.
Qed.
Definition u53 : R := / 9007199254740992.
Lemma u53_eq : / 2 * bpow radix2 (-53 + 1) = u53.
Proof. unfold u53. cbn. lra. Qed.
Lemma one_normal : bpow radix2 (-1022) <= / 2.
Proof. change (/ 2) with (bpow radix2 (-1)). apply bpow_le. lia. Qed.

(** Rounding never goes beyond this, for numbers that matter. *)
Lemma rnd_up x : 0 <= x -> 1 <= rnd x -> rnd x <= x * (1 + u53).
Proof.
  intros H0 H. destruct (Rlt_le_dec x (/ 2)) as [L|L].
  - exfalso. assert (rnd x <= rnd (/ 2)) by (apply rnd_le; lra). rewrite (@rnd_id (/ 2)) in H1; [lra|].
    change (/ 2) with (bpow radix2 (-1)). apply generic_format_bpow. vm_compute. discriminate.
  - assert (N := @rnd_near x ltac:(pose proof one_normal; lra)). rewrite u53_eq in N. apply Rabs_le_inv in N. lra.
Qed.

Lemma f64_int k : (0 <= k < 2 ^ 64)%Z -> B2R (f64_of k 0) = rnd (IZR k) /\ is_finite (f64_of k 0) = true.
Proof.
  intros H. assert (C := binary_normalize_correct 53 1024 prec64 emax64 mode_NE k 0 false). cbn [round_mode] in C. fold (f64_of k 0) in C.
  cbv zeta in C. assert (E : F2R (Float radix2 k 0) = IZR k) by (unfold F2R; cbn; ring). rewrite E in C.
  assert (Lo : 0 <= rnd (IZR k)) by (rewrite <- rnd_0 at 1; apply rnd_le; apply IZR_le; lia).
  assert (Hi : rnd (IZR k) <= bpow radix2 64).
  { rewrite <- (@rnd_id (bpow radix2 64)) by (apply generic_format_bpow; vm_compute; discriminate). apply rnd_le.
    change (bpow radix2 64) with (IZR (2 ^ 64)). apply IZR_le. lia. }
  assert (bpow radix2 64 < bpow radix2 1024) by (apply bpow_lt; lia).
  rewrite Rlt_bool_true in C by (rewrite Rabs_pos_eq by exact Lo; lra). tauto.
Qed.
Lemma rnd_int_bound k : (0 <= k)%Z -> 0 <= rnd (IZR k) <= IZR k * (1 + u53).
Proof.
  intros H. destruct (Z.eq_dec k 0) as [->|Ne]; [rewrite rnd_0; lra|].
  assert (1 <= IZR k) by (apply IZR_le; lia). assert (G : 1 <= rnd (IZR k)).
  { apply Rle_trans with (rnd 1); [rewrite rnd_id; [lra|]|apply rnd_le; lra]. change 1 with (bpow radix2 0). apply generic_format_bpow. vm_compute. discriminate. }
  split; [lra|]. apply rnd_up; lra.
Qed.

(** A product of small numbers that are not negative. *)
Lemma mul_pos (x y : f64) : is_finite x = true -> is_finite y = true -> 0 <= B2R x <= bpow radix2 65 -> 0 <= B2R y <= 100 ->
  B2R (mul64 x y) = rnd (B2R x * B2R y) /\ is_finite (mul64 x y) = true /\ 0 <= B2R (mul64 x y).
Proof.
  intros Fx Fy Hx Hy. assert (C := Bmult_correct 53 1024 prec64 emax64 mode_NE x y). cbn [round_mode] in C. fold (mul64 x y) in C.
  assert (P0 : 0 <= B2R x * B2R y) by (apply Rmult_le_pos; lra).
  assert (P1 : B2R x * B2R y <= bpow radix2 72).
  { apply Rle_trans with (bpow radix2 65 * 100); [apply Rmult_le_compat; lra|]. change 72%Z with (65 + 7)%Z. rewrite bpow_plus.
    apply Rmult_le_compat_l; [apply bpow_ge_0|]. cbn. lra. }
  assert (Lo : 0 <= rnd (B2R x * B2R y)) by (rewrite <- rnd_0 at 1; apply rnd_le; lra).
  assert (Hi : rnd (B2R x * B2R y) <= bpow radix2 72).
  { rewrite <- (@rnd_id (bpow radix2 72)) by (apply generic_format_bpow; vm_compute; discriminate). apply rnd_le. exact P1. }
  assert (bpow radix2 72 < bpow radix2 1024) by (apply bpow_lt; lia).
  rewrite Rlt_bool_true in C by (rewrite Rabs_pos_eq by exact Lo; lra). destruct C as (C1 & C2 & _). rewrite Fx, Fy in C2.
  split; [exact C1|]. split; [exact C2|lra].
Qed.

Lemma f64_real m e s m' e' : B2SF (f64_of m e) = SpecFloat.S754_finite s m' e' -> B2R (f64_of m e) = F2R (Float radix2 (cond_Zopp s (Zpos m')) e').
Proof. intros H. rewrite <- SF2R_B2SF, H. reflexivity. Qed.
Lemma zero64 : B2R (f64_of 0 0) = 0 /\ is_finite (f64_of 0 0) = true.
Proof. split; vm_compute; reflexivity. Qed.
Lemma hundred64 : B2R (f64_of 100 0) = 100 /\ is_finite (f64_of 100 0) = true.
Proof.
  split; [|vm_compute; reflexivity]. destruct (@f64_int 100 ltac:(lia)) as [-> _]. apply rnd_id.
  replace 100 with (F2R (Float radix2 100 0)) by (unfold F2R; cbn; ring). apply fmt_int; vm_compute; discriminate.
Qed.

(** The random factor. *)
Lemma next_f64_value v : (0 <= v < 2 ^ 64)%Z ->
  B2R (next_f64 v) = IZR (next_f64_num v) * bpow radix2 (-53) /\ is_finite (next_f64 v) = true /\ (0 <= next_f64_num v < 2 ^ 53)%Z.
Proof.
  intros H. unfold next_f64_num in *. rewrite Z.shiftr_div_pow2 by lia. change (2 ^ 11)%Z with 2048%Z.
  assert (K : (0 <= v / 2048 < 2 ^ 53)%Z).
  { split; [apply Z.div_pos; lia|]. apply Z.div_lt_upper_bound; [lia|]. change (2048 * 2 ^ 53)%Z with (2 ^ 64)%Z. lia. }
  unfold next_f64, next_f64_num. rewrite Z.shiftr_div_pow2 by lia. change (2 ^ 11)%Z with 2048%Z. set (k := (v / 2048)%Z) in *.
  set (scale := Bdiv mode_NE (f64_of 1 0) (f64_of (2 ^ 53) 0)).
  assert (S : B2R scale = bpow radix2 (-53) /\ is_finite scale = true).
  { split; [|vm_compute; reflexivity]. rewrite <- SF2R_B2SF.
    assert (E : B2SF scale = SpecFloat.S754_finite false 4503599627370496 (-105)) by (vm_compute; reflexivity). rewrite E.
    cbn [SF2R cond_Zopp]. unfold F2R. cbn [Fnum Fexp]. change 4503599627370496%Z with (2 ^ 52)%Z.
    change (IZR (2 ^ 52)) with (bpow radix2 52). rewrite <- bpow_plus. reflexivity. }
  destruct S as [S1 S2]. destruct (@f64_int k ltac:(lia)) as [I1 I2].
  assert (I3 : rnd (IZR k) = IZR k).
  { apply rnd_id. replace (IZR k) with (F2R (Float radix2 k 0)) by (unfold F2R; cbn; ring). apply fmt_int; lia. }
  rewrite I3 in I1.
  assert (Hk : 0 <= IZR k <= bpow radix2 53) by (split; [apply IZR_le; lia|change (bpow radix2 53) with (IZR (2 ^ 53)); apply IZR_le; lia]).
  assert (C := Bmult_correct 53 1024 prec64 emax64 mode_NE scale (f64_of k 0)). cbn [round_mode] in C. rewrite S1, I1, S2, I2 in C.
  assert (X : rnd (bpow radix2 (-53) * IZR k) = IZR k * bpow radix2 (-53)).
  { rewrite Rmult_comm. apply rnd_id. change (IZR k * bpow radix2 (-53)) with (F2R (Float radix2 k (-53))). apply fmt_int; lia. }
  rewrite X in C. assert (Y : 0 <= IZR k * bpow radix2 (-53) <= 1).
  { split; [apply Rmult_le_pos; [lra|apply bpow_ge_0]|]. apply Rle_trans with (bpow radix2 53 * bpow radix2 (-53)).
    - apply Rmult_le_compat_r; [apply bpow_ge_0|lra].
    - rewrite <- bpow_plus. cbn. lra. }
  assert (1 < bpow radix2 1024) by (change 1 with (bpow radix2 0); apply bpow_lt; lia).
  rewrite Rlt_bool_true in C by (rewrite Rabs_pos_eq by lra; lra). destruct C as (C1 & C2 & _). split; [exact C1|]. split; [exact C2|exact K].
Qed.
Lemma next_f64_range v : (0 <= v < 2 ^ 64)%Z -> is_finite (next_f64 v) = true /\ 0 <= B2R (next_f64 v) < 1.
Proof.
  intros H. destruct (next_f64_value H) as (E & F & K). split; [exact F|]. rewrite E. split.
  - apply Rmult_le_pos; [apply IZR_le; lia|apply bpow_ge_0].
  - apply Rlt_le_trans with (bpow radix2 53 * bpow radix2 (-53)).
    + apply Rmult_lt_compat_r; [apply bpow_gt_0|]. change (bpow radix2 53) with (IZR (2 ^ 53)). apply IZR_lt. lia.
    + rewrite <- bpow_plus. cbn. lra.
Qed.

(** Casts. *)
Lemma cast_pos hi (x : f64) : (0 <= hi)%Z -> is_finite x = true -> 0 <= B2R x ->
  cast 0 hi x = Z.min hi (Zfloor (B2R x)) /\ (0 <= Zfloor (B2R x))%Z.
Proof.
  intros Hh F P. assert (E := trunc_floor emax64 x P). assert (Q : (0 <= Zfloor (B2R x))%Z) by (apply Zfloor_lub; exact P).
  split; [|exact Q]. rewrite <- E in *. destruct x as [s|s| |s m e Hb]; try discriminate F; cbn [cast]; lia.
Qed.

Section Jit.
  Variables (j : f64) (v : Z).
  Hypothesis Fj : is_finite j = true.
  Hypothesis Hj : 0 <= B2R j <= 100.
  Hypothesis Hv : (0 <= v < 2 ^ 64)%Z.

  Lemma rand_bound : let rand := mul64 (next_f64 v) j in is_finite rand = true /\ 0 <= B2R rand <= B2R j /\
    (B2R j <= 1 -> B2R rand <= B2R (next_f64 v)).
  Proof.
    intros rand. destruct (next_f64_range Hv) as [Fn Hn].
    assert (1 <= bpow radix2 65) by (change 1 with (bpow radix2 0); apply bpow_le; lia).
    destruct (@mul_pos (next_f64 v) j Fn Fj ltac:(lra) Hj) as (E & F & P). fold rand in E, F, P.
    split; [exact F|]. split; [split; [exact P|]|].
    - rewrite E. rewrite <- (rnd_id (fmt_b2r j)) at 2. apply rnd_le. rewrite <- (Rmult_1_l (B2R j)) at 2. apply Rmult_le_compat_r; lra.
    - intros H1. rewrite E. rewrite <- (rnd_id (fmt_b2r (next_f64 v))) at 2. apply rnd_le. rewrite <- (Rmult_1_r (B2R (next_f64 v))) at 2. apply Rmult_le_compat_l; lra.
  Qed.

  (** One component of the duration. *)
  Lemma part_bound k hi : (0 <= k < 2 ^ 64)%Z -> (0 <= hi)%Z -> let x := mul64 (f64_of k 0) (mul64 (next_f64 v) j) in
    (0 <= cast 0 hi x <= hi)%Z /\ IZR (cast 0 hi x) <= IZR k * B2R j * ((1 + u53) * (1 + u53)) /\
    (B2R j <= 1 -> (k <= 2 ^ 53)%Z -> (cast 0 hi x <= k)%Z /\ (k = 1%Z -> cast 0 hi x = 0%Z)).
  Proof.
    intros Hk Hh x. destruct rand_bound as (Fr & Hr & Hr1). destruct (f64_int Hk) as [E1 E2].
    destruct (@rnd_int_bound k ltac:(lia)) as [B0 B1]. set (rand := mul64 (next_f64 v) j) in *.
    assert (B2 : 0 <= B2R (f64_of k 0) <= bpow radix2 65).
    { rewrite E1. split; [exact B0|]. rewrite <- (@rnd_id (bpow radix2 65)) by (apply generic_format_bpow; vm_compute; discriminate). apply rnd_le.
      change (bpow radix2 65) with (IZR (2 ^ 65)). apply IZR_le. lia. }
    destruct (@mul_pos (f64_of k 0) rand E2 Fr B2 ltac:(lra)) as (Ex & Fx & Px). fold x in Ex, Fx, Px.
    destruct (cast_pos x Hh Fx Px) as [Ec Hf]. rewrite Ec. assert (F1 := Zfloor_lb (B2R x)).
    assert (M0 : 0 <= IZR k) by (apply IZR_le; lia). assert (U : 0 < u53) by (unfold u53; lra).
    split; [lia|]. split.
    - apply Rle_trans with (IZR (Zfloor (B2R x))); [apply IZR_le; lia|].
      destruct (Z.eq_dec (Zfloor (B2R x)) 0) as [->|Ne].
      { apply Rmult_le_pos; [apply Rmult_le_pos; lra|]. apply Rmult_le_pos; lra. }
      assert (1 <= IZR (Zfloor (B2R x))) by (apply IZR_le; lia).
      assert (P0 : 0 <= B2R (f64_of k 0) * B2R rand) by (apply Rmult_le_pos; lra).
      assert (X := @rnd_up _ P0 ltac:(lra)). rewrite <- Ex in X.
      apply Rle_trans with (B2R x); [exact F1|]. apply (Rle_trans _ _ _ X). rewrite E1.
      apply Rle_trans with (IZR k * (1 + u53) * B2R j * (1 + u53)); [|apply Req_le; ring].
      apply Rmult_le_compat_r; [lra|]. apply Rmult_le_compat; lra.
    - intros J1 K. specialize (Hr1 J1). assert (E3 : rnd (IZR k) = IZR k).
      { apply rnd_id. replace (IZR k) with (F2R (Float radix2 k 0)) by (unfold F2R; cbn; ring). apply fmt_int; lia. }
      rewrite E3 in E1. assert (X : B2R x <= IZR k).
      { rewrite Ex, E1. rewrite <- E3 at 2. apply rnd_le. rewrite <- (Rmult_1_r (IZR k)) at 2. apply Rmult_le_compat_l; lra. }
      split.
      + assert (Zfloor (B2R x) <= k)%Z; [|lia]. rewrite <- (Zfloor_IZR k). apply Zfloor_le. exact X.
      + intros ->. assert (Y : B2R x < 1).
        { rewrite Ex, E1, Rmult_1_l. rewrite (rnd_id (fmt_b2r rand)). destruct (next_f64_range Hv). lra. }
        assert (Zfloor (B2R x) = 0)%Z by (apply Zfloor_imp; change (IZR (0 + 1)) with 1; lra). lia.
  Qed.
End Jit.

Local Open Scope Z_scope.
Lemma pow2_spec n : 0 <= n -> pow2_sat n = Z.min (2 ^ n) (2 ^ 32 - 1).
Proof.
  intros H. unfold pow2_sat. destruct (Z.ltb_spec n 32) as [L|L].
  - assert (2 ^ n <= 2 ^ 31) by (apply Z.pow_le_mono_r; lia). lia.
  - assert (2 ^ 32 <= 2 ^ n) by (apply Z.pow_le_mono_r; lia). lia.
Qed.

Section Main.
  Context {W R : Type} (next_u64 : R -> M W (R * Z)) (debug : bool).

  Lemma new_exact min max j (rng : R) :
    (exists m, maker_new min max j rng = Ok m) <-> valid_backoff min max j.
  Proof.
    unfold valid_backoff, maker_new. destruct zero64 as [Z0 Z1]. destruct hundred64 as [H0 H1].
    destruct (Z.ltb_spec max min) as [A|A]; [split; [intros [m H]; discriminate H|lia]|].
    destruct (Z.eqb_spec max 0) as [B|B]; [split; [intros [m H]; discriminate H|lia]|].
    destruct (is_finite j) eqn:F.
    - rewrite (Bltb_correct _ _ _ _ F Z1), (Bltb_correct _ _ _ _ H1 F), Z0, H0.
      destruct (Rlt_bool_spec (B2R j) 0) as [C|C]; [split; [intros [m H]; discriminate H|intros (_ & _ & _ & H); lra]|].
      destruct (Rlt_bool_spec 100 (B2R j)) as [D|D]; [split; [intros [m H]; discriminate H|intros (_ & _ & _ & H); lra]|].
      cbn [negb]. split; [|eauto]. intros _. repeat split; auto; lra.
    - split; [|intros (_ & _ & H & _); discriminate H]. intros [m H]. cbn [negb] in H. destruct (Bltb j _); [discriminate H|]. destruct (Bltb _ j); discriminate H.
  Qed.
  Lemma new_contents min max j (rng : R) m : maker_new min max j rng = Ok m -> m = Maker (BoCfg min max j) rng.
  Proof. unfold maker_new. repeat match goal with |- context [if ?b then _ else _] => destruct b end; congruence. Qed.


  Lemma base_value (b : backoff (R := R)) : good (b_cfg b) -> 0 <= b_iter b -> bo_base debug b = Val (base_of (b_cfg b) (b_iter b)).
  Proof.
    intros (D1 & D2 & V1 & V2 & _) Hi. unfold bo_base, base_of, dur_mul. rewrite (pow2_spec Hi). unfold duration in *.
    destruct (Z.ltb_spec (bo_max (b_cfg b)) (bo_min (b_cfg b))); [lia|]. destruct (Z.ltb_spec 0 (bo_max (b_cfg b))); [|lia].
    rewrite !andb_false_r. f_equal. destruct (Z.leb_spec (bo_min (b_cfg b) * Z.min (2 ^ b_iter b) (2 ^ 32 - 1)) dur_max); lia.
  Qed.
  Lemma base_range c k : good c -> 0 <= k -> bo_min c <= base_of c k <= bo_max c.
  Proof.
    intros (D1 & D2 & V1 & V2 & _) Hk. unfold base_of, duration in *. assert (1 <= 2 ^ k) by (assert (2 ^ 0 <= 2 ^ k) by (apply Z.pow_le_mono_r; lia); lia). nia.
  Qed.
  Lemma base_mono c k k' : good c -> 0 <= k <= k' -> base_of c k <= base_of c k'.
  Proof.
    intros (D1 & D2 & V1 & V2 & _) Hk. unfold base_of, duration in *. assert (2 ^ k <= 2 ^ k') by (apply Z.pow_le_mono_r; lia). nia.
  Qed.

  (** What the random part may be. *)
  Lemma dur_split d : duration d -> 0 <= d / second < 2 ^ 64 /\ 0 <= d mod second < second /\ d = second * (d / second) + d mod second.
  Proof.
    intros H. unfold duration, dur_max in H. assert (S : 0 < second) by reflexivity.
    split; [split; [apply Z.div_pos; lia|apply Z.div_lt_upper_bound; lia]|]. split; [apply Z.mod_pos_bound; lia|apply Z.div_mod; lia].
  Qed.
  Definition slack : Rdefinitions.R := ((1 + u53) * (1 + u53))%R.

  Lemma jitter_bound c base v d : good c -> duration base -> 0 <= v < 2 ^ 64 -> jitter_of debug (bo_jitter c) (bo_max c) base v = Val d ->
    0 <= d <= bo_max c - base /\ (IZR d <= IZR base * B2R (bo_jitter c) * slack)%R.
  Proof.
    intros (D1 & D2 & V1 & V2 & V3 & V4) Db Hv E. unfold jitter_of in E. destruct (debug && _); [discriminate E|].
    destruct (Z.leb_spec base (bo_max c)) as [L|L]; [|discriminate E].
    destruct (dur_split Db) as (S1 & S2 & S3). assert (Se : second = 1000000000) by reflexivity.
    destruct (@part_bound (bo_jitter c) v V3 V4 Hv (base / second) (2 ^ 64 - 1) S1 ltac:(lia)) as (P1 & P2 & _).
    destruct (@part_bound (bo_jitter c) v V3 V4 Hv (base mod second) (2 ^ 32 - 1) ltac:(lia) ltac:(lia)) as (Q1 & Q2 & _).
    set (s := cast 0 (2 ^ 64 - 1) _) in *. set (n := cast 0 (2 ^ 32 - 1) _) in *.
    assert (Ed : d = Z.min (s * second + n) (bo_max c - base)).
    { unfold dur_new in E. destruct (n <? second); [congruence|]. destruct (s + n / second <? 2 ^ 64); [congruence|discriminate E]. }
    split; [lia|]. apply Rle_trans with (IZR (s * second + n)); [apply IZR_le; lia|].
    rewrite S3 at 1. rewrite !plus_IZR, !mult_IZR. fold slack in P2, Q2. rewrite Se in *. lra.
  Qed.

  (** The [k]-th delay. *)
  Lemma next_shape b w b1 d w1 : good (b_cfg b) -> 0 <= b_iter b < 2 ^ 32 - 1 -> proper next_u64 ->
    next_backoff next_u64 debug b w = (w1, Val (b1, d)) ->
    b_cfg b1 = b_cfg b /\ b_iter b1 = b_iter b + 1 /\
    let base := base_of (b_cfg b) (b_iter b) in
    base <= d <= bo_max (b_cfg b) /\ (IZR d <= IZR base * (1 + B2R (bo_jitter (b_cfg b)) * slack))%R.
  Proof.
    intros G Hi Pr E. unfold next_backoff in E. rewrite base_value in E by (auto; lia).
    set (base := base_of (b_cfg b) (b_iter b)) in *. assert (Bd := @base_range _ (b_iter b) G ltac:(lia)). fold base in Bd.
    assert (Db : duration base) by (destruct G as (D1 & D2 & _); unfold duration in *; lia).
    unfold bind in E. destruct (bo_jitter_part next_u64 debug b base w) as [w2 [[g j]| |]] eqn:J; try discriminate E.
    assert (Q : b_cfg b1 = b_cfg b /\ b_iter b1 = b_iter b + 1 /\ d = base + j).
    { destruct (dur_max <? base + j); [discriminate E|]. destruct (Z.ltb_spec (b_iter b + 1) (2 ^ 32)); [|lia].
      unfold ret in E. injection E as <- <- <-. auto. }
    destruct Q as (Q1 & Q2 & ->). split; [exact Q1|]. split; [exact Q2|]. intros base'. subst base'. fold base.
    unfold bo_jitter_part in J. destruct (Beqb (bo_jitter (b_cfg b)) (f64_of 0 0)).
    - unfold ret in J. injection J as _ _ <-. split; [lia|]. rewrite Z.add_0_r. assert (0 <= IZR base)%R by (apply IZR_le; unfold duration in Db; lia).
      destruct G as (_ & _ & _ & _ & _ & G4). assert (0 <= slack)%R by (unfold slack, u53; lra).
      assert (0 <= IZR base * (B2R (bo_jitter (b_cfg b)) * slack))%R by (apply Rmult_le_pos; [lra|apply Rmult_le_pos; lra]). lra.
    - unfold bind in J. destruct (Pr (b_rng b) w) as (g' & v & P1 & P2). destruct (next_u64 (b_rng b) w) as [w3 r]. cbn [snd] in P1. subst r.
      destruct (jitter_of debug _ _ base v) as [dj| |] eqn:Jo; try discriminate J. injection J as _ _ <-.
      destruct (@jitter_bound (b_cfg b) base v dj G Db P2 Jo) as [X Y]. split; [lia|]. rewrite plus_IZR. lra.
  Qed.

  Lemma delays_nth n : forall b w k d, good (b_cfg b) -> 0 <= b_iter b -> b_iter b + Z.of_nat n < 2 ^ 32 -> proper next_u64 ->
    nth_error (delays next_u64 debug n b w) k = Some (Val d) ->
    let base := base_of (b_cfg b) (b_iter b + Z.of_nat k) in
    base <= d <= bo_max (b_cfg b) /\ (IZR d <= IZR base * (1 + B2R (bo_jitter (b_cfg b)) * slack))%R.
  Proof.
    induction n as [|n IH]; intros b w k d G Hi Hn Pr E; cbn [delays] in E; [destruct k; discriminate E|].
    destruct (next_backoff next_u64 debug b w) as [w1 [[b1 d1]| |]] eqn:X; try (destruct k as [|[|]]; discriminate E).
    destruct (@next_shape b w b1 d1 w1 G ltac:(lia) Pr X) as (E1 & E2 & E3). destruct k as [|k].
    - cbn in E. injection E as <-. rewrite Z.add_0_r. exact E3.
    - cbn [nth_error] in E. rewrite <- E1 in G. apply IH in E; auto; try lia. rewrite E1, E2 in E.
      replace (b_iter b + 1 + Z.of_nat k) with (b_iter b + Z.of_nat (Datatypes.S k)) in E by lia. exact E.
  Qed.

  (** Panics. *)

  Lemma jitter_total c base v : good c -> tame c -> 0 <= base <= bo_max c -> 0 <= v < 2 ^ 64 -> debug = false \/ next_f64_num v <> 0 ->
    exists d, jitter_of debug (bo_jitter c) (bo_max c) base v = Val d.
  Proof.
    intros (D1 & D2 & V1 & V2 & V3 & V4) Tm Hb Hv Dg. unfold jitter_of.
    assert (Z1 : debug && negb (Bltb (f64_of 0 0) (next_f64 v)) = false).
    { destruct Dg as [->|Nz]; [reflexivity|]. destruct (next_f64_value Hv) as (E & F & K). destruct zero64 as [Z0 Z1].
      rewrite (Bltb_correct _ _ _ _ Z1 F), Z0, Rlt_bool_true, andb_false_r; [reflexivity|]. rewrite E. apply Rmult_lt_0_compat; [apply IZR_lt; lia|apply bpow_gt_0]. }
    rewrite Z1. destruct (Z.leb_spec base (bo_max c)); [|lia].
    assert (Db : duration base) by (unfold duration in *; lia). destruct (dur_split Db) as (S1 & S2 & S3). assert (Se : second = 1000000000) by reflexivity.
    destruct (@part_bound (bo_jitter c) v V3 V4 Hv (base / second) (2 ^ 64 - 1) S1 ltac:(lia)) as (P1 & P2 & _).
    destruct (@part_bound (bo_jitter c) v V3 V4 Hv (base mod second) (2 ^ 32 - 1) ltac:(lia) ltac:(lia)) as (Q1 & Q2 & Q3).
    set (s := cast 0 (2 ^ 64 - 1) _) in *. set (n := cast 0 (2 ^ 32 - 1) _) in *.
    assert (X : exists d, dur_new s n = Val d).
    { unfold dur_new. destruct (Z.ltb_spec n second) as [L|L]; [eauto|]. destruct (Z.ltb_spec (s + n / second) (2 ^ 64)) as [M|M]; [eauto|]. exfalso.
      destruct Tm as [T|T]; [destruct (Q3 T ltac:(rewrite Se in *; lia)); lia|].
      assert (n / second < 5) by (apply Z.div_lt_upper_bound; rewrite ?Se; lia).
      assert (Hs : 2 ^ 64 - 4 <= s) by lia. apply IZR_le in Hs.
      assert (B1 : (IZR (base / second) * IZR second <= IZR (bo_max c))%R) by (rewrite <- mult_IZR; apply IZR_le; lia).
      apply (Rmult_le_compat_r (B2R (bo_jitter c))) in B1; [|lra].
      assert (B2 : (IZR (base / second) * B2R (bo_jitter c) <= IZR (2 ^ 63))%R).
      { rewrite mult_IZR in T. rewrite Se in *. change (2 ^ 63) with 9223372036854775808 in *. lra. }
      assert (Sl : (0 <= slack <= 3 / 2)%R) by (unfold slack, u53; lra). fold slack in P2.
      assert (B3 : (IZR (base / second) * B2R (bo_jitter c) * slack <= IZR (2 ^ 63) * (3 / 2))%R).
      { apply Rmult_le_compat; try lra. apply Rmult_le_pos; [apply IZR_le; lia|lra]. }
      change (2 ^ 64 - 4) with 18446744073709551612 in Hs. change (2 ^ 63) with 9223372036854775808 in B3. lra. }
    destruct X as [d ->]. eauto.
  Qed.

  Definition rng_says (g : R) (w : W) (v : Z) : Prop := exists g', snd (next_u64 g w) = Val (g', v).

  Lemma next_total b w : good (b_cfg b) -> tame (b_cfg b) -> 0 <= b_iter b < 2 ^ 32 -> proper next_u64 ->
    debug = false \/ (b_iter b <> 2 ^ 32 - 1 /\ forall v, rng_says (b_rng b) w v -> next_f64_num v <> 0) ->
    exists b1 d, snd (next_backoff next_u64 debug b w) = Val (b1, d) /\ 0 <= b_iter b1 < 2 ^ 32 /\ b_cfg b1 = b_cfg b.
  Proof.
    intros G T Hi Pr Dg. unfold next_backoff. rewrite base_value by (auto; lia). set (base := base_of (b_cfg b) (b_iter b)).
    assert (Bd := @base_range _ (b_iter b) G ltac:(lia)). fold base in Bd. assert (G' := G). destruct G' as (D1 & D2 & V1 & V2 & V3 & V4).
    assert (X : exists w1 g j, bo_jitter_part next_u64 debug b base w = (w1, Val (g, j)) /\ 0 <= j <= bo_max (b_cfg b) - base).
    { unfold bo_jitter_part. destruct (Beqb (bo_jitter (b_cfg b)) (f64_of 0 0)); [unfold ret; do 3 eexists; split; [reflexivity|lia]|].
      unfold bind. destruct (Pr (b_rng b) w) as (g' & v & P1 & P2).
      assert (Sv : rng_says (b_rng b) w v) by (exists g'; exact P1).
      destruct (next_u64 (b_rng b) w) as [w3 r] eqn:En. cbn [snd] in P1. subst r.
      destruct (@jitter_total (b_cfg b) base v G T ltac:(unfold duration in *; lia) P2 ltac:(destruct Dg as [?|[_ Q]]; [auto|right; auto])) as [d E].
      rewrite E. do 3 eexists. split; [reflexivity|]. destruct (@jitter_bound (b_cfg b) base v d G ltac:(unfold duration in *; lia) P2 E). lia. }
    destruct X as (w1 & g & j & E & Hj). unfold bind. rewrite E. destruct (Z.ltb_spec dur_max (base + j)); [unfold duration in *; lia|].
    destruct (Z.ltb_spec (b_iter b + 1) (2 ^ 32)).
    - do 2 eexists. split; [reflexivity|]. cbn [b_iter b_cfg]. split; [lia|reflexivity].
    - destruct Dg as [->|[Q _]]; [|lia]. do 2 eexists. split; [reflexivity|]. cbn [b_iter b_cfg]. split; [lia|reflexivity].
  Qed.

  (** A whole second of base, a jitter of at most 100 %: no jitter at all. *)
  Lemma jitter_second c v d : good c -> (B2R (bo_jitter c) <= 1)%R -> 0 <= v < 2 ^ 64 -> second <= bo_max c ->
    jitter_of debug (bo_jitter c) (bo_max c) second v = Val d -> d = 0.
  Proof.
    intros (D1 & D2 & V1 & V2 & V3 & V4) J Hv Hm E. unfold jitter_of in E. destruct (debug && _); [discriminate E|].
    destruct (Z.leb_spec second (bo_max c)) as [L|L]; [|discriminate E].
    change (second / second) with 1 in E. change (second mod second) with 0 in E.
    destruct (@part_bound (bo_jitter c) v V3 V4 Hv (1) (2 ^ 64 - 1) ltac:(lia) ltac:(lia)) as (P1 & _ & P3). destruct (P3 J ltac:(lia)) as [_ P4].
    destruct (@part_bound (bo_jitter c) v V3 V4 Hv (0) (2 ^ 32 - 1) ltac:(lia) ltac:(lia)) as (Q1 & _ & Q3). destruct (Q3 J ltac:(lia)) as [Q4 _].
    rewrite P4 in E by reflexivity. assert (Q5 : cast 0 (2 ^ 32 - 1) (mul64 (f64_of 0 0) (mul64 (next_f64 v) (bo_jitter c))) = 0) by lia. rewrite Q5 in E.
    unfold dur_new in E. cbn in E. injection E as <-. lia.
  Qed.
End Main.
