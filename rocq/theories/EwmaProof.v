(** PeakEwma: the estimate as a float. *)
From Coq Require Import Reals Lra.
From Flocq Require Import Core BinarySingleNaN Relative.
From Verif Require Import Base Float FloatProof BackoffProof EwmaReal Load LoadSpec EwmaSpec.
Set Implicit Arguments.
Local Open Scope R_scope.

Lemma add_pos (x y : f64) : is_finite x = true -> is_finite y = true -> 0 <= B2R x <= bpow radix2 70 -> 0 <= B2R y <= bpow radix2 70 ->
  B2R (add64 x y) = rnd (B2R x + B2R y) /\ is_finite (add64 x y) = true.
Proof.
  intros Fx Fy Hx Hy. assert (C := Bplus_correct 53 1024 prec64 emax64 mode_NE x y Fx Fy). cbn [round_mode] in C. fold (add64 x y) in C.
  assert (Lo : 0 <= rnd (B2R x + B2R y)) by (apply rnd_nonneg; lra).
  assert (Hi : rnd (B2R x + B2R y) <= bpow radix2 71).
  { rewrite <- (@rnd_id (bpow radix2 71)) by (apply generic_format_bpow; vm_compute; discriminate). apply rnd_le.
    change 71%Z with (70 + 1)%Z. rewrite bpow_plus. change (bpow radix2 1) with 2. lra. }
  assert (bpow radix2 71 < bpow radix2 1024) by (apply bpow_lt; lia).
  rewrite Rlt_bool_true in C by (rewrite Rabs_pos_eq by exact Lo; lra). tauto.
Qed.
Lemma f_one_ok : B2R f_one = 1 /\ is_finite f_one = true.
Proof.
  unfold f_one. destruct (@f64_int 1 ltac:(lia)) as [E F]. split; [|exact F]. rewrite E. apply rnd_id. apply fmt_1.
Qed.
Lemma sub_one (d : f64) : is_finite d = true -> 0 <= B2R d <= 1 ->
  B2R (sub64 f_one d) = rnd (1 - B2R d) /\ is_finite (sub64 f_one d) = true.
Proof.
  intros Fd Hd. destruct f_one_ok as [E F]. assert (C := Bminus_correct 53 1024 prec64 emax64 mode_NE f_one d F Fd).
  cbn [round_mode] in C. fold (sub64 f_one d) in C. rewrite E in C.
  assert (Lo : 0 <= rnd (1 - B2R d) <= 1) by (apply rec_range; exact Hd).
  assert (bpow radix2 0 < bpow radix2 1024) by (apply bpow_lt; lia). change (bpow radix2 0) with 1 in H.
  rewrite Rlt_bool_true in C by (rewrite Rabs_pos_eq by lra; lra). tauto.
Qed.
Lemma neg_nonpos_div (x y : f64) : is_finite x = true -> 0 <= B2R x -> is_finite y = true -> 0 < B2R y -> nonpos (div64 (neg64 x) y).
Proof.
  intros Fx Hx Fy Hy. assert (C := Bdiv_correct 53 1024 prec64 emax64 mode_NE (neg64 x) y ltac:(lra)).
  cbn [round_mode] in C. fold (div64 (neg64 x) y) in C.
  assert (En : B2R (neg64 x) = - B2R x) by apply B2R_Bopp.
  assert (Fn : is_finite (neg64 x) = true) by (unfold neg64; rewrite is_finite_Bopp; exact Fx).
  rewrite En in C. assert (Q : - B2R x / B2R y <= 0).
  { unfold Rdiv. assert (0 <= B2R x * / B2R y) by (apply Rmult_le_pos; [lra|]; left; apply Rinv_0_lt_compat; lra). lra. }
  assert (Qr : rnd (- B2R x / B2R y) <= 0).
  { rewrite <- rnd_0. apply rnd_le. exact Q. }
  destruct (Rlt_bool_spec (Rabs (rnd (- B2R x / B2R y))) (bpow radix2 1024)) as [L|L].
  - destruct C as (C1 & C2 & _). rewrite Fn in C2.
    destruct (div64 (neg64 x) y) as [s|s| |s m e He]; cbn in C2; try discriminate; cbn [nonpos]; rewrite C1; exact Qr.
  - assert (Px : 0 < B2R x).
    { destruct (Req_dec (B2R x) 0) as [Z|N]; [|lra]. exfalso. rewrite Z in L. unfold Rdiv in L. rewrite Ropp_0, Rmult_0_l, rnd_0, Rabs_R0 in L.
      assert (P := bpow_gt_0 radix2 1024). lra. }
    assert (Sx : Bsign (neg64 x) = true).
    { unfold neg64. assert (Nx : is_nan x = false) by (destruct x; try discriminate; reflexivity).
      rewrite Bsign_Bopp by exact Nx. now rewrite positive_sign. }
    rewrite Sx, (positive_sign y Hy) in C. cbn in C.
    destruct (div64 (neg64 x) y) as [s|s| |s m e He]; cbn in C; try discriminate. injection C as ->. reflexivity.
Qed.

(** ** Durations *)
Definition nanos_max : R := bpow radix2 64 + bpow radix2 31.
Lemma rnd_pow k x : (-1074 <= k)%Z -> (k <= 1000)%Z -> x <= bpow radix2 k -> rnd x <= bpow radix2 k.
Proof.
  intros H1 H2 H. rewrite <- (@rnd_id (bpow radix2 k)); [apply rnd_le; exact H|]. apply generic_format_bpow.
  change (SpecFloat.fexp 53 1024) with (FLT_exp (-1074) 53). unfold FLT_exp. lia.
Qed.
Lemma nanos_ok d : (0 <= d)%Z ->
  is_finite (nanos d) = true /\ 0 <= B2R (nanos d) <= bpow radix2 64 + bpow radix2 33 /\
  (B2R (nanos d) = 0 \/ 1 <= B2R (nanos d)) /\ (B2R (nanos d) = 0 -> d = 0%Z) /\
  B2R (nanos d) <= IZR d * ((1 + u53) * (1 + u53)) /\
  ((d <= u64_max)%Z -> IZR d * (1 - 3 * u53) <= B2R (nanos d)).
Proof.
  intros Hd. unfold nanos. set (n := (d mod nanos_per_sec)%Z). set (s := Z.min u64_max (d / nanos_per_sec * nanos_per_sec)).
  assert (Hn : (0 <= n < 1000000000)%Z) by (apply Z.mod_pos_bound; reflexivity).
  assert (Hq : (0 <= d / nanos_per_sec)%Z) by (apply Z.div_pos; [exact Hd|reflexivity]).
  assert (Hs : (0 <= s <= 18446744073709551615)%Z) by (unfold s, u64_max, nanos_per_sec in *; lia).
  assert (Hdm : (d = nanos_per_sec * (d / nanos_per_sec) + n)%Z) by (apply Z.div_mod; discriminate).
  assert (Hs2 : (n + s <= d)%Z) by (unfold s; lia).
  assert (Hs3 : (d <= u64_max)%Z -> (n + s = d)%Z).
  { intros. unfold s. rewrite Z.min_r; lia. }
  assert (Hs0 : (n + s = 0)%Z -> d = 0%Z).
  { intros Hz. unfold s, u64_max, nanos_per_sec in *. lia. }
  clearbody n s. clear Hdm Hq.
  destruct (@f64_int n ltac:(lia)) as [En Fn]. destruct (@f64_int s ltac:(lia)) as [Es Fs].
  assert (En' : rnd (IZR n) = IZR n).
  { apply rnd_id. replace (IZR n) with (F2R (Float radix2 n 0)) by (unfold F2R; cbn; ring). apply fmt_int; lia. }
  rewrite En' in En.
  assert (Bs := @rnd_int_bound s ltac:(lia)). rewrite <- Es in Bs.
  assert (B64 : B2R (f64_of s 0) <= bpow radix2 64).
  { rewrite Es. apply rnd_pow; [lia|lia|]. change (bpow radix2 64) with (IZR (2 ^ 64)). apply IZR_le. lia. }
  assert (Nn : 0 <= IZR n <= bpow radix2 30).
  { split; [apply IZR_le; lia|]. change (bpow radix2 30) with (IZR (2 ^ 30)). apply IZR_le. lia. }
  assert (P3070 : bpow radix2 30 <= bpow radix2 70) by (apply bpow_le; lia).
  assert (P6470 : bpow radix2 64 <= bpow radix2 70) by (apply bpow_le; lia).
  destruct (@add_pos (f64_of n 0) (f64_of s 0) Fn Fs ltac:(rewrite En; lra) ltac:(lra)) as [E F]. rewrite E, En.
  split; [exact F|]. set (x := IZR n + B2R (f64_of s 0)).
  assert (Hx0 : 0 <= x) by (unfold x; lra).
  assert (U := u_pos). assert (Uv : u53 <= / 1000) by (unfold u53; lra).
  assert (Sint : B2R (f64_of s 0) = 0 \/ 1 <= B2R (f64_of s 0)).
  { destruct (Z.eq_dec s 0) as [->|N]; [left; rewrite Es; apply rnd_0|right]. rewrite Es.
    rewrite <- (rnd_id fmt_1). apply rnd_le. apply IZR_le. lia. }
  assert (Xint : x = 0 \/ 1 <= x).
  { unfold x. destruct Sint as [->|]; [|right; lra]. destruct (Z.eq_dec n 0) as [->|N]; [left; lra|right].
    assert (1 <= IZR n) by (apply IZR_le; lia). lra. }
  assert (Hup : x <= bpow radix2 64 + bpow radix2 30) by (unfold x; lra).
  assert (Er := rnd_err Hx0).
  assert (Hr : 1 <= x -> 1 <= rnd x) by (intros; rewrite <- (rnd_id fmt_1); apply rnd_le; lra).
  assert (Hr0 := rnd_nonneg Hx0).
  split; [split; [exact Hr0|]|].
  { assert (Pd : u53 * (bpow radix2 64 + bpow radix2 30) <= bpow radix2 12).
    { assert (X : u53 = bpow radix2 (-53)) by (unfold u53; cbn; lra). rewrite X, Rmult_plus_distr_l, <- !bpow_plus. cbn. lra. }
    assert (X1 : x * u53 <= (bpow radix2 64 + bpow radix2 30) * u53) by (apply Rmult_le_compat_r; lra).
    assert (Hh := h_small). assert (Uu : u53 * u53 <= / 1000 * / 1000) by (apply Rmult_le_compat; lra).
    assert (P := h_pos). assert (Y : bpow radix2 30 + bpow radix2 12 + 1 <= bpow radix2 33) by (cbn; lra). lra. }
  split; [destruct Xint as [->|Hx]; [left; apply rnd_0|right; auto]|].
  split.
  { intros Z. destruct Xint as [Hx|Hx]; [|assert (X := Hr Hx); lra]. apply Hs0.
    destruct Sint as [S0|S1]; [|unfold x in Hx; lra].
    assert (s = 0)%Z.
    { destruct (Z.eq_dec s 0) as [?|N]; [assumption|]. exfalso. assert (1 <= rnd (IZR s)); [|lra]. rewrite <- (rnd_id fmt_1). apply rnd_le. apply IZR_le. lia. }
    assert (n = 0)%Z by (apply eq_IZR; unfold x in Hx; lra). lia. }
  assert (Iz : IZR n + IZR s <= IZR d) by (rewrite <- plus_IZR; apply IZR_le; lia).
  assert (In0 : 0 <= IZR s) by (apply IZR_le; lia).
  split.
  - destruct Xint as [Hx|Hx].
    { rewrite Hx, rnd_0. apply Rmult_le_pos; [lra|]. apply Rmult_le_pos; lra. }
    apply Rle_trans with (x * (1 + u53)); [apply rnd_up; auto|].
    rewrite <- Rmult_assoc. apply Rmult_le_compat_r; [lra|]. unfold x.
    assert (IZR n * 1 <= IZR n * (1 + u53)) by (apply Rmult_le_compat_l; lra).
    assert ((IZR n + IZR s) * (1 + u53) <= IZR d * (1 + u53)) by (apply Rmult_le_compat_r; lra). lra.
  - intros Hdm. specialize (Hs3 Hdm).
    assert (Sl : IZR s * (1 - u53) <= B2R (f64_of s 0)).
    { destruct (Z.eq_dec s 0) as [->|N]; [lra|]. rewrite Es. assert (1 <= IZR s) by (apply IZR_le; lia).
      assert (X := @rnd_near (IZR s) ltac:(pose proof one_normal; lra)). rewrite u53_eq in X. apply Rabs_le_inv in X. lra. }
    assert (Ed : IZR d = IZR n + IZR s) by (rewrite <- plus_IZR, Hs3; reflexivity).
    destruct Xint as [Hx|Hx].
    { assert (n = 0 /\ s = 0)%Z as [-> ->].
      { assert (IZR n = 0) by (unfold x in Hx; lra). assert (B2R (f64_of s 0) = 0) by (unfold x in Hx; lra).
        split; [now apply eq_IZR|]. apply eq_IZR. assert (IZR s * (1 - u53) <= 0) by lra.
        destruct (Req_dec (IZR s) 0); [assumption|]. assert (0 < IZR s * (1 - u53)) by (apply Rmult_lt_0_compat; lra). lra. }
      cbn in Hs3. subst d. rewrite Rmult_0_l. exact Hr0. }
    assert (X := @rnd_near x ltac:(pose proof one_normal; lra)). rewrite u53_eq in X. apply Rabs_le_inv in X.
    assert (Y : IZR d * (1 - u53) <= x).
    { unfold x. rewrite Ed. assert (IZR n * (1 - u53) <= IZR n * 1) by (apply Rmult_le_compat_l; lra). lra. }
    assert (Z : IZR d * (1 - u53) * (1 - u53) <= x * (1 - u53)) by (apply Rmult_le_compat_r; lra).
    assert (0 <= IZR d) by lra. assert (0 <= IZR d * (u53 * u53)) by (apply Rmult_le_pos; [lra|apply Rmult_le_pos; lra]).
    assert (0 <= IZR d * u53) by (apply Rmult_le_pos; lra). lra.
Qed.

(** ** One update *)
Section Upd.
  Context (exp64 : f64 -> f64) (decay : f64).
  Hypothesis Hexp : exp_ok exp64.
  Hypothesis Fdecay : is_finite decay = true.
  Hypothesis Pdecay : 0 < B2R decay.

  Lemma since_nonneg a b : (0 <= since a b)%Z.
  Proof. unfold since. lia. Qed.
  Lemma rtt_next_real old last now s : is_finite old = true -> 0 <= B2R old <= bpow radix2 65 -> (0 <= s)%Z ->
    let x := rtt_next exp64 decay old last now s in
    is_finite x = true /\
    ((B2R old < B2R (nanos s) /\ x = nanos s) \/
     (B2R (nanos s) <= B2R old /\ exists d, fmt d /\ 0 <= d <= 1 /\ B2R x = ewma (B2R old) (B2R (nanos s)) d)).
  Proof.
    intros Fo Ho Hs. cbn zeta. destruct (nanos_ok Hs) as (Fr & Rr & _).
    unfold rtt_next. unfold lt64. rewrite (Bltb_correct 53 1024 old (nanos s) Fo Fr).
    destruct (Rlt_bool_spec (B2R old) (B2R (nanos s))) as [L|L]; [split; [exact Fr|left; split; [exact L|reflexivity]]|].
    set (el := nanos (since now last)).
    destruct (nanos_ok (since_nonneg now last)) as (Fe & Re & _). fold el in Fe, Re.
    destruct (@Hexp _ (@neg_nonpos_div el decay Fe (proj1 Re) Fdecay Pdecay)) as [Fd Rd].
    set (d := exp64 (div64 (neg64 el) decay)) in *.
    destruct (sub_one d Fd Rd) as [Es Fs]. assert (Rs := rec_range Rd). rewrite <- Es in Rs.
    assert (P65 : bpow radix2 64 + bpow radix2 33 <= bpow radix2 65) by (cbn; lra).
    destruct (@mul_pos old d Fo Fd Ho ltac:(lra)) as (E1 & F1 & N1).
    destruct (@mul_pos (nanos s) (sub64 f_one d) Fr Fs ltac:(lra) ltac:(lra)) as (E2 & F2 & N2).
    assert (P70 : bpow radix2 65 <= bpow radix2 70) by (apply bpow_le; lia).
    assert (M1 : B2R (mul64 old d) <= bpow radix2 70).
    { rewrite E1. apply rnd_pow; [lia|lia|]. apply Rle_trans with (B2R old * 1); [apply Rmult_le_compat_l; lra|lra]. }
    assert (M2 : B2R (mul64 (nanos s) (sub64 f_one d)) <= bpow radix2 70).
    { rewrite E2. apply rnd_pow; [lia|lia|]. apply Rle_trans with (B2R (nanos s) * 1); [apply Rmult_le_compat_l; lra|lra]. }
    destruct (@add_pos _ _ F1 F2 ltac:(lra) ltac:(lra)) as [E3 F3].
    split; [exact F3|right]. split; [exact L|]. exists (B2R d). split; [apply fmt_b2r|]. split; [exact Rd|].
    rewrite E3, E1, E2, Es. reflexivity.
  Qed.

  (** [M]: all durations so far are at most [M]. *)
  Definition bounded (M : R) (x : f64) : Prop := is_finite x = true /\ 0 <= B2R x <= M * (1 + 8 * u53).
  Lemma M_range M x : M <= bpow radix2 64 + bpow radix2 33 -> bounded M x -> 0 <= B2R x <= bpow radix2 65.
  Proof.
    intros HM (_ & H0 & H1). split; [exact H0|]. apply (Rle_trans _ _ _ H1).
    apply Rle_trans with ((bpow radix2 64 + bpow radix2 33) * (1 + 8 * u53)); [apply Rmult_le_compat_r; [assert (U := u_pos); lra|lra]|].
    unfold u53. cbn. lra.
  Qed.
  Lemma rtt_next_bounded M old last now s : 1 <= M <= bpow radix2 64 + bpow radix2 33 -> (0 <= s)%Z -> B2R (nanos s) <= M ->
    bounded M old -> bounded M (rtt_next exp64 decay old last now s).
  Proof.
    intros HM Hs Hsm Hb. assert (Ho := M_range (proj2 HM) Hb). destruct Hb as (Fo & Ho1 & Ho2).
    destruct (nanos_ok Hs) as (Fr & Rr & Rint & _). assert (U := u_pos).
    destruct (@rtt_next_real old last now s Fo Ho Hs) as (Fx & [(L & E)|(L & d & Fd & Hd & E)]).
    - rewrite E. split; [exact Fr|]. split; [lra|]. apply Rle_trans with (M * 1); [lra|]. apply Rmult_le_compat_l; lra.
    - split; [exact Fx|]. rewrite E. split; [apply ewma_nonneg; lra|]. apply ewma_bound; try lra; try assumption. apply fmt_b2r.
  Qed.
  Lemma rtt_next_zero old last now : is_finite old = true -> 0 <= B2R old <= bpow radix2 65 ->
    B2R (rtt_next exp64 decay old last now 0) <= B2R old.
  Proof.
    intros Fo Ho. destruct (@rtt_next_real old last now 0 Fo Ho ltac:(lia)) as (Fx & H).
    assert (Z : B2R (nanos 0) = 0) by (vm_compute; reflexivity). rewrite Z in H.
    destruct H as [(L & E)|(L & d & Fd & Hd & E)]; [lra|]. rewrite E. apply ewma_zero; try lra. apply fmt_b2r.
  Qed.
  Lemma rtt_next_peak old last now s : is_finite old = true -> 0 <= B2R old <= bpow radix2 65 -> (0 <= s <= u64_max)%Z ->
    IZR s * (1 - 12 * u53) <= B2R (rtt_next exp64 decay old last now s).
  Proof.
    intros Fo Ho Hs. destruct (@rtt_next_real old last now s Fo Ho ltac:(lia)) as (Fx & H).
    destruct (nanos_ok (proj1 Hs)) as (Fr & Rr & Rint & Rz & _ & Rlo). specialize (Rlo (proj2 Hs)). assert (U := u_pos).
    assert (S0 : 0 <= IZR s) by (apply IZR_le; lia). assert (Uv : u53 <= / 1000) by (unfold u53; lra).
    assert (Su : 0 <= IZR s * u53) by (apply Rmult_le_pos; lra).
    destruct H as [(L & E)|(L & d & Fd & Hd & E)]; rewrite E.
    - lra.
    - destruct Rint as [Z|G].
      + rewrite (Rz Z) in *. rewrite Rmult_0_l. apply ewma_nonneg; lra.
      + refine (Rle_trans _ _ _ _ (ewma_lo (proj1 Ho) (proj1 Rr) Hd L G)).
        apply Rle_trans with (IZR s * (1 - 3 * u53) * (1 - 8 * u53)); [|apply Rmult_le_compat_r; lra].
        assert (0 <= IZR s * (u53 * u53)) by (apply Rmult_le_pos; [lra|apply Rmult_le_pos; lra]). lra.
  Qed.
End Upd.
