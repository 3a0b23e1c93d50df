(** The theorems on the backoff. *)
From Coq Require Import Reals Lra.
From Coq Require SpecFloat.
From Flocq Require Import Core BinarySingleNaN.
From Verif Require Import Base Float FloatProof ReadyCache Backoff BackoffSpec BackoffProof.
Set Implicit Arguments.
Local Open Scope Z_scope.

Section Top.
  Context {W R : Type} (next_u64 : R -> M W (R * Z)).

  Lemma made_good min max j (rng : R) m : maker_new min max j rng = Ok m -> duration min -> duration max ->
    make_backoff m = Backoff (BoCfg min max j) rng 0 /\ good (BoCfg min max j).
  Proof.
    intros E D1 D2. assert (V := proj1 (new_exact min max j rng) (ex_intro _ m E)). rewrite (new_contents _ _ _ _ E). split; [reflexivity|].
    split; [exact D1|]. split; [exact D2|exact V].
  Qed.

  Lemma delay_bounds debug min max j (rng : R) m n w k d : maker_new min max j rng = Ok m -> duration min -> duration max ->
    proper next_u64 -> Z.of_nat n < 2 ^ 32 ->
    nth_error (delays next_u64 debug n (make_backoff m) w) k = Some (Val d) ->
    let base := base_of (BoCfg min max j) (Z.of_nat k) in
    min <= base <= d /\ d <= max /\ (IZR d <= IZR base * (1 + B2R j * (1 + / 4503599627370495)))%R.
  Proof.
    intros E D1 D2 Pr Hn Hd base. destruct (@made_good _ _ _ _ _ E D1 D2) as [Em G]. rewrite Em in Hd.
    destruct (@delays_nth W R next_u64 debug n (Backoff (BoCfg min max j) rng 0) w k d G ltac:(cbn; lia) ltac:(cbn; lia) Pr Hd) as [X Y]. cbn [b_cfg b_iter bo_max bo_min bo_jitter] in *.
    rewrite Z.add_0_l in *. fold base in X, Y. assert (B := @base_range _ (Z.of_nat k) G ltac:(lia)). cbn [bo_min bo_max] in B. fold base in B. split; [lia|]. split; [lia|].
    apply (Rle_trans _ _ _ Y). apply Rmult_le_compat_l; [apply IZR_le; unfold duration in *; lia|]. apply Rplus_le_compat_l.
    apply Rmult_le_compat_l; [destruct G as (_ & _ & _ & _ & _ & V4); cbn in V4; lra|]. unfold slack, u53. lra.
  Qed.

  (** The default maker. *)
  Lemma default_delays debug (rng : R) : proper next_u64 ->
    exists m, maker_default rng = Ok m /\
    forall n w k d, Z.of_nat n < 2 ^ 32 -> nth_error (delays next_u64 debug n (make_backoff m) w) k = Some (Val d) ->
      let base := 50 * 1000000 * Z.min (2 ^ Z.of_nat k) 4294967295 in
      base <= d /\ (IZR d <= IZR base * (199 / 100 + / 1000000000000000))%R.
  Proof.
    intros Pr.
    assert (J : exists j, (forall r : R, maker_default r = maker_new 50000000 ((2 ^ 64 - 1) * 1000000) j r) /\
      B2R j = (4458563631096791 / 4503599627370496)%R /\ is_finite j = true).
    { exists (f64_of 4458563631096791 (-52)). split; [intros r; unfold maker_default; reflexivity|]. split.
      - rewrite <- SF2R_B2SF.
        replace (B2SF (f64_of 4458563631096791 (-52))) with (SpecFloat.S754_finite false 8917127262193582 (-53)) by (vm_compute; reflexivity).
        unfold SF2R, F2R. cbn [cond_Zopp Fnum Fexp]. change (bpow radix2 (-53)) with (/ 9007199254740992)%R. lra.
      - vm_compute. reflexivity. }
    destruct J as (j & Ej & J & Jf). rewrite Ej.
    assert (D1 : duration 50000000) by (unfold duration, dur_max, second; lia).
    assert (D2 : duration ((2 ^ 64 - 1) * 1000000)) by (unfold duration, dur_max, second; lia).
    destruct (proj2 (new_exact 50000000 ((2 ^ 64 - 1) * 1000000) j rng)) as [m E].
    { split; [lia|]. split; [lia|]. split; [exact Jf|]. rewrite J. lra. }
    exists m. split; [exact E|]. intros n w k d Hn Hd.
    destruct (@delay_bounds debug _ _ _ rng m n w k d E D1 D2 Pr Hn Hd) as (B1 & B2 & B3).
    assert (Eb : base_of (BoCfg 50000000 ((2 ^ 64 - 1) * 1000000) j) (Z.of_nat k) =
      50 * 1000000 * Z.min (2 ^ Z.of_nat k) 4294967295).
    { unfold base_of. cbn [bo_min bo_max]. change (2 ^ 32 - 1) with 4294967295. change (2 ^ 64 - 1) with 18446744073709551615.
      assert (Z.min (2 ^ Z.of_nat k) 4294967295 <= 4294967295) by lia. lia. }
    rewrite Eb in B1, B3. cbv zeta. split; [lia|].
    rewrite J in B3. eapply Rle_trans; [exact B3|]. apply Rmult_le_compat_l; [apply IZR_le; lia|lra].
  Qed.

  Lemma delay_exact debug min max j (rng : R) m n w : maker_new min max j rng = Ok m -> duration min -> duration max ->
    B2R j = 0%R -> Z.of_nat n < 2 ^ 32 ->
    delays next_u64 debug n (make_backoff m) w = map (fun k => Val (base_of (BoCfg min max j) (Z.of_nat k))) (seq 0 n).
  Proof.
    intros E D1 D2 J Hn. destruct (@made_good _ _ _ _ _ E D1 D2) as [Em G]. rewrite Em. clear E Em m.
    assert (H : forall n i, Z.of_nat (i + n) < 2 ^ 32 ->
      delays next_u64 debug n (Backoff (BoCfg min max j) rng (Z.of_nat i)) w = map (fun k => Val (base_of (BoCfg min max j) (Z.of_nat k))) (seq i n)).
    { clear n Hn. induction n as [|n IH]; intros i Hi; [reflexivity|]. cbn [delays seq map].
      assert (X : next_backoff next_u64 debug (Backoff (BoCfg min max j) rng (Z.of_nat i)) w =
                  (w, Val (Backoff (BoCfg min max j) rng (Z.of_nat (S i)), base_of (BoCfg min max j) (Z.of_nat i)))).
      { unfold next_backoff. rewrite base_value by (cbn [b_cfg b_iter]; auto; lia). cbn [b_cfg b_iter].
        unfold bind, bo_jitter_part. cbn [b_cfg bo_jitter b_rng]. destruct zero64 as [Z0 Z1]. assert (G1 := G); destruct G1 as (_ & G2 & _ & _ & F & _). cbn [bo_jitter bo_max] in F, G2.
        rewrite (Beqb_correct _ _ _ _ F Z1), Z0, J, Req_bool_true by reflexivity. unfold ret. rewrite Z.add_0_r.
        assert (B := @base_range _ (Z.of_nat i) G ltac:(lia)). cbn [bo_max bo_min] in B. unfold duration in *.
        destruct (Z.ltb_spec dur_max (base_of (BoCfg min max j) (Z.of_nat i))); [lia|].
        destruct (Z.ltb_spec (Z.of_nat i + 1) (2 ^ 32)); [|lia]. replace (Z.of_nat (S i)) with (Z.of_nat i + 1) by lia. reflexivity. }
      rewrite X. f_equal. apply IH. lia. }
    apply (H n O). cbn [plus]. exact Hn.
  Qed.

  Lemma base_never_decreases min max j (rng : R) m k k' : maker_new min max j rng = Ok m -> duration min -> duration max ->
    0 <= k <= k' -> min <= base_of (BoCfg min max j) k <= base_of (BoCfg min max j) k' /\ base_of (BoCfg min max j) k' <= max.
  Proof.
    intros E D1 D2 H. destruct (@made_good _ _ _ _ _ E D1 D2) as [_ G]. assert (A := @base_mono _ k k' G H).
    assert (B := @base_range _ k G ltac:(lia)). assert (C := @base_range _ k' G ltac:(lia)). cbn [bo_min bo_max] in *. lia.
  Qed.

  (** Two retry sequences of one maker. *)
  Lemma sessions_alike debug (f : R -> R * Z) (m : maker (R := R)) n w w' : (forall g w, next_u64 g w = (w, Val (f g))) ->
    delays next_u64 debug n (make_backoff m) w = delays next_u64 debug n (make_backoff m) w'.
  Proof.
    intros H. generalize (make_backoff m) as b. revert w w'. induction n as [|n IH]; intros w w' b; [reflexivity|]. cbn [delays].
    assert (X : exists r, forall w, next_backoff next_u64 debug b w = (w, r)).
    { unfold next_backoff. destruct (bo_base debug b) as [base| |]; [|eexists; reflexivity|eexists; reflexivity].
      assert (Y : exists r, forall w, bo_jitter_part next_u64 debug b base w = (w, r)).
      { unfold bo_jitter_part. destruct (Beqb _ _); [eexists; reflexivity|]. unfold bind.
        destruct (f (b_rng b)) as [g v] eqn:Ef. eexists. intros w0. rewrite H, Ef. reflexivity. }
      destruct Y as [[[g j]| |] Y]; unfold bind; [|eexists; intros w0; rewrite Y; reflexivity|eexists; intros w0; rewrite Y; reflexivity].
      destruct (dur_max <? base + j) eqn:D1; [eexists; intros w0; rewrite Y, D1; reflexivity|].
      destruct (b_iter b + 1 <? 2 ^ 32) eqn:D2; [eexists; intros w0; rewrite Y, D1, ?D2; reflexivity|].
      destruct debug; eexists; intros w0; rewrite Y, D1, ?D2; reflexivity. }
    destruct X as [r X]. rewrite !X. destruct r as [[b1 d]| |]; auto. f_equal. apply IH.
  Qed.

  Lemma never_panics min max j (rng : R) m n w : maker_new min max j rng = Ok m -> duration min -> duration max -> proper next_u64 ->
    (B2R j <= 1 \/ IZR max * B2R j <= IZR (2 ^ 63 * second))%R ->
    length (delays next_u64 false n (make_backoff m) w) = n /\
    Forall (fun o => exists d, o = Val d) (delays next_u64 false n (make_backoff m) w).
  Proof.
    intros E D1 D2 Pr T. destruct (@made_good _ _ _ _ _ E D1 D2) as [Em G]. rewrite Em. clear E Em m.
    assert (H : forall n b w, b_cfg b = BoCfg min max j -> 0 <= b_iter b < 2 ^ 32 ->
      length (delays next_u64 false n b w) = n /\ Forall (fun o => exists d, o = Val d) (delays next_u64 false n b w)).
    { clear n w. induction n as [|n IH]; intros b w Eb Hi; [split; [reflexivity|constructor]|]. cbn [delays].
      destruct (@next_total W R next_u64 false b w) as (b1 & d & X & Y & Z); try (rewrite Eb); auto.
      destruct (next_backoff next_u64 false b w) as [w1 r]. cbn [snd] in X. subst r.
      destruct (IH b1 w1) as [I1 I2]; [congruence|exact Y|]. split; [cbn [length]; congruence|constructor; eauto]. }
    apply H; [reflexivity|cbn; lia].
  Qed.
  (** In debug builds: unless the generator gives a number below 2048 (next_f64 is 0.0). *)
  Lemma panics_on_zero debug b w w1 : good (b_cfg b) -> tame (b_cfg b) -> 0 <= b_iter b < 2 ^ 32 - 1 -> proper next_u64 ->
    next_backoff next_u64 debug b w = (w1, Panic) ->
    debug = true /\ exists g v, snd (next_u64 (b_rng b) w) = Val (g, v) /\ v < 2048.
  Proof.
    intros G T Hi Pr E. destruct debug.
    2: { destruct (@next_total W R next_u64 false b w G T ltac:(lia) Pr ltac:(auto)) as (b1 & d & X & _). rewrite E in X. discriminate X. }
    split; [reflexivity|]. destruct (Pr (b_rng b) w) as (g & v & P1 & P2). exists g, v. split; [exact P1|].
    destruct (Z.lt_ge_cases v 2048); auto. exfalso.
    destruct (@next_total W R next_u64 true b w G T ltac:(lia) Pr) as (b1 & d & X & _); [|rewrite E in X; discriminate X].
    right. split; [lia|]. intros v' [g' P3]. rewrite P1 in P3. injection P3 as _ <-. unfold next_f64_num. rewrite Z.shiftr_div_pow2 by lia. change (2 ^ 11) with 2048.
    assert (1 <= v / 2048) by (apply Z.div_le_lower_bound; lia). lia.
  Qed.

  Lemma second_unjittered debug max j (rng : R) m w : maker_new second max j rng = Ok m -> duration max ->
    proper next_u64 -> (B2R j <= 1)%R ->
    forall d, nth_error (delays next_u64 debug 1 (make_backoff m) w) 0 = Some (Val d) -> d = second.
  Proof.
    intros E D2 Pr J d H. destruct (@made_good _ _ _ _ _ E ltac:(vm_compute; intuition congruence) D2) as [Em G]. rewrite Em in H. cbn [delays nth_error] in H.
    destruct (next_backoff _ _ _ w) as [w1 [[b1 d1]| |]] eqn:X; try discriminate H. cbn in H. injection H as ->.
    unfold next_backoff in X. rewrite base_value in X by (cbn [b_cfg b_iter]; auto; lia).
    assert (B : base_of (BoCfg second max j) 0 = second).
    { unfold base_of. cbn [bo_max bo_min]. destruct G as (_ & _ & V & _). cbn [bo_min bo_max] in V. change (2 ^ 0) with 1. rewrite (Z.min_l 1) by lia. lia. }
    cbn [b_cfg b_iter] in X. rewrite B in X. unfold bind, bo_jitter_part in X. cbn [b_cfg b_rng bo_jitter bo_max] in X.
    destruct (Beqb j (f64_of 0 0)).
    - unfold ret in X. cbn in X. injection X as _ _ <-. reflexivity.
    - destruct (Pr rng w) as (g & v & P1 & P2). unfold bind in X. destruct (next_u64 rng w) as [w2 r]. cbn [snd] in P1. subst r.
      destruct (jitter_of debug j max second v) as [dj| |] eqn:Jo; try discriminate X.
      assert (dj = 0). { eapply (@jitter_second debug (BoCfg second max j)); eauto. destruct G as (_ & _ & V & _). exact V. }
      subst dj. cbn in X. injection X as _ _ <-. reflexivity.
  Qed.
End Top.

(** Counterexamples.  A generator giving the same number always: *)
Definition same (v : Z) (g : unit) : M unit (unit * Z) := ret (tt, v).
(** a jitter above 100 % and a huge maximum: [Duration::new] overflows; *)
Definition huge_min : Z := 2 ^ 63 * second + 999999999.
Lemma huge_panics : exists m, maker_new huge_min dur_max (f64_of 100 0) tt = Ok m /\
  delays (same (2 ^ 64 - 1)) false 1 (make_backoff m) tt = [Panic].
Proof. eexists. split; [reflexivity|]. vm_compute. reflexivity. Qed.
(** debug builds panic when the generator gives 0. *)
Lemma zero_panics : exists m, maker_new 50000000 second (f64_of 1 0) tt = Ok m /\
  delays (same 0) true 1 (make_backoff m) tt = [Panic] /\ delays (same 0) false 1 (make_backoff m) tt = [Val 50000000].
Proof. eexists. split; [reflexivity|]. vm_compute. auto. Qed.
