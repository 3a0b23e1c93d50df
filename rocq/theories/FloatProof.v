(** Facts on floats. *)
From Coq Require Import ZArith Reals Lia Lra Bool.
From Flocq Require Import Core BinarySingleNaN Relative.
From Verif Require Import Float.
Set Implicit Arguments.
Local Open Scope R_scope.

Lemma f32_real m e s m' e' : B2SF (f32_of m e) = SpecFloat.S754_finite s m' e' -> B2R (f32_of m e) = F2R (Float radix2 (cond_Zopp s (Zpos m')) e').
Proof. intros H. rewrite <- SF2R_B2SF, H. reflexivity. Qed.
Lemma one32 : B2R (f32_of 1 0) = 1 /\ is_finite (f32_of 1 0) = true.
Proof.
  split; [|vm_compute; reflexivity].
  rewrite (@f32_real 1 0 false 8388608 (-23)) by (vm_compute; reflexivity). unfold F2R. cbn. lra.
Qed.
Lemma thousand32 : B2R (f32_of 1000 0) = 1000 /\ is_finite (f32_of 1000 0) = true.
Proof.
  split; [|vm_compute; reflexivity].
  rewrite (@f32_real 1000 0 false 16384000 (-14)) by (vm_compute; reflexivity). unfold F2R. cbn. lra.
Qed.
Lemma zero32 : B2R (f32_of 0 0) = 0 /\ is_finite (f32_of 0 0) = true.
Proof. split; vm_compute; reflexivity. Qed.

Lemma positive_sign prec emax (x : binary_float prec emax) : 0 < B2R x -> Bsign x = false.
Proof.
  destruct x as [s|s| |s m e H]; cbn; intros; try lra. destruct s; [|reflexivity]. exfalso.
  assert (F2R (Float radix2 (Zneg m) e) < 0) by (apply F2R_lt_0; cbn; lia). cbn in *. lra.
Qed.

Lemma trunc_floor prec emax (Hp : Prec_lt_emax prec emax) (x : binary_float prec emax) : 0 <= B2R x -> Btrunc x = Zfloor (B2R x).
Proof.
  intros H. apply eq_IZR. rewrite (Btrunc_correct prec emax Hp). unfold round, F2R, scaled_mantissa, cexp, FIX_exp. cbn [Fnum Fexp].
  cbn [Z.opp bpow]. rewrite !Rmult_1_r. rewrite Ztrunc_floor by exact H. reflexivity.
Qed.

Section Quot.
  Variables num p : f32.
  Hypothesis Fn : is_finite num = true.
  Hypothesis Fp : is_finite p = true.
  Hypothesis Pp : 0 < B2R p.
  Hypothesis Pn : 0 < B2R num.
  Hypothesis Ge : B2R p <= B2R num.
  Let x := B2R num / B2R p.
  Let r := round radix2 (SpecFloat.fexp 24 128) ZnearestE x.
  Let eps := / 2 * bpow radix2 (-24 + 1).

  Lemma x_ge : 1 <= x.
  Proof. unfold x. apply (Rmult_le_reg_r (B2R p)); [exact Pp|]. field_simplify; lra. Qed.
  Lemma r_near : Rabs (r - x) <= eps * x.
  Proof.
    assert (X := x_ge). rewrite <- (Rabs_pos_eq x) at 2 by lra.
    change (SpecFloat.fexp 24 128) with (FLT_exp (-149) 24) in r. unfold r.
    apply (relative_error_N_FLT radix2 (-149) 24 eq_refl (fun z => negb (Z.even z)) x).
    rewrite Rabs_pos_eq by lra. apply Rle_trans with (bpow radix2 0); [apply bpow_le; lia|cbn; lra].
  Qed.
  Lemma r_ge : 1 <= r.
  Proof.
    unfold r. apply round_ge_generic; [apply fexp_correct; reflexivity|apply valid_rnd_N| |apply x_ge].
    change 1 with (bpow radix2 0). apply generic_format_bpow. vm_compute. discriminate.
  Qed.

  Lemma quot_cast (lo hi : Z) : (lo <= 0)%Z -> (1 <= hi)%Z -> IZR hi <= bpow radix2 64 ->
    (1 <= cast lo hi (div32 num p) <= hi)%Z /\
    IZR (cast lo hi (div32 num p)) <= x * (1 + eps) /\
    (x * (1 + eps) < IZR hi -> x * (1 - eps) - 1 < IZR (cast lo hi (div32 num p))).
  Proof.
    intros Hlo Hhi Hm. assert (X := x_ge). assert (N := r_near). assert (G := r_ge). apply Rabs_le_inv in N.
    assert (C := Bdiv_correct 24 128 prec32 emax32 mode_NE num p ltac:(lra)). cbn [round_mode] in C. fold x in C. fold r in C.
    fold (div32 num p) in C. rewrite (Rabs_pos_eq r) in C by lra.
    destruct (Rlt_bool_spec r (bpow radix2 128)) as [L|L].
    - destruct C as (C1 & C2 & _). rewrite Fn in C2.
      assert (F : Btrunc (div32 num p) = Zfloor r) by (rewrite (trunc_floor emax32) by lra; rewrite C1; reflexivity).
      assert (E : cast lo hi (div32 num p) = Z.max lo (Z.min hi (Zfloor r))).
      { rewrite <- F. destruct (div32 num p) as [s|s| |s m e Hb]; cbn in *; try discriminate C2; reflexivity. }
      rewrite E. assert (F1 := Zfloor_lb r). assert (F2 := Zfloor_ub r).
      assert (F3 : (1 <= Zfloor r)%Z) by (apply Zfloor_lub; exact G).
      split; [lia|]. split.
      + apply Rle_trans with r; [|lra]. apply Rle_trans with (IZR (Zfloor r)); [apply IZR_le; lia|exact F1].
      + intros Hs. rewrite Z.max_r by lia. assert (Zfloor r < hi)%Z by (apply lt_IZR; lra). rewrite Z.min_r by lia. lra.
    - rewrite (positive_sign num Pn), (positive_sign p Pp) in C. cbn in C.
      assert (E : cast lo hi (div32 num p) = hi) by (destruct (div32 num p) as [s|s| |s m e Hb]; cbn in *; try discriminate C; injection C as ->; reflexivity).
      rewrite E. assert (bpow radix2 64 < bpow radix2 128) by (apply bpow_lt; lia). split; [lia|]. split; [lra|]. intros. lra.
  Qed.
End Quot.
