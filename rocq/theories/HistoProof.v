(** Proofs for C23. *)
From Verif Require Import Base Hedge HistoSpec.
Set Implicit Arguments.
Local Open Scope Z_scope.

Lemma nanos_id d : 0 <= d <= u64_max -> nanos d = d.
Proof.
  intros H. unfold nanos. pose proof (Z.div_mod d 1000000000 ltac:(lia)) as E.
  pose proof (Z.mod_pos_bound d 1000000000 ltac:(lia)) as B.
  assert (d / 1000000000 * 1000000000 <= u64_max) by lia.
  rewrite (Z.min_r u64_max (d / 1000000000 * 1000000000)) by assumption.
  rewrite Z.min_r; lia.
Qed.

Section HistoProof.
  Variable t0 per : Z.
  Hypothesis Hper : 0 < per.
  Notation pd := (period_of t0 per).
  Notation rec := (recorded_in t0 per).

  Lemma nanos_big d : u64_max <= d -> nanos d = u64_max.
  Proof.
    intros H. unfold nanos. pose proof (Z.div_mod d 1000000000 ltac:(lia)) as E.
    pose proof (Z.mod_pos_bound d 1000000000 ltac:(lia)) as B.
    assert (0 <= u64_max) by (unfold u64_max; lia). lia.
  Qed.

  Lemma rotate_eq h t :
    h_period h = per -> h_last h <= t -> t - h_last h < 2 ^ 32 * per -> t - h_last h < u64_max ->
    let q := (t - h_last h) / per in
    maybe_rotate t h = Val (
      if 2 <=? q then Histo [] [] (h_last h + per * q) per
      else if q =? 1 then Histo (h_write h) [] (h_last h + per * q) per
      else Histo (h_read h) (h_write h) (h_last h + per * q) per).
  Proof.
    intros Hp Hle Hlt Hu q. unfold maybe_rotate. rewrite Hp.
    replace (Z.max 0 (t - h_last h)) with (t - h_last h) by lia.
    assert (U : u64_max = 2 ^ 64 - 1) by reflexivity.
    rewrite (nanos_id (d := t - h_last h)) by lia.
    assert (Hn : (nanos per =? 0) = false).
    { apply Z.eqb_neq. destruct (Z.le_gt_cases per u64_max).
      - rewrite nanos_id by lia. lia.
      - rewrite nanos_big by lia. rewrite U. lia. }
    rewrite Hn.
    assert (Hq : (t - h_last h) / nanos per mod 2 ^ 32 = q).
    { destruct (Z.le_gt_cases per u64_max).
      - rewrite nanos_id by lia. apply Z.mod_small. split; [apply Z.div_pos; lia|].
        apply Z.div_lt_upper_bound; lia.
      - rewrite nanos_big by lia. unfold q.
        rewrite (Z.div_small (t - h_last h) per) by lia. rewrite (Z.div_small (t - h_last h) u64_max) by lia. reflexivity. }
    rewrite Hq. destruct (2 <=? q); auto. destruct (q =? 1); auto.
  Qed.

  (** What the histogram holds after the uses [l], the last of them at [p]. *)
  Definition holds (l : list hop) (p : Z) (h : histo) : Prop :=
    h_period h = per /\ h_last h = t0 + pd p * per /\
    h_write h = rec (pd p) l [] /\ h_read h = rec (pd p - 1) l [].

  Lemma rec_app k l l' acc : rec k (l ++ l') acc = rec k l' (rec k l acc).
  Proof. revert acc. induction l as [|[t v|t] l IH]; intros acc; cbn; auto. Qed.

  Lemma pd_mono a b : a <= b -> pd a <= pd b.
  Proof. intros H. apply Z.div_le_mono; lia. Qed.
  Lemma rec_later k l acc : (forall o, In o l -> pd (hop_time o) < k) -> rec k l acc = acc.
  Proof.
    revert acc. induction l as [|[t v|t] l IH]; intros acc H; cbn; auto.
    - specialize (H _ (or_introl eq_refl)) as H0. cbn in H0.
      replace (pd t =? k) with false by (symmetry; apply Z.eqb_neq; lia).
      apply IH. intros o Ho. apply H. right. auto.
    - apply IH. intros o Ho. apply H. right. auto.
  Qed.

  Lemma rotate_holds l p h t :
    holds l p h -> (forall o, In o l -> hop_time o <= p) ->
    t0 <= p -> p <= t -> t - p < (2 ^ 32 - 1) * per -> t - t0 < 2 ^ 64 - 1 ->
    exists h1, maybe_rotate t h = Val h1 /\
      h_period h1 = per /\ h_last h1 = t0 + pd t * per /\
      h_write h1 = rec (pd t) l [] /\ h_read h1 = rec (pd t - 1) l [].
  Proof.
    intros (H1 & H2 & H3 & H4) Hin Hp Ht Hgap Hu.
    pose proof (Z.div_mod (p - t0) per ltac:(lia)) as D. pose proof (Z.mod_pos_bound (p - t0) per Hper) as B.
    unfold period_of in H2.
    assert (L1 : h_last h <= p) by (rewrite H2; lia).
    assert (L2 : p < h_last h + per) by (rewrite H2; lia).
    assert (L3 : t0 <= h_last h) by (rewrite H2; pose proof (Z.div_pos (p - t0) per); lia).
    assert (Eq : (t - h_last h) / per = pd t - pd p).
    { unfold period_of. rewrite H2. replace (t - (t0 + (p - t0) / per * per)) with (t - t0 + (- ((p - t0) / per)) * per) by lia.
      rewrite Z.div_add by lia. lia. }
    assert (Hle : forall o, In o l -> pd (hop_time o) <= pd p) by (intros o Ho; apply pd_mono, Hin, Ho).
    pose proof (pd_mono Ht) as Hm.
    eexists. split.
    { apply rotate_eq; auto; try lia. unfold u64_max. lia. }
    rewrite Eq.
    destruct (Z.leb_spec 2 (pd t - pd p)) as [C|C].
    - cbn. split; [auto|]. split; [unfold period_of in *; rewrite H2; lia|].
      split; symmetry; apply rec_later; intros o Ho; specialize (Hle o Ho); lia.
    - destruct (Z.eqb_spec (pd t - pd p) 1) as [C1|C1].
      + cbn. split; [auto|]. split; [unfold period_of in *; rewrite H2; lia|]. split.
        * symmetry. apply rec_later. intros o Ho. specialize (Hle o Ho). lia.
        * rewrite H3. f_equal. lia.
      + assert (C2 : pd t = pd p) by lia. cbn. split; [auto|]. split; [unfold period_of in *; rewrite H2; lia|].
        rewrite C2. auto.
  Qed.

  Lemma run_holds l t : forall l0 p h, holds l0 p h -> (forall o, In o l0 -> hop_time o <= p) -> t0 <= p ->
    usable t0 per p (l ++ [HRead t]) ->
    exists h1 h2, histo_run h l = Val h1 /\ histo_read t h1 = Val (h2, rec (pd t - 1) (l0 ++ l) []).
  Proof.
    induction l as [|o l IH]; intros l0 p h HH Hin Hp Hok; cbn [app usable] in Hok; destruct Hok as (U1 & U2 & U3 & U4);
      destruct (rotate_holds HH Hin Hp U1 U2 U3) as (h1 & E & R1 & R2 & R3 & R4).
    - rewrite app_nil_r. cbn [hop_time] in *. exists h, h1. split; [reflexivity|].
      unfold histo_read. rewrite E, R4. reflexivity.
    - assert (Hin' : forall o', In o' (l0 ++ [o]) -> hop_time o' <= hop_time o).
      { intros o' Ho. apply in_app_or in Ho. destruct Ho as [Ho|[<-|[]]]; [|lia]. apply Hin in Ho. lia. }
      destruct o as [s v|s]; cbn [hop_time] in *.
      + destruct (IH (l0 ++ [HRecord s v]) s (Histo (h_read h1) (v :: h_write h1) (h_last h1) (h_period h1)))
          as (h2 & h3 & F1 & F2); auto; try lia.
        { split; [|split; [|split]]; cbn; auto.
          - rewrite rec_app. cbn. rewrite Z.eqb_refl, R3. reflexivity.
          - rewrite rec_app. cbn. replace (pd s =? pd s - 1) with false by (symmetry; apply Z.eqb_neq; lia). exact R4. }
        exists h2, h3. rewrite <- app_assoc in F2. split; [|exact F2].
        cbn [histo_run]. unfold histo_record. rewrite E. exact F1.
      + destruct (IH (l0 ++ [HRead s]) s h1) as (h2 & h3 & F1 & F2); auto; try lia.
        { split; [|split; [|split]]; cbn; auto; rewrite rec_app; cbn; auto. }
        exists h2, h3. rewrite <- app_assoc in F2. split; [|exact F2].
        cbn [histo_run]. unfold histo_read. rewrite E. exact F1.
  Qed.

  Lemma histo_exact l t : usable t0 per t0 (l ++ [HRead t]) ->
    exists h1 h2, histo_run (histo_new t0 per) l = Val h1 /\
      histo_read t h1 = Val (h2, rec (pd t - 1) l []).
  Proof.
    intros H. apply (@run_holds l t [] t0); auto; try lia.
    - unfold holds. cbn. unfold period_of. rewrite Z.sub_diag, Z.div_0_l by lia. auto with zarith.
    - intros o [].
  Qed.

  (** Every value reported was recorded less than two periods before, and in an earlier period. *)
  Lemma rec_in k l : forall acc v, In v (rec k l acc) -> In v acc \/ exists t, In (HRecord t v) l /\ pd t = k.
  Proof.
    induction l as [|[s u|s] l IH]; intros acc v; cbn [recorded_in]; auto.
    - intros H. apply IH in H. destruct H as [H|(t & H & E)]; [|right; exists t; cbn; auto].
      destruct (Z.eqb_spec (pd s) k); [|auto]. destruct H as [->|H]; [|auto]. right. exists s. cbn. auto.
    - intros H. apply IH in H. destruct H as [H|(t & H & E)]; [auto|right; exists t; cbn; auto].
  Qed.
  Lemma histo_fresh l t v : In v (rec (pd t - 1) l []) ->
    exists s, In (HRecord s v) l /\ t - 2 * per < s < t.
  Proof.
    intros H. apply rec_in in H. destruct H as [[]|(s & H & E)]. exists s. split; auto.
    unfold period_of in E.
    pose proof (Z.div_mod (s - t0) per ltac:(lia)). pose proof (Z.mod_pos_bound (s - t0) per Hper).
    pose proof (Z.div_mod (t - t0) per ltac:(lia)). pose proof (Z.mod_pos_bound (t - t0) per Hper). nia.
  Qed.
End HistoProof.

Lemma histo_zero_period h t v : h_period h = 0 -> histo_read t h = Panic /\ histo_record t v h = Panic.
Proof. intros H. unfold histo_read, histo_record, maybe_rotate. rewrite H. auto. Qed.

(** 2^32 periods (plus one) between two uses: the ancient value is reported. *)
Lemma histo_stale :
  ~ (forall t0 per l t h1 h2 r v, 0 < per -> (forall o, In o l -> t0 <= hop_time o <= t) ->
     histo_run (histo_new t0 per) l = Val h1 -> histo_read t h1 = Val (h2, r) -> In v r ->
     exists s, In (HRecord s v) l /\ t - 2 * per < s).
Proof.
  intros H. destruct (H 0 1 [HRecord 0 7] (2 ^ 32 + 1) (Histo [] [7] 0 1) (Histo [7] [] 1 1) [7] 7) as (s & Hs & Hl); auto.
  - reflexivity.
  - intros o [<-|[]]. cbn. lia.
  - cbn. auto.
  - destruct Hs as [Hs|[]]. injection Hs as <-. lia.
Qed.

(** Milliseconds are rounded up. *)
Lemma millis_up d : 0 <= d < 2 ^ 64 * 1000000 - 1000000000 -> 1000000 * (millis d - 1) < d <= 1000000 * millis d.
Proof.
  intros H. unfold millis, u64_max.
  pose proof (Z.div_mod d 1000000000 ltac:(lia)) as E. pose proof (Z.mod_pos_bound d 1000000000 ltac:(lia)) as B.
  set (a := d / 1000000000) in *. set (b := d mod 1000000000) in *.
  pose proof (Z.div_mod (b + 1000000 - 1) 1000000 ltac:(lia)) as E2.
  pose proof (Z.mod_pos_bound (b + 1000000 - 1) 1000000 ltac:(lia)) as B2.
  set (c := (b + 1000000 - 1) / 1000000) in *.
  assert (2 ^ 64 = 18446744073709551616) as P by reflexivity. rewrite P in *.
  rewrite (Z.min_r _ (a * 1000)) by lia. rewrite Z.min_r by lia. lia.
Qed.
