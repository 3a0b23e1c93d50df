(** Proofs about the retry budget used by one thread. *)
From Verif Require Import Base Tps TpsSpec.
Set Implicit Arguments.
Local Open Scope Z_scope.


Lemma store_length l i v : length (store l i v) = length l.
Proof. revert i. induction l as [|x l IH]; intros [|i]; cbn; auto. Qed.
Lemma store_nth l i v j : (i < length l)%nat -> nth j (store l i v) 0 = if (j =? i)%nat then v else nth j l 0.
Proof.
  revert i j. induction l as [|x l IH]; intros i j H; [cbn in H; lia|].
  destruct i as [|i], j as [|j]; cbn; auto. apply IH. cbn in H. lia.
Qed.

(** Ghost entries: what it is, and index and time of the generation it fell into. *)
Record gent := Gent { x_e : entry; x_n : Z; x_g : Z }.

Section Sums.
  Variable c : tps_cfg.
  (** Value of the entries in generation [n]: deposits, withdrawals. *)
  Definition dat (n : Z) (G : list gent) : Z := t_deposit c * deps (map x_e (filter (fun x => x_n x =? n) G)).
  Definition wat (n : Z) (G : list gent) : Z := t_withdraw c * wds (map x_e (filter (fun x => x_n x =? n) G)).
  Definition at_ (n : Z) (G : list gent) : Z := dat n G - wat n G.

  Definition ring (N : Z) (slots : list Z) (G : list gent) : Prop :=
    length slots = 10%nat /\ forall n, N - 10 <= n < N -> nth (Z.to_nat (n mod 10)) slots 0 = at_ n G.

  Lemma mod10 n : 0 <= n mod 10 < 10.
  Proof. apply Z.mod_pos_bound. lia. Qed.
  Lemma mod10_inj n m : n mod 10 = m mod 10 -> m < n < m + 10 -> False.
  Proof. intros E H. pose proof (Z.div_mod n 10). pose proof (Z.div_mod m 10). assert (n - m = 10 * (n / 10 - m / 10)) by lia. lia. Qed.

  Lemma ring_step M slots G v : ring M slots G -> v = at_ M G -> ring (M + 1) (store slots (Z.to_nat (M mod 10)) v) G.
  Proof.
    intros [L H] ->. split; [rewrite store_length; exact L|]. intros n Hn. pose proof (mod10 M) as B. pose proof (mod10 n) as B'.
    rewrite store_nth by lia. destruct (Nat.eqb_spec (Z.to_nat (n mod 10)) (Z.to_nat (M mod 10))) as [E|E].
    - assert (n mod 10 = M mod 10) by lia. destruct (Z.eq_dec n M) as [->|Ne]; [reflexivity|].
      exfalso. apply (@mod10_inj M n); [congruence|lia].
    - apply H. assert (n <> M) by (intros ->; auto). lia.
  Qed.
  Lemma mod10_succ M : ((Z.to_nat (M mod 10) + 1) mod 10)%nat = Z.to_nat ((M + 1) mod 10).
  Proof.
    apply Nat2Z.inj. rewrite Nat2Z.inj_mod, Nat2Z.inj_add. pose proof (mod10 M). pose proof (mod10 (M + 1)).
    rewrite !Z2Nat.id by lia. change (Z.of_nat 1) with 1. change (Z.of_nat 10) with 10. rewrite Zplus_mod_idemp_l. reflexivity.
  Qed.

  Definition ceil_div (d w : Z) : Z := - ((- d) / w).
  Lemma ceil_spec d w : 0 < w -> (ceil_div d w - 1) * w < d <= ceil_div d w * w.
  Proof.
    intros H. unfold ceil_div. pose proof (Z.div_mod (- d) w ltac:(lia)). pose proof (Z.mod_pos_bound (- d) w H). nia.
  Qed.
  Lemma ceil_step d w : 0 < w -> ceil_div d w = ceil_div (d - w) w + 1.
  Proof.
    intros H. pose proof (@ceil_spec d w H). pose proof (@ceil_spec (d - w) w H). nia.
  Qed.
  Lemma ceil_two d w : 0 < w <= d -> 1 <= ceil_div d w <= 2 * (d / w).
  Proof.
    intros H. assert (0 < w) by lia. pose proof (@ceil_spec d w H0). pose proof (Z.div_mod d w ltac:(lia)). pose proof (Z.mod_pos_bound d w H0).
    assert (1 <= d / w) by (apply Z.div_le_lower_bound; lia).
    assert (1 <= ceil_div d w) by nia. assert (ceil_div d w - 1 < d / w + 1) by nia. lia.
  Qed.

  (** The loop passes [ceil (diff / w) - 1] generations, all empty. *)
  Lemma loop_spec w G : 0 < w -> forall fuel diff M slots, ring M slots G -> (forall n, M <= n -> at_ n G = 0) ->
    0 < diff -> diff / w <= Z.of_nat fuel ->
    exists slots', expire_loop fuel w diff (Z.to_nat (M mod 10)) slots = Val (Z.to_nat ((M + (ceil_div diff w - 1)) mod 10), slots') /\
      ring (M + (ceil_div diff w - 1)) slots' G.
  Proof.
    intros Hw. induction fuel as [|fuel IH]; intros diff M slots R Z0 Hd Hf; cbn [expire_loop]; rewrite Z.gtb_ltb; destruct (Z.ltb_spec w diff) as [L|L].
    - exfalso. assert (1 <= diff / w) by (apply Z.div_le_lower_bound; lia). lia.
    - assert (E : ceil_div diff w = 1) by (pose proof (@ceil_spec diff w Hw); nia). rewrite E. replace (M + (1 - 1)) with M by lia. eauto.
    - rewrite mod10_succ. destruct (IH (diff - w) (M + 1) (store slots (Z.to_nat (M mod 10)) 0)) as (s & E & R').
      + apply ring_step; [exact R|]. symmetry. apply Z0. lia.
      + intros n Hn. apply Z0. lia.
      + lia.
      + replace (diff - w) with (diff + (-1) * w) by lia. rewrite Z.div_add by lia. lia.
      + rewrite (@ceil_step diff w Hw). exists s. replace (M + (ceil_div (diff - w) w + 1 - 1)) with (M + 1 + (ceil_div (diff - w) w - 1)) by lia. auto.
    - assert (E : ceil_div diff w = 1) by (pose proof (@ceil_spec diff w Hw); nia). rewrite E. replace (M + (1 - 1)) with M by lia. eauto.
  Qed.
End Sums.

Definition total (G : list gent) : list entry := map x_e G.
Definition counted (N : Z) (G : list gent) : list gent := filter (fun x => N - 10 <=? x_n x) G.
Lemma deps_app a b : deps (a ++ b) = deps a + deps b.
Proof. induction a as [|[t|t] a IH]; cbn [app deps]; lia. Qed.
Lemma wds_app a b : wds (a ++ b) = wds a + wds b.
Proof. induction a as [|[t|t] a IH]; cbn [app wds]; lia. Qed.
Lemma deps_pos a : 0 <= deps a.
Proof. induction a as [|[t|t] a IH]; cbn [deps]; lia. Qed.
Lemma wds_pos a : 0 <= wds a.
Proof. induction a as [|[t|t] a IH]; cbn [wds]; lia. Qed.
Lemma deps_filter f (G : list gent) : deps (total (filter f G)) <= deps (total G).
Proof. unfold total. induction G as [|[[t|t] n g] G IH]; cbn [filter map x_e deps]; [lia| |]; destruct (f _); cbn [map x_e deps]; lia. Qed.
Lemma wds_filter f g (G : list gent) : (forall x, f x = true -> g x = true) -> wds (total (filter f G)) <= wds (total (filter g G)).
Proof.
  intros H. unfold total. induction G as [|[[t|t] n g0] G IH]; cbn [filter map wds x_e]; [lia| |];
    destruct (f _) eqn:E; try rewrite (H _ E); try destruct (g _); cbn [map x_e wds]; lia.
Qed.

  (** Without overflow, [fold_left sat_add] is the sum. *)
  Lemma fold_sat l : forall acc,
    (forall k, (k <= length l)%nat -> isize_min <= acc + fold_right Z.add 0 (firstn k l) <= isize_max) ->
    fold_left sat_add l acc = acc + fold_right Z.add 0 l.
  Proof.
    induction l as [|x l IH]; intros acc H; cbn [fold_left fold_right]; [lia|].
    assert (H1 := H 1%nat ltac:(cbn [length]; lia)). cbn [firstn fold_right] in H1. assert (E : sat_add acc x = acc + x) by (unfold sat_add, clamp; lia).
    rewrite E. rewrite IH; [lia|]. intros k Hk. specialize (H (Datatypes.S k)). cbn [firstn fold_right length] in H. lia.
  Qed.
  Lemma firstn_S_sum l k : (k < length l)%nat ->
    fold_right Z.add 0 (firstn (Datatypes.S k) l) = fold_right Z.add 0 (firstn k l) + nth k l 0.
  Proof.
    revert k. induction l as [|x l IH]; intros k H; [cbn in H; lia|]. destruct k as [|k]; [cbn; lia|].
    cbn [firstn fold_right nth] in *. rewrite IH by (cbn in H; lia). lia.
  Qed.

  Lemma wrap_id z : isize_min <= z <= isize_max -> wrap z = z.
  Proof.
    intros H. unfold wrap, isize_min, isize_max in *. rewrite Z.mod_small; lia.
  Qed.

Definition old (N : Z) (x : gent) : bool := (N - 10 <=? x_n x) && (x_n x <? N).

Section Inv.
  Variable c : tps_cfg.
  Hypothesis S : sane c.
  Let w := t_window c.


  Record inv (N : Z) (G : list gent) (b : tps) : Prop := {
    i_index : g_index b = Z.to_nat (N mod 10);
    i_ring : ring c N (t_slots b) G;
    i_writer : t_writer b = at_ c N G;
    i_tag : forall x, In x G -> x_n x <= N;
    i_gen : forall x, In x G -> x_g x <= when (x_e x) < x_g x + w;
    i_up : forall x, In x G -> g_time b - x_g x <= (N - x_n x) * w;
    i_low : forall x, In x G -> N - x_n x <= 2 * ((g_time b - x_g x) / w);
    i_sorted : forall G1 x G2, G = G1 ++ x :: G2 -> forall y, In y G2 -> x_n y <= x_n x;
    i_wd : t_withdraw c * wds (total (counted N G)) <= t_reserve c + t_deposit c * deps (total G);
    i_dep : t_reserve c + t_deposit c * deps (total G) <= isize_max }.

  Definition dsum (f : gent -> bool) (G : list gent) : Z := t_deposit c * deps (total (filter f G)).
  Definition wsum (f : gent -> bool) (G : list gent) : Z := t_withdraw c * wds (total (filter f G)).
  Definition val (f : gent -> bool) (G : list gent) : Z := dsum f G - wsum f G.
  Lemma val_split f g h G : (forall x, In x G -> f x = g x || h x /\ (g x && h x = false)) -> val f G = val g G + val h G.
  Proof.
    unfold val, dsum, wsum, total. intros H.
    enough (E : deps (map x_e (filter f G)) = deps (map x_e (filter g G)) + deps (map x_e (filter h G)) /\
                wds (map x_e (filter f G)) = wds (map x_e (filter g G)) + wds (map x_e (filter h G))) by (destruct E as [-> ->]; ring).
    induction G as [|x G IH]; [cbn; lia|]. destruct IH as [IH1 IH2]; [intros; apply H; right; assumption|].
    destruct (H x (or_introl eq_refl)) as [E1 E2]. destruct x as [[t|t] n q]; cbn [filter]; rewrite E1;
      destruct (g _), (h _); cbn in E2; try discriminate E2; cbn [orb map x_e deps wds]; lia.
  Qed.
  Lemma val_ext f g G : (forall x, In x G -> f x = g x) -> val f G = val g G.
  Proof. intros H. unfold val, dsum, wsum. rewrite (filter_ext_in _ _ _ H). reflexivity. Qed.
  Lemma val_range f g G : (forall x, f x = true -> g x = true) -> - wsum g G <= val f G <= dsum g G.
  Proof.
    intros H. destruct S. unfold val, dsum, wsum. assert (A := @deps_filter f G).
    assert (0 <= t_deposit c * deps (total (filter f G)) <= t_deposit c * deps (total (filter g G))).
    { split; [apply Z.mul_nonneg_nonneg; auto using deps_pos|]. apply Z.mul_le_mono_nonneg_l; [auto|].
      clear - H. unfold total. induction G as [|[[t|t] n g0] G IH]; cbn [filter map deps x_e]; [lia| |];
      destruct (f _) eqn:E; try rewrite (H _ E); try destruct (g _); cbn [map x_e deps]; lia. }
    assert (0 <= t_withdraw c * wds (total (filter f G)) <= t_withdraw c * wds (total (filter g G))).
    { split; [apply Z.mul_nonneg_nonneg; auto using wds_pos; lia|]. apply Z.mul_le_mono_nonneg_l; [lia|]. apply wds_filter. exact H. }
    lia.
  Qed.

  Lemma prefix_sum N slots G k : ring c N slots G -> (k <= 10)%nat ->
    fold_right Z.add 0 (firstn k slots) = val (fun x => old N x && (x_n x mod 10 <? Z.of_nat k)) G.
  Proof.
    intros [L R]. induction k as [|k IH]; intros Hk.
    - cbn [firstn fold_right]. rewrite (@val_ext _ (fun _ => false)).
      + unfold val, dsum, wsum. assert (E : filter (fun _ : gent => false) G = []) by (clear; induction G; auto). rewrite E. cbn [total map deps wds]. lia.
      + intros x _. pose proof (mod10 (x_n x)). destruct (Z.ltb_spec (x_n x mod 10) (Z.of_nat 0)); [lia|]. apply andb_false_r.
    - rewrite firstn_S_sum by lia. rewrite IH by lia. clear IH.
      set (m := N - 10 + (Z.of_nat k - N) mod 10).
      pose proof (mod10 (Z.of_nat k - N)) as B.
      assert (Em : m mod 10 = Z.of_nat k).
      { unfold m. replace (N - 10 + (Z.of_nat k - N) mod 10) with (N + (Z.of_nat k - N) mod 10 + (-1) * 10) by lia.
        rewrite Z.mod_add by lia. rewrite Zplus_mod_idemp_r. replace (N + (Z.of_nat k - N)) with (Z.of_nat k) by lia. apply Z.mod_small. lia. }
      assert (E : nth k slots 0 = at_ c m G).
      { rewrite <- R by lia. rewrite Em. rewrite Nat2Z.id. reflexivity. }
      rewrite E. symmetry. change (at_ c m G) with (val (fun x => x_n x =? m) G). apply val_split.
      intros x _. unfold old. destruct (Z.eqb_spec (x_n x) m) as [->|Ne].
      + rewrite Em. destruct (Z.leb_spec (N - 10) m); [|lia]. destruct (Z.ltb_spec m N); [|lia].
        destruct (Z.ltb_spec (Z.of_nat k) (Z.of_nat (Datatypes.S k))); [|lia]. destruct (Z.ltb_spec (Z.of_nat k) (Z.of_nat k)); [lia|]. auto.
      + rewrite orb_false_r, andb_false_r. split; [|reflexivity]. destruct (Z.leb_spec (N - 10) (x_n x)); [|reflexivity].
        destruct (Z.ltb_spec (x_n x) N); [|reflexivity]. cbn [andb].
        assert (x_n x mod 10 <> Z.of_nat k).
        { intros X. rewrite <- Em in X. destruct (Z_lt_le_dec (x_n x) m); [apply (@mod10_inj m (x_n x)); [congruence|lia]|].
          apply (@mod10_inj (x_n x) m); [exact X|lia]. }
        destruct (Z.ltb_spec (x_n x mod 10) (Z.of_nat (Datatypes.S k))), (Z.ltb_spec (x_n x mod 10) (Z.of_nat k)); auto; lia.
  Qed.

  Lemma sum_exact N G b : inv N G b -> tps_sum c b = balance c (total (counted N G)).
  Proof.
    intros I. assert (I9 := i_wd I). assert (I10 := i_dep I). assert (S2 := sane_reserve S).
    assert (D : dsum (fun x => N - 10 <=? x_n x) G <= isize_max - t_reserve c).
    { unfold dsum. assert (A := @deps_filter (fun x => N - 10 <=? x_n x) G). assert (S3 := sane_deposit S). nia. }
    assert (Wd : wsum (fun x => N - 10 <=? x_n x) G <= isize_max) by (unfold wsum; unfold counted in I9; lia).
    assert (P : forall k, (k <= length (t_slots b))%nat -> isize_min <= 0 + fold_right Z.add 0 (firstn k (t_slots b)) <= isize_max).
    { intros k Hk. destruct (i_ring I) as [L _]. rewrite (@prefix_sum N _ G) by (auto using (i_ring I); lia).
      assert (V := @val_range (fun x => old N x && (x_n x mod 10 <? Z.of_nat k)) (fun x => N - 10 <=? x_n x) G).
      unfold isize_min, isize_max in *. enough (forall x, old N x && (x_n x mod 10 <? Z.of_nat k) = true -> (N - 10 <=? x_n x) = true) by (specialize (V H); lia).
      intros x Hx. apply andb_prop in Hx as [Hx _]. apply andb_prop in Hx as [Hx _]. exact Hx. }
    unfold tps_sum. rewrite fold_sat by exact P. rewrite (i_writer I).
    assert (E : fold_right Z.add 0 (t_slots b) = val (old N) G).
    { destruct (i_ring I) as [L _]. rewrite <- (firstn_all (t_slots b)). rewrite L. rewrite (@prefix_sum N _ G _ (i_ring I)) by lia.
      apply val_ext. intros x _. pose proof (mod10 (x_n x)). destruct (Z.ltb_spec (x_n x mod 10) (Z.of_nat 10)); [|lia]. apply andb_true_r. }
    rewrite E.
    assert (V : at_ c N G + val (old N) G = val (fun x => N - 10 <=? x_n x) G).
    { change (at_ c N G) with (val (fun x => x_n x =? N) G). symmetry. apply val_split. intros x Hx. assert (T := i_tag I _ Hx). unfold old.
      destruct (Z.eqb_spec (x_n x) N), (Z.leb_spec (N - 10) (x_n x)), (Z.ltb_spec (x_n x) N); cbn; auto; lia. }
    assert (Q := @val_range (fun x => N - 10 <=? x_n x) (fun x => N - 10 <=? x_n x) G (fun _ H => H)).
    unfold sat_add, clamp. rewrite Z.add_0_l, V. unfold balance. unfold counted.
    change (t_reserve c + t_deposit c * deps (total (filter (fun x => N - 10 <=? x_n x) G)) - t_withdraw c * wds (total (filter (fun x => N - 10 <=? x_n x) G)))
      with (t_reserve c + dsum (fun x => N - 10 <=? x_n x) G - wsum (fun x => N - 10 <=? x_n x) G).
    unfold val in *. unfold isize_min, isize_max in *. lia.
  Qed.

  Lemma expire_inv N G b now : inv N G b -> (forall x, In x G -> when (x_e x) <= now) -> g_time b <= now ->
    exists N' b', expire c now b = Val b' /\ inv N' G b' /\ g_time b' <= now < g_time b' + w /\ N <= N'.
  Proof.
    intros I H T. unfold expire. fold w. assert (Hw : 0 < w) by apply (sane_window S). rewrite Z.max_r by lia.
    destruct (Z.ltb_spec (now - g_time b) w) as [L|L].
    - exists N, b. split; [reflexivity|]. split; [exact I|]. lia.
    - set (diff := now - g_time b) in *.
      assert (R1 : ring c (N + 1) (store (t_slots b) (g_index b) (t_writer b)) G).
      { rewrite (i_index I). apply ring_step; [apply I|apply I]. }
      rewrite (i_index I). rewrite mod10_succ.
      destruct (@loop_spec c w G Hw (expire_fuel c diff) diff (N + 1) (store (t_slots b) (g_index b) (t_writer b)) R1) as (s & E & R).
      + intros n Hn. unfold at_, dat, wat. assert (F : filter (fun x => x_n x =? n) G = []).
        { clear - I Hn. assert (T := i_tag I). clear I. induction G as [|x G IH]; [reflexivity|]. cbn [filter].
          assert (x_n x <= N) by (apply T; left; reflexivity). destruct (Z.eqb_spec (x_n x) n); [lia|]. apply IH. intros; apply T; right; assumption. }
        rewrite F. cbn. lia.
      + lia.
      + unfold expire_fuel. fold w. rewrite Z2Nat.id; [lia|]. apply Z.div_pos; lia.
      + rewrite (i_index I) in E. rewrite E. set (k := ceil_div diff w) in *.
        assert (Ck := @ceil_spec diff w Hw). fold k in Ck. assert (C2 := @ceil_two diff w ltac:(lia)). fold k in C2.
        replace (N + 1 + (k - 1)) with (N + k) in * by lia.
        exists (N + k). eexists. split; [reflexivity|]. split; [|cbn [g_time]; lia].
        split; cbn [g_index t_slots t_writer g_time].
        * reflexivity.
        * exact R.
        * unfold at_, dat, wat. assert (F : filter (fun x => x_n x =? N + k) G = []).
          { clear - I C2. assert (T := i_tag I). clear I. induction G as [|x G IH]; [reflexivity|]. cbn [filter].
            assert (x_n x <= N) by (apply T; left; reflexivity). destruct (Z.eqb_spec (x_n x) (N + k)); [lia|]. apply IH. intros; apply T; right; assumption. }
          rewrite F. cbn. lia.
        * intros x Hx. assert (X := i_tag I _ Hx). lia.
        * apply I.
        * intros x Hx. assert (X := i_up I _ Hx). fold w in X. unfold diff in *. lia.
        * intros x Hx. assert (X := i_low I _ Hx).
          assert (Y : diff / w + (g_time b - x_g x) / w <= (now - x_g x) / w).
          { apply Z.div_le_lower_bound; [lia|]. replace (now - x_g x) with (diff + (g_time b - x_g x)) by (unfold diff; lia).
            pose proof (Z.mul_div_le diff w Hw). pose proof (Z.mul_div_le (g_time b - x_g x) w Hw). lia. }
          lia.
        * apply I.
        * etransitivity; [|apply (i_wd I)]. apply Z.mul_le_mono_nonneg_l; [apply (sane_withdraw S)|].
          apply wds_filter. intros x Hx. apply Z.leb_le in Hx. apply Z.leb_le. lia.
        * apply I.
  Qed.

  (** The writer stays in range. *)
  Lemma writer_range N G b : inv N G b -> - isize_max <= t_writer b <= isize_max - t_reserve c.
  Proof.
    intros I. rewrite (i_writer I). change (at_ c N G) with (val (fun x => x_n x =? N) G).
    assert (Q := @val_range (fun x => x_n x =? N) (fun x => N - 10 <=? x_n x) G). assert (I9 := i_wd I). assert (I10 := i_dep I).
    assert (D : dsum (fun x => N - 10 <=? x_n x) G <= isize_max - t_reserve c).
    { unfold dsum. assert (A := @deps_filter (fun x => N - 10 <=? x_n x) G). assert (S3 := sane_deposit S). nia. }
    assert (Wd : wsum (fun x => N - 10 <=? x_n x) G <= isize_max) by (unfold wsum; unfold counted in I9; lia).
    enough (forall x, (x_n x =? N) = true -> (N - 10 <=? x_n x) = true) by (specialize (Q H); lia).
    intros x Hx. apply Z.eqb_eq in Hx. apply Z.leb_le. lia.
  Qed.

  Lemma add_inv N G b e v : inv N G b -> g_time b <= when e < g_time b + w ->
    isize_min <= t_writer b + v <= isize_max ->
    v = match e with EDep _ => t_deposit c | EWd _ => - t_withdraw c end ->
    t_reserve c + t_deposit c * deps (e :: total G) <= isize_max ->
    t_withdraw c * wds (e :: total (counted N G)) <= t_reserve c + t_deposit c * deps (e :: total G) ->
    inv N (Gent e N (g_time b) :: G) (add_writer v b).
  Proof.
    intros I T R Ev D Wd. assert (Hw : 0 < w) by apply (sane_window S).
    assert (Ex : forall n, n <> N -> at_ c n (Gent e N (g_time b) :: G) = at_ c n G).
    { intros n Hn. unfold at_, dat, wat. cbn [filter x_n]. destruct (Z.eqb_spec N n); [congruence|]. reflexivity. }
    split; cbn [add_writer g_index t_slots t_writer g_time].
    - apply I.
    - destruct (i_ring I) as [L Q]. split; [exact L|]. intros n Hn. rewrite Ex by lia. apply Q. exact Hn.
    - rewrite wrap_id by exact R. rewrite (i_writer I), Ev. unfold at_, dat, wat. cbn [filter x_n]. rewrite Z.eqb_refl. cbn [map x_e].
      destruct e; cbn [deps wds]; lia.
    - intros x [<-|Hx]; [cbn; lia|apply I; exact Hx].
    - intros x [<-|Hx]; [cbn [x_g x_e]; lia|apply I; exact Hx].
    - intros x [<-|Hx]; [cbn [x_g x_n]; lia|apply (i_up I); exact Hx].
    - intros x [<-|Hx]; [cbn [x_g x_n]|apply (i_low I); exact Hx]. replace (g_time b - g_time b) with 0 by lia. rewrite Z.div_0_l by lia. lia.
    - intros G1 x G2 E y Hy. destruct G1 as [|z G1]; cbn [app] in E; injection E as <- E.
      + cbn [x_n]. apply (i_tag I). rewrite E. exact Hy.
      + eapply (i_sorted I); eauto.
    - unfold counted, total in *. cbn [filter x_n]. destruct (Z.leb_spec (N - 10) N); [|lia]. cbn [map x_e]. exact Wd.
    - exact D.
  Qed.

  (** The entries that count are the newest ones. *)
  Lemma counted_split N G b now : inv N G b -> g_time b <= now < g_time b + w ->
    exists older, total G = total (counted N G) ++ older /\
      (forall e, In e (total (counted N G)) -> now - when e < 11 * w) /\ (forall e, In e older -> now - when e > 5 * w).
  Proof.
    intros I T. assert (Hw : 0 < w) by apply (sane_window S).
    exists (total (filter (fun x => negb (N - 10 <=? x_n x)) G)). split; [|split].
    - assert (So := i_sorted I). clear - So. unfold total. rewrite <- map_app. f_equal. unfold counted.
      induction G as [|x G IH]; [reflexivity|]. cbn [filter].
      assert (IH' : G = filter (fun x => N - 10 <=? x_n x) G ++ filter (fun x => negb (N - 10 <=? x_n x)) G).
      { apply IH. intros G1 y G2 E z Hz. apply (So (x :: G1) y G2); [rewrite E; reflexivity|exact Hz]. }
      destruct (Z.leb_spec (N - 10) (x_n x)) as [L|L]; cbn [negb app]; [f_equal; exact IH'|].
      assert (F : filter (fun x => N - 10 <=? x_n x) G = []).
      { assert (B : forall y, In y G -> x_n y <= x_n x) by (intros y Hy; exact (So [] x G eq_refl y Hy)).
        clear - L B. induction G as [|y G IH]; [reflexivity|]. cbn [filter]. assert (x_n y <= x_n x) by (apply B; left; reflexivity).
        destruct (Z.leb_spec (N - 10) (x_n y)); [lia|]. apply IH. intros; apply B; right; assumption. }
      rewrite F in *. cbn [app] in *. f_equal. exact IH'.
    - intros e He. unfold total in He. apply in_map_iff in He as (x & <- & Hx). apply filter_In in Hx as [Hx L]. apply Z.leb_le in L.
      assert (A := i_up I _ Hx). assert (B := i_gen I _ Hx). fold w in A, B. nia.
    - intros e He. unfold total in He. apply in_map_iff in He as (x & <- & Hx). apply filter_In in Hx as [Hx L].
      apply negb_true_iff in L. apply Z.leb_gt in L.
      assert (A := i_low I _ Hx). assert (B := i_gen I _ Hx). fold w in A, B.
      assert (6 <= (g_time b - x_g x) / w) by lia. pose proof (Z.mul_div_le (g_time b - x_g x) w Hw). nia.
  Qed.

  Lemma start_inv t0 : inv 0 [] (tps_start t0).
  Proof.
    destruct S. split; cbn [tps_start g_index t_slots t_writer g_time].
    - reflexivity.
    - split; [reflexivity|]. intros n _. unfold at_, dat, wat. cbn [filter map deps wds].
      generalize (Z.to_nat (n mod 10)). intros k. assert (nth k (repeat 0 10) 0 = 0) by apply nth_repeat. lia.
    - unfold at_, dat, wat. cbn. lia.
    - intros x [].
    - intros x [].
    - intros x [].
    - intros x [].
    - intros [|y G1] x G2 E; discriminate E.
    - cbn [total counted filter map deps wds]. lia.
    - cbn [total map deps]. lia.
  Qed.
End Inv.

Section Run.
  Variable c : tps_cfg.
  Hypothesis S : sane c.
  Let w := t_window c.

  Lemma deposits_pos ops : 0 <= deposits ops.
  Proof. induction ops as [|[t [|]] ops IH]; cbn [deposits]; lia. Qed.

  (** A withdrawal in the middle of a run. *)
  Definition decided (hist : list entry) (t : Z) (a : bool) : Prop :=
    exists recent older, hist = recent ++ older /\ (forall e, In e recent -> t - when e < 11 * w) /\
      (forall e, In e older -> t - when e > 5 * w) /\ (a = true <-> t_withdraw c <= balance c recent).

  Fixpoint all_decided (hist : list entry) (ops : list (Z * tps_op)) (answers : list (out (option bool))) : Prop :=
    match ops, answers with
    | [], [] => True
    | (t, Deposit) :: ops', Val None :: answers' => all_decided (EDep t :: hist) ops' answers'
    | (t, Withdraw) :: ops', Val (Some a) :: answers' =>
        decided hist t a /\ all_decided (entry_of t Withdraw (Val (Some a)) ++ hist) ops' answers'
    | _, _ => False
    end.

  Lemma run_decided ops : forall N G b t0, inv c N G b -> (forall x, In x G -> when (x_e x) <= t0) -> g_time b <= t0 ->
    in_order t0 ops -> t_reserve c + t_deposit c * (deps (total G) + deposits ops) <= isize_max ->
    all_decided (total G) ops (tps_run c b ops).
  Proof.
    induction ops as [|[t [|]] ops IH]; intros N G b t0 I H T O F; cbn [tps_run all_decided]; [exact Logic.I| |].
    - destruct O as [O1 O2]. cbn [deposits] in F.
      destruct (@expire_inv c S N G b t I) as (N' & b' & E & I' & T' & _); [intros x Hx; specialize (H x Hx); lia|lia|].
      unfold deposit. rewrite E. assert (P := deposits_pos ops). assert (S3 := sane_deposit S). assert (WR := writer_range S I').
      assert (A : inv c N' (Gent (EDep t) N' (g_time b') :: G) (add_writer (t_deposit c) b')).
      { assert (F1 : t_reserve c + t_deposit c * deps (EDep t :: total G) <= isize_max) by (cbn [deps]; nia).
        apply add_inv; auto; try exact T'.
        - assert (D : t_writer b' + t_deposit c <= isize_max).
          { rewrite (i_writer I'). change (at_ c N' G) with (val c (fun x => x_n x =? N') G).
            assert (Q := @val_range c S (fun x => x_n x =? N') (fun _ => true) G (fun _ _ => eq_refl)).
            assert (X : dsum c (fun _ => true) G <= t_deposit c * deps (total G)).
            { unfold dsum. apply Z.mul_le_mono_nonneg_l; [exact S3|]. apply deps_filter. }
            cbn [deps] in F1. assert (R := sane_reserve S). nia. }
          unfold isize_min, isize_max in *. lia.
        - cbn [wds deps]. assert (X := i_wd I'). nia. }
      apply (IH _ _ _ t) in A; auto.
      + intros x [<-|Hx]; [cbn; lia|]. specialize (H x Hx). lia.
      + cbn [add_writer g_time]. lia.
      + cbn [total map x_e deps]. unfold total in F. nia.
    - destruct O as [O1 O2]. cbn [deposits] in F.
      destruct (@expire_inv c S N G b t I) as (N' & b' & E & I' & T' & _); [intros x Hx; specialize (H x Hx); lia|lia|].
      unfold withdraw. rewrite E. rewrite (sum_exact S I').
      destruct (counted_split S I' T') as (older & E1 & E2 & E3).
      rewrite Z.geb_leb. destruct (Z.leb_spec (t_withdraw c) (balance c (total (counted N' G)))) as [L|L].
      + split.
        * exists (total (counted N' G)), older. repeat split; auto.
        * cbn [entry_of app].
          assert (A : inv c N' (Gent (EWd t) N' (g_time b') :: G) (add_writer (- t_withdraw c) b')).
          { assert (S4 := sane_withdraw S). assert (WR := writer_range S I'). unfold balance in L.
            assert (Dc : t_deposit c * deps (total (counted N' G)) <= t_deposit c * deps (total G)).
            { apply Z.mul_le_mono_nonneg_l; [apply (sane_deposit S)|]. apply deps_filter. }
            assert (WL : t_withdraw c * wds (EWd t :: total (counted N' G)) <= t_reserve c + t_deposit c * deps (EWd t :: total G))
              by (cbn [wds deps]; nia).
            apply add_inv; auto; try exact T'.
            - rewrite (i_writer I'). change (at_ c N' G) with (val c (fun x => x_n x =? N') G).
              assert (Q := @val_range c S (fun x => x_n x =? N') (fun x => N' - 10 <=? x_n x) G).
              assert (Q' : forall x, (x_n x =? N') = true -> (N' - 10 <=? x_n x) = true).
              { intros x Hx. apply Z.eqb_eq in Hx. apply Z.leb_le. lia. }
              specialize (Q Q'). cbn [wds deps] in WL. unfold wsum in Q. unfold counted in *. assert (D := i_dep I'). assert (WR' := WR). assert (S2 := sane_reserve S).
              rewrite (i_writer I') in WR'. change (at_ c N' G) with (val c (fun x => x_n x =? N') G) in WR'. unfold isize_min, isize_max in *. lia.
            - apply (i_dep I'). }
          apply (IH _ _ _ t) in A; auto.
          -- intros x [<-|Hx]; [cbn; lia|]. specialize (H x Hx). lia.
          -- cbn [add_writer g_time]. lia.
      + split.
        * exists (total (counted N' G)), older. repeat split; auto; [discriminate|lia].
        * cbn [entry_of app]. apply (IH N' G b' t); auto; [|lia]. intros x Hx. specialize (H x Hx). lia.
  Qed.
End Run.
