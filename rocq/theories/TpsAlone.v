(** One thread using the budget while the others rest does what the sequential functions do. *)
From Verif Require Import Base Tps TpsSpec TpsProof TpsRace.
Set Implicit Arguments.
Local Open Scope Z_scope.

Section Alone.
  Variable c : tps_cfg.

  Lemma moves_app ms1 : forall ms2 y l, tps_moves c y l (ms1 ++ ms2) =
    let '(y1, l1) := tps_moves c y l ms1 in tps_moves c y1 l1 ms2.
  Proof.
    induction ms1 as [|m ms1 IH]; intros ms2 y l; [reflexivity|]. cbn [app tps_moves].
    destruct (tps_move c m y) as [y1 n]. apply IH.
  Qed.

  Lemma set_pc_twice l i p q : set_pc (set_pc l i p) i q = set_pc l i q.
  Proof. revert i. induction l as [|x l IH]; intros [|i]; cbn; f_equal; auto. Qed.
  Lemma set_pc_id l i : nth i l PSub = PIdle -> set_pc l i PIdle = l.
  Proof. revert i. induction l as [|x l IH]; intros [|i]; cbn; intros H; f_equal; auto. Qed.

  (** The steps of one thread from one position to another, by how many. *)
  Definition goes (i : nat) (y : tsys) (new : list tobs) (y' : tsys) : Prop :=
    exists k, forall l, tps_moves c y l (repeat (MStep i) k) = (y', new ++ l).
  Lemma goes_refl i y : goes i y [] y.
  Proof. exists 0%nat. reflexivity. Qed.
  Lemma goes_trans i y n1 y1 n2 y2 : goes i y n1 y1 -> goes i y1 n2 y2 -> goes i y (n2 ++ n1) y2.
  Proof.
    intros [k1 H1] [k2 H2]. exists (k1 + k2)%nat. intros l. rewrite repeat_app, moves_app, H1, H2. rewrite app_assoc. reflexivity.
  Qed.
  Lemma goes_one i y new y' : thread_step c i y = (y', new) -> goes i y new y'.
  Proof. intros H. exists 1%nat. intros l. cbn [repeat tps_moves tps_move]. rewrite H. reflexivity. Qed.

  Variable i : nat.
  Variable pcs : list tpc.
  Hypothesis Hi : (i < length pcs)%nat.
  Variable t : Z.
  Definition at_pc (b : tps) (lock : bool) (p : tpc) : tsys := TSys b lock t (set_pc pcs i p).

  Ltac step := unfold thread_step, at_pc; cbn [s_pcs s_tps s_lock s_clock]; rewrite set_pc_same by exact Hi.

  Lemma goes_zero fuel : forall diff idx b idx' slots' o now, expire_loop fuel (t_window c) diff idx (t_slots b) = Val (idx', slots') ->
    goes i (at_pc b true (PZero o now diff idx)) [CEnd i] (at_pc (Tps idx' now slots' (t_writer b)) false (after_expire o)).
  Proof.
    induction fuel as [|fuel IH]; intros diff idx b idx' slots' o now E; cbn [expire_loop] in E.
    - destruct (diff >? t_window c) eqn:D; [discriminate E|]. injection E as <- <-. apply goes_one. step. rewrite D, set_pc_twice. reflexivity.
    - destruct (diff >? t_window c) eqn:D.
      + change [CEnd i] with ([CEnd i] ++ []). eapply goes_trans.
        * apply goes_one. step. rewrite D, set_pc_twice. reflexivity.
        * apply (@IH (diff - t_window c) ((idx + 1) mod 10)%nat (Tps (g_index b) (g_time b) (store (t_slots b) idx 0) (t_writer b)) idx' slots' o now). exact E.
      + injection E as <- <-. apply goes_one. step. rewrite D, set_pc_twice. reflexivity.
  Qed.

  Lemma goes_expire b b' o : expire c t b = Val b' -> exists new, goes i (at_pc b false (PLock o)) new (at_pc b' false (after_expire o)).
  Proof.
    unfold expire. intros E. destruct (Z.max 0 (t - g_time b) <? t_window c) eqn:D.
    - injection E as <-. exists []. apply goes_one. step. rewrite D, set_pc_twice. reflexivity.
    - destruct (expire_loop _ _ _ _ _) as [[idx slots']| |] eqn:L; try discriminate E. injection E as <-.
      eexists. eapply goes_trans; [|eapply goes_trans; [|eapply goes_trans]].
      + apply goes_one. step. rewrite D, set_pc_twice. reflexivity.
      + apply goes_one. step. rewrite set_pc_twice. cbn [g_index g_time t_slots t_writer]. reflexivity.
      + apply goes_one. step. rewrite set_pc_twice. cbn [g_index g_time t_slots t_writer]. reflexivity.
      + eapply (@goes_zero (expire_fuel c (Z.max 0 (t - g_time b))) (Z.max 0 (t - g_time b)) ((g_index b + 1) mod 10)%nat (Tps (g_index b) (g_time b) (store (t_slots b) (g_index b) (t_writer b)) 0) idx slots' o t). exact L.
  Qed.

  Lemma goes_sum b : forall m j acc, (j + m = 9)%nat -> length (t_slots b) = 10%nat ->
    goes i (at_pc b false (PSum (t_writer b) j acc)) [] (at_pc b false (PSum (t_writer b) 9 (fold_left sat_add (firstn m (skipn j (t_slots b))) acc))).
  Proof.
    induction m as [|m IH]; intros j acc Hj Hl.
    - assert (j = 9)%nat as -> by lia. apply goes_refl.
    - change (@nil tobs) with (@nil tobs ++ []). eapply goes_trans.
      + apply goes_one. step. destruct (Nat.ltb_spec j 9); [|lia]. rewrite set_pc_twice. reflexivity.
      + assert (X := IH (j + 1)%nat (sat_add acc (nth j (t_slots b) 0)) ltac:(lia) Hl).
        assert (E : fold_left sat_add (firstn (S m) (skipn j (t_slots b))) acc =
                    fold_left sat_add (firstn m (skipn (j + 1) (t_slots b))) (sat_add acc (nth j (t_slots b) 0))).
        { assert (J : (j < length (t_slots b))%nat) by lia. clear - J. revert j J. induction (t_slots b) as [|x sl IH]; intros j J; [cbn in J; lia|].
          destruct j as [|j]; [reflexivity|]. cbn [skipn nth plus]. apply IH. cbn in J. lia. }
        rewrite E. exact X.
  Qed.

  Lemma goes_withdraw b : length (t_slots b) = 10%nat ->
    if tps_sum c b >=? t_withdraw c
    then goes i (at_pc b false PLoad) [CAdd i Withdraw t; CLoad i] (at_pc (add_writer (- t_withdraw c) b) false PIdle)
    else goes i (at_pc b false PLoad) [CRefused i; CLoad i] (at_pc b false PIdle).
  Proof.
    intros L.
    assert (A : goes i (at_pc b false PLoad) [CLoad i] (at_pc b false (PSum (t_writer b) 9 (fold_left sat_add (firstn 9 (t_slots b)) 0)))).
    { change [CLoad i] with ([] ++ [CLoad i]). eapply goes_trans; [|apply (@goes_sum b 9 0 0); auto].
      apply goes_one. step. rewrite set_pc_twice. reflexivity. }
    assert (E : tps_sum c b = sat_add (sat_add (t_writer b) (sat_add (fold_left sat_add (firstn 9 (t_slots b)) 0) (nth 9 (t_slots b) 0))) (t_reserve c)).
    { unfold tps_sum. f_equal. f_equal. destruct (t_slots b) as [|x0 [|x1 [|x2 [|x3 [|x4 [|x5 [|x6 [|x7 [|x8 [|x9 [|]]]]]]]]]]]; try discriminate L. cbn [fold_left firstn nth]. reflexivity. }
    rewrite E. destruct (_ >=? _) eqn:D.
    - change [CAdd i Withdraw t; CLoad i] with (([CAdd i Withdraw t] ++ []) ++ [CLoad i]). eapply goes_trans; [exact A|]. eapply goes_trans.
      + apply goes_one. step. cbn [Nat.ltb Nat.leb]. rewrite D, set_pc_twice. reflexivity.
      + apply goes_one. step. rewrite set_pc_twice. reflexivity.
    - change [CRefused i; CLoad i] with ([CRefused i] ++ [CLoad i]). eapply goes_trans; [exact A|].
      apply goes_one. step. cbn [Nat.ltb Nat.leb]. rewrite D, set_pc_twice. reflexivity.
  Qed.
End Alone.

Lemma expire_len c now b b' : length (t_slots b) = 10%nat -> expire c now b = Val b' -> length (t_slots b') = 10%nat.
Proof.
  assert (SL : forall l i v, length (store l i v) = length l) by (clear; induction l as [|x l IH]; intros [|i] v; cbn; auto).
  assert (LL : forall fuel w d idx sl idx' sl', expire_loop fuel w d idx sl = Val (idx', sl') -> length sl' = length sl).
  { induction fuel as [|fuel IH]; intros w d idx sl idx' sl'; cbn [expire_loop]; destruct (d >? w); intros E; try discriminate E;
      [injection E as <- <-; reflexivity| |injection E as <- <-; reflexivity]. apply IH in E. rewrite E. apply SL. }
  unfold expire. intros L E. destruct (_ <? _); [injection E as <-; exact L|].
  destruct (expire_loop _ _ _ _ _) as [[idx sl]| |] eqn:X; try discriminate E. injection E as <-. cbn [t_slots]. apply LL in X. rewrite X, SL. exact L.
Qed.

Definition alone (i : nat) (o : tps_op) (k : nat) : list tmove := MStart i o :: repeat (MStep i) k.

Lemma alone_start c i o y : s_lock y = false -> nth i (s_pcs y) PSub = PIdle -> forall k l,
  tps_moves c y l (alone i o k) = tps_moves c (at_pc i (s_pcs y) (s_clock y) (s_tps y) false (PLock o)) l (repeat (MStep i) k) /\
  (i < length (s_pcs y))%nat /\ at_pc i (s_pcs y) (s_clock y) (s_tps y) false PIdle = y.
Proof.
  intros Lk Hp k l. split; [|split].
  - unfold alone. cbn [tps_moves tps_move]. rewrite Hp, Lk. reflexivity.
  - destruct (Nat.lt_ge_cases i (length (s_pcs y))); auto. rewrite nth_overflow in Hp by exact H. discriminate Hp.
  - unfold at_pc. rewrite set_pc_id by exact Hp. rewrite <- Lk. destruct y; reflexivity.
Qed.

Lemma alone_deposit c i y b' : s_lock y = false -> nth i (s_pcs y) PSub = PIdle ->
  deposit c (s_clock y) (s_tps y) = Val b' ->
  exists k new, forall l, tps_moves c y l (alone i Deposit k) =
    (TSys b' false (s_clock y) (s_pcs y), CAdd i Deposit (s_clock y) :: new ++ l).
Proof.
  intros Lk Hp E. destruct (alone_start c i Deposit y Lk Hp 0 []) as (_ & Hi & _).
  unfold deposit in E. destruct (expire c (s_clock y) (s_tps y)) as [b1| |] eqn:X; try discriminate E. injection E as <-.
  destruct (@goes_expire c i (s_pcs y) Hi (s_clock y) (s_tps y) b1 Deposit X) as [new G].
  assert (G2 : goes c i (at_pc i (s_pcs y) (s_clock y) (s_tps y) false (PLock Deposit)) ([CAdd i Deposit (s_clock y)] ++ new)
                 (at_pc i (s_pcs y) (s_clock y) (add_writer (t_deposit c) b1) false PIdle)).
  { eapply goes_trans; [exact G|]. apply goes_one. unfold thread_step, at_pc. cbn [s_pcs s_tps s_lock s_clock after_expire]. rewrite set_pc_same by exact Hi.
    rewrite set_pc_twice. reflexivity. }
  destruct G2 as [k K]. exists k, new. intros l. rewrite (proj1 (alone_start c i Deposit y Lk Hp k l)), K. unfold at_pc. rewrite set_pc_id by exact Hp. reflexivity.
Qed.

Lemma alone_withdraw c i y b' granted : s_lock y = false -> nth i (s_pcs y) PSub = PIdle -> length (t_slots (s_tps y)) = 10%nat ->
  withdraw c (s_clock y) (s_tps y) = Val (b', granted) ->
  exists k new, forall l, tps_moves c y l (alone i Withdraw k) =
    (TSys b' false (s_clock y) (s_pcs y), (if granted then CAdd i Withdraw (s_clock y) else CRefused i) :: new ++ l).
Proof.
  intros Lk Hp Ln E. destruct (alone_start c i Withdraw y Lk Hp 0 []) as (_ & Hi & _).
  unfold withdraw in E. destruct (expire c (s_clock y) (s_tps y)) as [b1| |] eqn:X; try discriminate E.
  assert (Ln1 := expire_len _ _ _ Ln X).
  destruct (@goes_expire c i (s_pcs y) Hi (s_clock y) (s_tps y) b1 Withdraw X) as [new G].
  assert (W := @goes_withdraw c i (s_pcs y) Hi (s_clock y) b1 Ln1).
  destruct (tps_sum c b1 >=? t_withdraw c); injection E as <- <-.
  - destruct (goes_trans G W) as [k K]. exists k, (CLoad i :: new). intros l. rewrite (proj1 (alone_start c i Withdraw y Lk Hp k l)), K.
    unfold at_pc. rewrite set_pc_id by exact Hp. reflexivity.
  - destruct (goes_trans G W) as [k K]. exists k, (CLoad i :: new). intros l. rewrite (proj1 (alone_start c i Withdraw y Lk Hp k l)), K.
    unfold at_pc. rewrite set_pc_id by exact Hp. reflexivity.
Qed.
