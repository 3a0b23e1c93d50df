(** The retry budget shared by threads: every run. *)
From Verif Require Import Base Tps TpsSpec TpsProof TpsRace.
Set Implicit Arguments.
Local Open Scope Z_scope.

Section Run.
  Variable c : tps_cfg.
  Hypothesis S : sane c.
  Variable t0 : Z.
  Variable n : nat.

  (** What is known of each event, given the log before it. *)
  Definition ev (l : list tobs) (e : tobs) : Prop :=
    match e with
    | CAdd i o t => last_turn t0 l <= t /\ (o = Withdraw -> undisturbed i l = true ->
        t_withdraw c <= bal c (before_load i l) /\ bal c (e :: l) >= - (Z.of_nat n - 1) * t_withdraw c)
    | CRefused i => undisturbed i l = true -> bal c (before_load i l) < t_withdraw c
    | CSwap i now k => turning l = false /\ t_window c <= now - last_turn t0 l /\
        (k - 1) * t_window c < now - last_turn t0 l <= k * t_window c
    | CEnd i => turning l = true
    | _ => True
    end.
  Fixpoint glog (l : list tobs) : Prop := match l with [] => True | e :: l' => ev l' e /\ glog l' end.

  Definition seen (y : tsys) (l : list tobs) : Prop :=
    forall i, undisturbed i l = true ->
      match pc y i with
      | PSum cur _ _ => t_reserve c + cur + slot_sum y = bal c (before_load i l)
      | PSub => t_withdraw c <= bal c (before_load i l)
      | _ => True
      end.

  Definition rall (y : tsys) (l : list tobs) : Prop := rinv c t0 n y l /\ seen y l /\ glog l.

  Lemma pc_lt (y : tsys) i : pc y i <> PIdle -> (i < length (s_pcs y))%nat.
  Proof. intros H. destruct (Nat.lt_ge_cases i (length (s_pcs y))); auto. destruct H. unfold pc. apply nth_overflow. exact H0. Qed.

  Lemma holder_only (y : tsys) l i : phase c t0 y l -> holding (pc y i) = true ->
    s_lock y = true /\ forall j, j <> i -> holding (pc y j) = false.
  Proof.
    intros C Hh. destruct C as [C1 C2 C3|j q now' diff' C1 C2 C3 C4 C5 C6|j q now' diff' u k C1 C2 C3 C4 C5 C6 C7 C8 C9 C10 C11|j q now' diff' idx' M C1 C2 C3 C4 C5 C6 C7 C8 C9 C10];
      [rewrite C2 in Hh; discriminate Hh| | |];
      (destruct (Nat.eq_dec i j) as [->|Ne]; [auto|rewrite (C3 _ Ne) in Hh; discriminate Hh]).
  Qed.

  (** [seen] after a silent step. *)
  Lemma seen_silent (y y' : tsys) l i p : seen y l -> (i < length (s_pcs y))%nat -> s_pcs y' = set_pc (s_pcs y) i p ->
    (turning l = false -> t_slots (s_tps y') = t_slots (s_tps y)) ->
    (undisturbed i l = true -> match p with
       | PSum cur _ _ => t_reserve c + cur + slot_sum y' = bal c (before_load i l)
       | PSub => t_withdraw c <= bal c (before_load i l)
       | _ => True
       end) -> seen y' l.
  Proof.
    intros Se Hi E Es Hp j U. destruct (@pc_set y y' i p E Hi) as [P1 P2]. destruct (Nat.eq_dec j i) as [->|Ne].
    - rewrite P1. exact (Hp U).
    - rewrite (P2 _ Ne). specialize (Se j U). destruct (pc y j); auto. unfold slot_sum in *. rewrite Es by (eapply undisturbed_rest; eauto). exact Se.
  Qed.

  Lemma rall_move m y l y' new : rall y l -> tps_move c m y = (y', new) -> fits_log c (new ++ l) -> rall y' (new ++ l).
  Proof.
    intros (I & Se & Gl) E F. assert (Hw := sane_window S).
    destruct m as [i o|i|d]; cbn [tps_move] in E.
    - (* start *)
      destruct (nth i (s_pcs y) PSub) eqn:Ep; injection E as <- <-; try (split; [exact I|split; assumption]; fail).
      assert (Hi : (i < length (s_pcs y))%nat).
      { destruct (Nat.lt_ge_cases i (length (s_pcs y))); auto. rewrite nth_overflow in Ep by exact H. discriminate Ep. }
      assert (Hp : pc y i = PIdle) by (unfold pc; rewrite <- Ep; apply nth_indep; exact Hi).
      split; [|split; [|exact Gl]].
      + eapply rinv_silent with (i := i) (p := PLock o); try reflexivity; eauto.
        * rewrite <- (r_n I). exact Hi.
        * eapply phase_pc; [apply I|exact Hi|reflexivity|rewrite Hp; reflexivity|reflexivity|reflexivity|reflexivity|reflexivity|reflexivity].
        * unfold hot at 1, pc. cbn [s_pcs]. rewrite set_pc_same by exact Hi. discriminate.
        * discriminate.
        * discriminate.
      + eapply (@seen_silent y _ l i _ Se Hi); [reflexivity|reflexivity|]. intros _. exact Logic.I.
    - (* step *)
      unfold thread_step in E. fold (pc y i) in E. destruct (pc y i) as [|o|o now diff|o now diff v|o now diff idx| | |cur j acc|] eqn:Hp.
      + injection E as <- <-. split; [exact I|split; assumption].
      + (* PLock *)
        assert (Hi : (i < length (s_pcs y))%nat) by (apply pc_lt; rewrite Hp; discriminate).
        destruct (s_lock y) eqn:Lk; [injection E as <- <-; split; [exact I|split; assumption]|].
        assert (Ph := r_phase I). destruct Ph as [C1 C2 C3|j q now' diff' C1|j q now' diff' u k C1|j q now' diff' idx' M C1]; try congruence.
        assert (Tm := r_clock I).
        destruct (Z.ltb_spec (Z.max 0 (s_clock y - g_time (s_tps y))) (t_window c)) as [L|L]; injection E as <- <-.
        * split; [|split; [|exact Gl]].
          -- eapply rinv_silent with (i := i) (p := after_expire o); try reflexivity; eauto.
             ++ rewrite <- (r_n I). exact Hi.
             ++ eapply phase_pc; [apply I|exact Hi|reflexivity|rewrite Hp; reflexivity|destruct o; reflexivity|cbn; congruence|reflexivity|reflexivity|reflexivity].
             ++ unfold hot at 1, pc. cbn [s_pcs]. rewrite set_pc_same by exact Hi. destruct o; discriminate.
             ++ destruct o; discriminate.
             ++ destruct o; discriminate.
          -- eapply (@seen_silent y _ l i _ Se Hi); [reflexivity|reflexivity|]. intros _. destruct o; exact Logic.I.
        * rewrite Z.max_r in * by lia. split; [|split; [|exact Gl]].
          -- eapply rinv_silent with (i := i) (p := PSwap o (s_clock y) (s_clock y - g_time (s_tps y))); try reflexivity; eauto.
             ++ rewrite <- (r_n I). exact Hi.
             ++ eapply ph_swap with (i := i); [reflexivity| | |exact C3|reflexivity|exact L].
                ** unfold pc. cbn [s_pcs]. apply set_pc_same. exact Hi.
                ** intros j Hj. unfold pc. cbn [s_pcs]. rewrite set_pc_other by exact Hj. apply C2.
             ++ unfold hot at 1, pc. cbn [s_pcs]. rewrite set_pc_same by exact Hi. discriminate.
             ++ intros q now diff Q. injection Q as <- <- <-. lia.
             ++ discriminate.
          -- eapply (@seen_silent y _ l i _ Se Hi); [reflexivity|reflexivity|]. intros _. exact Logic.I.
      + (* PSwap *)
        assert (Hi : (i < length (s_pcs y))%nat) by (apply pc_lt; rewrite Hp; discriminate).
        injection E as <- <-. cbn [app].
        destruct (@rinv_swap c S t0 n y (TSys (Tps (g_index (s_tps y)) (g_time (s_tps y)) (t_slots (s_tps y)) 0) true (s_clock y)
                    (set_pc (s_pcs y) i (PStore o now diff (t_writer (s_tps y))))) l i o now diff) as (A & B & C & D); auto.
        { rewrite <- (r_n I). exact Hi. }
        split; [exact A|]. split; [intros j U; discriminate U|]. split; [|exact Gl]. cbn [ev]. split; [exact B|]. rewrite <- C. split; [exact D|].
        change (slots_passed c diff) with (ceil_div diff (t_window c)). apply ceil_spec. exact Hw.
      + (* PStore *)
        assert (Hi : (i < length (s_pcs y))%nat) by (apply pc_lt; rewrite Hp; discriminate).
        injection E as <- <-. cbn [app]. assert (Ph := r_phase I).
        destruct (holder_only i Ph ltac:(rewrite Hp; reflexivity)) as [Lk Ho].
        destruct Ph as [C1 C2 C3|j q now' diff' C1 C2 C3 C4 C5 C6|j q now' diff' u k C1 C2 C3 C4 C5 C6 C7 C8 C9 C10 C11|j q now' diff' idx' M C1 C2 C3 C4 C5 C6 C7 C8 C9 C10];
          [congruence| | |];
          (destruct (Nat.eq_dec i j) as [<-|Ne]; [rewrite Hp in C2; try discriminate C2|specialize (C3 _ Ne); rewrite Hp in C3; discriminate C3]).
        injection C2 as <- <- <- <-.
        assert (Kp := @ceil_two diff (t_window c) ltac:(lia)). rewrite <- C5 in Kp.
        split; [|split; [|exact Gl]].
        * eapply rinv_silent with (i := i); try reflexivity; eauto.
          -- rewrite <- (r_n I). exact Hi.
          -- rewrite C4. discriminate.
          -- apply (@ph_zero c t0 _ l i o now diff ((g_index (s_tps y) + 1) mod 10)%nat (gN l - k + 1)); auto.
             ++ unfold pc. cbn [s_pcs]. apply set_pc_same. exact Hi.
             ++ intros j Hj. unfold pc. cbn [s_pcs]. rewrite set_pc_other by exact Hj. apply Ho. exact Hj.
             ++ lia.
             ++ rewrite <- C5. lia.
             ++ cbn [s_tps t_slots]. rewrite C9. apply ring_step; [exact C8|exact C10].
             ++ rewrite C9. apply mod10_succ.
             ++ intros m Hm. apply C11. lia.
          -- unfold hot at 1, pc. cbn [s_pcs]. rewrite set_pc_same by exact Hi. discriminate.
          -- discriminate.
          -- discriminate.
        * eapply (@seen_silent y _ l i _ Se Hi); [reflexivity|rewrite C4; discriminate|]. intros _. exact Logic.I.
      + (* PZero *)
        assert (Hi : (i < length (s_pcs y))%nat) by (apply pc_lt; rewrite Hp; discriminate).
        assert (Ph := r_phase I). destruct (holder_only i Ph ltac:(rewrite Hp; reflexivity)) as [Lk Ho].
        rewrite Z.gtb_ltb in E. destruct (Z.ltb_spec (t_window c) diff) as [L|L]; injection E as <- <-; cbn [app].
        * destruct Ph as [C1 C2 C3|j q now' diff' C1 C2 C3 C4 C5 C6|j q now' diff' u k C1 C2 C3 C4 C5 C6 C7 C8 C9 C10 C11|j q now' diff' idx' M C1 C2 C3 C4 C5 C6 C7 C8 C9 C10];
            [congruence| | |];
            (destruct (Nat.eq_dec i j) as [<-|Ne]; [rewrite Hp in C2; try discriminate C2|specialize (C3 _ Ne); rewrite Hp in C3; discriminate C3]).
          injection C2 as <- <- <- <-.
          assert (Cs := @ceil_step diff (t_window c) Hw). assert (Cp := @ceil_spec (diff - t_window c) (t_window c) Hw).
          assert (1 <= ceil_div (diff - t_window c) (t_window c)) by nia.
          split; [|split; [|exact Gl]].
          -- eapply rinv_silent with (i := i); try reflexivity; eauto.
             ++ rewrite <- (r_n I). exact Hi.
             ++ rewrite C4. discriminate.
             ++ apply (@ph_zero c t0 _ l i o now (diff - t_window c) ((idx + 1) mod 10)%nat (M + 1)); auto.
                ** unfold pc. cbn [s_pcs]. apply set_pc_same. exact Hi.
                ** intros j Hj. unfold pc. cbn [s_pcs]. rewrite set_pc_other by exact Hj. apply Ho. exact Hj.
                ** lia.
                ** lia.
                ** cbn [s_tps t_slots]. rewrite C9. apply ring_step; [exact C8|]. symmetry. apply C10. lia.
                ** rewrite C9. apply mod10_succ.
                ** intros m Hm. apply C10. lia.
             ++ unfold hot at 1, pc. cbn [s_pcs]. rewrite set_pc_same by exact Hi. discriminate.
             ++ discriminate.
             ++ discriminate.
          -- eapply (@seen_silent y _ l i _ Se Hi); [reflexivity|rewrite C4; discriminate|]. intros _. exact Logic.I.
        * destruct (@rinv_end c S t0 n y (TSys (Tps idx now (t_slots (s_tps y)) (t_writer (s_tps y))) false (s_clock y) (set_pc (s_pcs y) i (after_expire o)))
                      l i o now diff idx (after_expire o)) as [A B]; auto.
          { rewrite <- (r_n I). exact Hi. }
          { destruct o; reflexivity. }
          { destruct o; discriminate. }
          split; [exact A|]. split; [intros j U; discriminate U|]. split; [exact B|exact Gl].
      + (* PAdd *)
        assert (Hi : (i < length (s_pcs y))%nat) by (apply pc_lt; rewrite Hp; discriminate).
        injection E as <- <-. cbn [app] in *. split; [|split; [|split; [split; [apply (r_clock I)|discriminate]|exact Gl]]].
        * eapply rinv_add with (y := y) (o := Deposit); try reflexivity; eauto. rewrite <- (r_n I). exact Hi.
        * assert (X := @seen_silent y (TSys (add_writer (t_deposit c) (s_tps y)) (s_lock y) (s_clock y) (set_pc (s_pcs y) i PIdle)) l i PIdle Se Hi eq_refl (fun _ => eq_refl) (fun _ => Logic.I)).
          exact X.
      + (* PLoad *)
        assert (Hi : (i < length (s_pcs y))%nat) by (apply pc_lt; rewrite Hp; discriminate).
        injection E as <- <-. cbn [app] in *. assert (Fl : fits_log c l) by (apply (@fits_less c S l [CLoad i]); exact F).
        split; [|split; [|split; [exact Logic.I|exact Gl]]].
        * eapply rinv_load with (y := y); try reflexivity; eauto. rewrite <- (r_n I). exact Hi.
        * intros j U. unfold pc. cbn [s_pcs]. destruct (Nat.eq_dec j i) as [->|Ne].
          -- rewrite set_pc_same by exact Hi. cbn [undisturbed] in U. rewrite Nat.eqb_refl in U. apply negb_true_iff in U.
             cbn [before_load]. rewrite Nat.eqb_refl. unfold slot_sum. cbn [s_tps]. rewrite (r_writer I). symmetry.
             apply bal_at; [apply I|]. eapply phase_rest; [apply I|exact U].
          -- rewrite set_pc_other by exact Ne. cbn [undisturbed before_load] in *. destruct (Nat.eqb_spec i j); [congruence|]. exact (Se j U).
      + (* PSum *)
        assert (Hi : (i < length (s_pcs y))%nat) by (apply pc_lt; rewrite Hp; discriminate).
        destruct (r_sum I _ Hp) as [J B].
        assert (Acc : undisturbed i l = true -> fits_log c l ->
                  sat_add acc (nth j (t_slots (s_tps y)) 0) = fold_left sat_add (firstn (Datatypes.S j) (t_slots (s_tps y))) 0).
        { intros U Fl. destruct (B U) as [B1 _]. assert (R := phase_rest (r_phase I) (undisturbed_rest _ _ U)). destruct R as [RL _].
          rewrite B1. clear - RL J. revert J. generalize 0 at 1 3. revert RL. generalize (t_slots (s_tps y)). intros sl RL z J.
          assert (H : (j < length sl)%nat) by lia. clear RL J. revert z j H. induction sl as [|x sl IH]; intros z j H; [cbn in H; lia|].
          destruct j as [|j]; [reflexivity|]. cbn [firstn fold_left nth] in *. apply IH. cbn in H. lia. }
        destruct (Nat.ltb_spec j 9) as [L|L].
        * injection E as <- <-. cbn [app] in *. split; [|split; [|exact Gl]].
          -- eapply rinv_silent with (i := i); try reflexivity; eauto.
             ++ rewrite <- (r_n I). exact Hi.
             ++ eapply phase_pc; [apply I|exact Hi|reflexivity|rewrite Hp; reflexivity|reflexivity|reflexivity|reflexivity|reflexivity|reflexivity].
             ++ unfold hot, pc. cbn [s_pcs]. rewrite set_pc_same by exact Hi. fold (pc y i). rewrite Hp. auto.
             ++ discriminate.
             ++ intros cur' j' acc' Q. injection Q as <- <- <-. split; [lia|]. intros U. destruct (B U) as [B1 B2]. split; [|exact B2].
                cbn [s_tps]. replace (j + 1)%nat with (Datatypes.S j) by lia. auto.
          -- eapply (@seen_silent y _ l i _ Se Hi); [reflexivity|reflexivity|]. intros U. specialize (Se i U). rewrite Hp in Se. exact Se.
        * assert (j = 9)%nat by lia. subst j.
          assert (Fl : fits_log c l) by (destruct (_ >=? _) in E; injection E as <- <-; [exact F|apply (@fits_less c S l [CRefused i]); exact F]).
          assert (Dec : undisturbed i l = true ->
                    (sat_add (sat_add cur (sat_add acc (nth 9 (t_slots (s_tps y)) 0))) (t_reserve c) >=? t_withdraw c) =
                    (t_withdraw c <=? t_reserve c + cur + slot_sum y)).
          { intros U. destruct (B U) as [_ B2]. assert (R := phase_rest (r_phase I) (undisturbed_rest _ _ U)).
            rewrite (Acc U Fl). rewrite (@ring_fold c S _ l 10 Fl R) by lia.
            assert (A : firstn 10 (t_slots (s_tps y)) = t_slots (s_tps y)) by (apply firstn_all2; destruct R as [RL _]; lia).
            rewrite A. fold (slot_sum y). rewrite Z.geb_leb.
            unfold fits_log in Fl. fold (dtot c l) in Fl. fold (wtot c l) in Fl. assert (TN := tot_nonneg S l). assert (S2 := sane_reserve S).
            assert (Q1 : sat_add cur (slot_sum y) = cur + slot_sum y) by (unfold sat_add, clamp; unfold isize_min, isize_max in *; lia).
            rewrite Q1. assert (Q2 : sat_add (cur + slot_sum y) (t_reserve c) = cur + slot_sum y + t_reserve c) by (unfold sat_add, clamp; unfold isize_min, isize_max in *; lia).
            rewrite Q2. f_equal. lia. }
          destruct (sat_add (sat_add cur _) (t_reserve c) >=? t_withdraw c) eqn:D; injection E as <- <-; cbn [app] in *.
          -- split; [|split; [|exact Gl]].
             ++ eapply rinv_silent with (i := i); try reflexivity; eauto.
                ** rewrite <- (r_n I). exact Hi.
                ** eapply phase_pc; [apply I|exact Hi|reflexivity|rewrite Hp; reflexivity|reflexivity|reflexivity|reflexivity|reflexivity|reflexivity].
                ** intros _. unfold hot. rewrite Hp. destruct (undisturbed i l) eqn:U; [|reflexivity]. rewrite <- Dec; auto.
                ** discriminate.
                ** discriminate.
             ++ eapply (@seen_silent y _ l i _ Se Hi); [reflexivity|reflexivity|]. intros U. specialize (Se i U). rewrite Hp in Se.
                rewrite <- Se. apply Z.leb_le. rewrite <- Dec; auto.
          -- assert (A : rinv c t0 n (TSys (s_tps y) (s_lock y) (s_clock y) (set_pc (s_pcs y) i PIdle)) l).
             { eapply rinv_silent with (i := i); try reflexivity; eauto.
               - rewrite <- (r_n I). exact Hi.
               - eapply phase_pc; [apply I|exact Hi|reflexivity|rewrite Hp; reflexivity|reflexivity|reflexivity|reflexivity|reflexivity|reflexivity].
               - unfold hot at 1, pc. cbn [s_pcs]. rewrite set_pc_same by exact Hi. discriminate.
               - discriminate.
               - discriminate. }
             split; [apply rinv_refused; exact A|]. split.
             ++ assert (X := @seen_silent y (TSys (s_tps y) (s_lock y) (s_clock y) (set_pc (s_pcs y) i PIdle)) l i PIdle Se Hi eq_refl (fun _ => eq_refl) (fun _ => Logic.I)).
                exact X.
             ++ split; [|exact Gl]. cbn [ev]. intros U. specialize (Se i U). rewrite Hp in Se. rewrite <- Se.
                specialize (Dec U). symmetry in Dec. apply Z.leb_gt in Dec. exact Dec.
      + (* PSub *)
        assert (Hi : (i < length (s_pcs y))%nat) by (apply pc_lt; rewrite Hp; discriminate).
        injection E as <- <-. cbn [app] in *. assert (A : rinv c t0 n (TSys (add_writer (- t_withdraw c) (s_tps y)) (s_lock y) (s_clock y) (set_pc (s_pcs y) i PIdle)) (CAdd i Withdraw (s_clock y) :: l)).
        { eapply rinv_add with (y := y) (o := Withdraw); try reflexivity; eauto. rewrite <- (r_n I). exact Hi. }
        split; [exact A|]. split; [|split; [|exact Gl]].
        * assert (X := @seen_silent y (TSys (add_writer (- t_withdraw c) (s_tps y)) (s_lock y) (s_clock y) (set_pc (s_pcs y) i PIdle)) l i PIdle Se Hi eq_refl (fun _ => eq_refl) (fun _ => Logic.I)).
          exact X.
        * cbn [ev]. split; [apply (r_clock I)|]. intros _ U. split; [specialize (Se i U); rewrite Hp in Se; exact Se|].
          assert (Hh : hot c y l i = true) by (unfold hot; rewrite Hp; reflexivity).
          assert (W := r_warm I i U Hh). assert (X := r_hot A W).
          assert (CL := count_le (hot c (TSys (add_writer (- t_withdraw c) (s_tps y)) (s_lock y) (s_clock y) (set_pc (s_pcs y) i PIdle)) (CAdd i Withdraw (s_clock y) :: l)) n).
          assert (S4 := sane_withdraw S). nia.
    - (* tick *)
      injection E as <- <-. cbn [app]. split; [|split; [exact Se|exact Gl]].
      destruct I as [I1 I2 I3 I4 I5 I6 I7 I8 I9]. split; auto.
      + destruct I3 as [C1 C2 C3|j q now' diff' C1 C2 C3 C4 C5 C6|j q now' diff' u k C1 C2 C3 C4 C5 C6 C7 C8 C9 C10 C11|j q now' diff' idx' M C1 C2 C3 C4 C5 C6 C7 C8 C9 C10].
        * apply ph_rest; auto.
        * eapply ph_swap; eauto.
        * eapply ph_store; eauto.
        * eapply ph_zero; eauto.
      + cbn [s_clock s_tps]. lia.
      + cbn [s_clock]. intros i o now diff Hp. specialize (I6 i o now diff Hp). lia.
  Qed.

  Lemma rall_start : rall (tsys_start n t0) [].
  Proof.
    split; [|split; [intros i U; discriminate U|exact Logic.I]].
    assert (Pc : forall i, pc (tsys_start n t0) i = PIdle) by (intros i; unfold pc, tsys_start; cbn [s_pcs]; apply nth_repeat).
    split.
    - cbn. apply repeat_length.
    - intros i now k [].
    - apply ph_rest; [reflexivity|intros i; rewrite Pc; reflexivity|]. split; [reflexivity|]. split; [|split; reflexivity].
      split; [reflexivity|]. intros k _. unfold at_, dat, wat. cbn [gens fst snd filter map deps wds tsys_start s_tps tps_start t_slots].
      generalize (Z.to_nat (k mod 10)). intros j. assert (nth j (repeat 0 10) 0 = 0) by apply nth_repeat. lia.
    - cbn. unfold at_, dat, wat. cbn [filter map deps wds]. lia.
    - cbn. lia.
    - intros i o now diff H. rewrite Pc in H. discriminate H.
    - intros i cur j acc H. rewrite Pc in H. discriminate H.
    - intros i U. discriminate U.
    - intros [].
  Qed.

  Lemma moves_extend ms : forall y l y' l', tps_moves c y l ms = (y', l') -> exists new, l' = new ++ l.
  Proof.
    induction ms as [|m ms IH]; intros y l y' l' E; cbn [tps_moves] in E; [injection E as <- <-; exists []; reflexivity|].
    destruct (tps_move c m y) as [y1 nw]. apply IH in E as [new ->]. exists (new ++ nw). apply app_assoc.
  Qed.
  Lemma rall_moves ms : forall y l y' l', rall y l -> tps_moves c y l ms = (y', l') -> fits_log c l' -> rall y' l'.
  Proof.
    induction ms as [|m ms IH]; intros y l y' l' R E F; cbn [tps_moves] in E; [injection E as <- <-; exact R|].
    destruct (tps_move c m y) as [y1 nw] eqn:Em. assert (X := moves_extend _ _ _ E). destruct X as [new ->].
    eapply IH; [|exact E|exact F]. eapply rall_move; eauto. eapply fits_less; eauto.
  Qed.

  Lemma glog_at l2 e l1 : glog (l2 ++ e :: l1) -> ev l1 e.
  Proof. induction l2 as [|x l2 IH]; cbn [app glog]; tauto. Qed.

  Lemma race_event ms y l l2 e l1 : tps_moves c (tsys_start n t0) [] ms = (y, l) -> fits_log c l -> l = l2 ++ e :: l1 -> ev l1 e.
  Proof.
    intros E F ->. destruct (rall_moves ms rall_start E F) as (_ & _ & G). exact (glog_at _ _ _ G).
  Qed.
End Run.

(** ** Top-level theorems *)
Lemma race_granted c n t0 ms y l2 i t l1 : sane c ->
  tps_moves c (tsys_start n t0) [] ms = (y, l2 ++ CAdd i Withdraw t :: l1) -> fits_log c (l2 ++ CAdd i Withdraw t :: l1) ->
  undisturbed i l1 = true ->
  t_withdraw c <= balance c (recents 10 (before_load i l1)) /\
  balance c (recents 10 (CAdd i Withdraw t :: l1)) >= - (Z.of_nat n - 1) * t_withdraw c.
Proof.
  intros S E F U. destruct (@race_event c S t0 n ms y _ l2 _ l1 E F eq_refl) as [_ X]. exact (X eq_refl U).
Qed.
Lemma race_refused c n t0 ms y l2 i l1 : sane c ->
  tps_moves c (tsys_start n t0) [] ms = (y, l2 ++ CRefused i :: l1) -> fits_log c (l2 ++ CRefused i :: l1) ->
  undisturbed i l1 = true ->
  balance c (recents 10 (before_load i l1)) < t_withdraw c.
Proof. intros S E F U. exact (@race_event c S t0 n ms y _ l2 _ l1 E F eq_refl U). Qed.
Lemma race_turn c n t0 ms y l2 i now k l1 : sane c ->
  tps_moves c (tsys_start n t0) [] ms = (y, l2 ++ CSwap i now k :: l1) -> fits_log c (l2 ++ CSwap i now k :: l1) ->
  turning l1 = false /\ t_window c <= now - last_turn t0 l1 /\
  (k - 1) * t_window c < now - last_turn t0 l1 <= k * t_window c.
Proof. intros S E F. exact (@race_event c S t0 n ms y _ l2 _ l1 E F eq_refl). Qed.

Lemma recents_age c n t0 : sane c -> forall l, glog c t0 n l -> forall z e, In e (recents z l) ->
  last_turn t0 l - when e <= z * t_window c /\ 0 <= z \/ z < 0 /\ last_turn t0 l <= when e.
Proof.
  intros S. assert (W := sane_window S). induction l as [|x l IH]; intros G z e H; [destruct H|]. destruct G as [Ev G].
  destruct x as [i o t|i|i|i now k|i]; cbn [recents last_turn] in *; eauto.
  - cbn [ev] in Ev. assert (H' : e = (match o with Deposit => EDep t | Withdraw => EWd t end) \/ In e (recents z l)) by (destruct o; destruct H; auto).
    destruct H' as [->|H']; [|eauto]. assert (when (match o with Deposit => EDep t | Withdraw => EWd t end) = t) as -> by (destruct o; reflexivity).
    destruct (Z.ltb_spec z 0); [right; lia|left; nia].
  - destruct (Z.ltb_spec (z - k) 0); [destruct H|]. cbn [ev] in Ev. destruct (IH G _ _ H) as [X|X]; [|lia]. left. nia.
Qed.
Lemma race_age c n t0 ms y l e : sane c ->
  tps_moves c (tsys_start n t0) [] ms = (y, l) -> fits_log c l ->
  In e (recents 10 l) -> last_turn t0 l - when e <= 10 * t_window c.
Proof.
  intros S E F H. destruct (rall_moves S ms (rall_start c t0 n) E F) as (_ & _ & G).
  destruct (@recents_age c n t0 S l G 10 e H) as [X|X]; lia.
Qed.

(** What does not hold: two threads together may get more than there is ... *)
Definition race_cfg : tps_cfg := TpsCfg 2 100 1 2.
Definition race_ops : list tmove :=
  [MStart 0 Withdraw; MStart 1 Withdraw] ++ repeat (MStep 0) 12 ++ repeat (MStep 1) 12 ++ [MStep 0; MStep 1].
Lemma race_overdraws :
  let l := snd (tps_moves race_cfg (tsys_start 2 0) [] race_ops) in
  l = [CAdd 1 Withdraw 0; CAdd 0 Withdraw 0; CLoad 1; CLoad 0] /\ balance race_cfg (recents 10 l) = -2.
Proof. vm_compute. auto. Qed.
(** ... and if one of them reads while another turns the ring, more than one withdrawal too much. *)
Definition turn_ops : list tmove :=
  race_ops ++ [MTick 99; MStart 1 Withdraw; MStep 1; MTick 1; MStart 0 Withdraw; MStep 0; MStep 0]
  ++ repeat (MStep 1) 12.
Lemma turn_overdraws :
  let l := snd (tps_moves race_cfg (tsys_start 2 0) [] turn_ops) in
  l = [CAdd 1 Withdraw 100; CLoad 1; CSwap 0 100 1; CAdd 1 Withdraw 0; CAdd 0 Withdraw 0; CLoad 1; CLoad 0] /\
  balance race_cfg (recents 10 l) = -4.
Proof. vm_compute. auto. Qed.
