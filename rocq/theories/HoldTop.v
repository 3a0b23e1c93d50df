(** Proofs for C72: the theorems. *)
From Verif Require Import BehindProof Base Limits Buffer BufferSpec BufferBase BufferMoves BufferInv1 BufferInv2 BufferInv3 BufferInv4 BufferInv5 BufferInv6 BufferInv7 BufferTop FlightSpec HoldSpec HoldProof.
Set Implicit Arguments.

Section Top.
  Context {W Req Resp Err : Type} (svc : Service W Req Resp Err).

  Lemma hold_owned bound s w (ops : list (bop (W := Z * W) (Req := Req))) y l : env_fst ops ->
    buffer_run (in_the_air svc) bound s (0%Z, w) ops = (y, l) -> fst (y_w y) = Z.of_nat (length (in_flight l)).
  Proof.
    intros He E. pose (P := fun (s : st (in_the_air svc)) (x : Z * W) n => fst x = Z.of_nat n).
    pose (Q := fun (x : Z * W) n => fst x = Z.of_nat n).
    assert (X : inv_c y l /\ Q (y_w y) (length (in_flight l))); [|apply X].
    eapply (@winv_start _ _ _ _ (in_the_air svc) ops P Q) with (ops := ops) (s := s) (w := (0%Z, w)); subst P Q; cbv beta.
    - intros s0 x n g Hg H. rewrite He; assumption.
    - intros s0 [z x] n f H. cbn in *. unfold lift_z. cbn [fst snd]. destruct (poll_fut svc f x). exact H.
    - intros s0 [z x] n f H. cbn in *. lia.
    - intros s0 [z x] n x1 s1 a H Ep. cbn in *. unfold lift_z in Ep. cbn [fst snd] in Ep. destruct (poll_ready svc s0 x). injection Ep as <- _. exact H.
    - intros s0 [z x] n r x1 s1 f H Ec. cbn in *. unfold bind, lift_z, modify, ret in Ec. cbn [fst snd] in Ec.
      destruct (call svc s0 r x) as [x2 [a| |]]; try discriminate. injection Ec as <- _. cbn. lia.
    - auto.
    - intros x n g Hg H. rewrite He; assumption.
    - intros [z x] n f H. cbn in *. unfold lift_z. cbn [fst snd]. destruct (poll_fut svc f x). exact H.
    - intros [z x] n f H. cbn in *. lia.
    - intros s0 [z x] n H. cbn in *. unfold lift_z. cbn [fst snd]. destruct (poll_ready svc s0 x). exact H.
    - intros s0 [z x] n r x1 o H Ec Ho. cbn in *. unfold bind, lift_z, modify, ret in Ec. cbn [fst snd] in Ec.
      destruct (call svc s0 r x) as [x2 [a| |]]; injection Ec as <- <-; [destruct (Ho a eq_refl) | exact H | exact H].
    - intros s0 [z x] n H. exact H.
    - intros o Ho. exact Ho.
    - reflexivity.
    - exact E.
  Qed.

  Section Conc.
    Variables (max : nat) (debug : bool).
    Notation cl := (conc_limit svc (fun _ => false) debug).

    Lemma hold_limit bound s w (ops : list (bop (W := sem * W) (Req := Req))) y l : env_fst ops ->
      buffer_run cl bound (conc_new svc s) (sem_new max, w) ops = (y, l) -> inv_c y l /\ length (in_flight l) <= max.
    Proof.
      intros He E. pose (P := fun (s : st cl) (x : sem * W) n => permits (fst x) + (if cl_permit s then 1 else 0) + n <= max).
      pose (Q := fun (x : sem * W) n => n <= max).
      assert (X : inv_c y l /\ Q (y_w y) (length (in_flight l))); [|apply X].
      assert (HPQ : forall s x n, P s x n -> n <= max) by (intros s0 x n H; subst P; cbv beta in H; lia).
      eapply (@winv_start _ _ _ _ cl ops P Q) with (ops := ops) (s := conc_new svc s) (w := (sem_new max, w)); subst P Q; cbv beta.
      - intros s0 x n g Hg H. rewrite He; assumption.
      - intros s0 [z x] n f H. cbn in *. unfold lift_snd. cbn [fst snd]. destruct (poll_fut svc f x). exact H.
      - intros s0 [z x] n f H. cbn [drop_fut conc_limit fst] in *. rewrite release_permits. lia.
      - intros s0 [z x] n x1 s1 a H Ep. cbn in Ep, H. unfold bind, get, modify, ret, lift_snd in Ep. destruct (cl_permit s0) eqn:Ec.
        + cbn [fst snd] in Ep. destruct (poll_ready svc (cl_inner s0) x) as [x2 [[s2 b]| |]]; try discriminate. injection Ep as <- <- _. cbn. exact H.
        + cbn [fst snd] in Ep. destruct (sem_poll (cl_wait s0) z) as [[m1 t1] got] eqn:Es. apply poll_permits in Es. destruct got.
          * cbn [fst snd] in Ep. destruct (poll_ready svc (cl_inner s0) x) as [x2 [[s2 b]| |]]; try discriminate. injection Ep as <- <- _. cbn. lia.
          * injection Ep as <- <- _. cbn. lia.
      - intros s0 [z x] n r x1 s1 f H Ec. cbn in Ec, H. unfold bind, lift_snd, ret, panic in Ec. destruct (cl_permit s0) eqn:Ep; [|discriminate].
        cbn [fst snd] in Ec. destruct (call svc (cl_inner s0) r x) as [x2 [[s2 g]| |]]; try discriminate. injection Ec as <- <- _. cbn. lia.
      - exact HPQ.
      - auto.
      - auto.
      - intros x n f H. lia.
      - intros s0 x n. apply HPQ.
      - intros s0 x n r x1 o H _ _. eapply HPQ, H.
      - auto.
      - intros o Ho. exact Ho.
      - cbn. unfold permits. cbn. lia.
      - exact E.
    Qed.

    Lemma hold_total bound s w (ops : list (bop (W := sem * W) (Req := Req))) y l : env_fst ops ->
      buffer_run cl bound (conc_new svc s) (sem_new max, w) ops = (y, l) -> ~ In WGone l ->
      length (unfinished l) <= bound + 1 + max.
    Proof.
      intros He E Hg. destruct (hold_limit bound s w He E) as [C HL].
      assert (J : BufferInv7.binv bound y l). { assert (X := binv_always (svc := cl) bound (conc_new svc s) (sem_new max, w) ops). unfold buffer_run in E. rewrite E in X. exact X. }
      assert (Hq : length (y_queue y) <= bound). { destruct (bi_p J) as [_ H]. destruct H as [H|[H _]]; [lia|]. exfalso. apply Hg. apply (e_gone (bi_e J)). exact H. }
      assert (Hh : length (holds (y_wk y)) <= 1).
      { destruct (y_wk y) as [k|] eqn:Ek; [|cbn; lia]. cbn [holds]. unfold hand. rewrite app_length. assert (Cu := q_cur (bi_q J) Ek). unfold curp in Cu.
        destruct (w_cur k) as [m|]; [|cbn [curl length]; destruct (w_pc k); cbn; lia].
        destruct Cu as [-> | ->]; [discriminate | cbn; lia | cbn; lia]. }
      assert (N : NoDup (unfinished l)) by (apply NoDup_filter, (q_nodup (bi_q J))).
      assert (HI : incl (unfinished l) (ids (holds (y_wk y) ++ y_queue y) ++ in_flight l)).
      { intros id H. unfold unfinished in H. apply filter_In in H as [H1 H2]. apply andb_prop in H2 as [H2 H3].
        apply negb_true_iff in H2. apply negb_true_iff in H3. apply in_map_iff in H1 as [[i r] [<- H1]]. cbn [fst] in *.
        apply in_or_app. destruct (t_fate (bi_t J) _ _ H1) as [H|[H|H]].
        - left. rewrite <- pairs_fst. apply (in_map fst) in H. exact H.
        - right. destruct H as [H|[[f H]|[e H]]].
          + exfalso. apply in_split in H as (a & b & ->). assert (X := hist_at _ _ _ _ (f_hist (bi_f J))). cbn in X.
            assert (Y : was_dropped i (a ++ WSkip i :: b) = true) by (apply dropped_in, in_or_app; right; right; exact X). congruence.
          + unfold in_flight. apply filter_In. split; [apply called_in; eauto|]. rewrite H2. reflexivity.
          + exfalso. unfold refused in H3. assert (Y : existsb (fun e0 => match e0 with WAnswer j (Er _) => j =? i | _ => false end) l = true); [|congruence].
            apply existsb_exists. eexists. split; [exact H|]. cbn. apply Nat.eqb_refl.
        - contradiction. }
      apply (NoDup_incl_length N) in HI. rewrite app_length in HI. unfold ids in HI. rewrite map_length, app_length in HI. lia.
    Qed.
  End Conc.
End Top.
