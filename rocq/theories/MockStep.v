(** tower-test's Mock: every step keeps the invariant. *)
From Verif Require Import Base Middleware LoadProof Mock MockSpec MockProof.
Set Implicit Arguments.

Section P.
  Context {T U E : Type}.
  Notation merr := (@merr E).
  Notation mop := (mop T U E).
  Notation mobs := (mobs T U E).
  Notation mworld := (@mworld T U E).
  Notation msys := (@msys T U E).
  Notation mentry := (@mentry T U E).
  Notation sum := (@sum T U E).

  Ltac simp := cbn [y_mocks y_futs y_replies y_handle y_w y_set shared poisoned queue rx_live senders oneshots current woken
    set_state set_poisoned set_queue set_senders set_oneshots set_current wake wake_tasks rem tasks is_closed next_clone_id err_with fst snd id can_send
    os_val os_tx os_waker s_closed s_acc s_rec s_rem s_err s_perm s_reply s_rdrop s_rx s_ans s_mis upd] in *.

  Lemma nth_sn_some {A} (l : list (option A)) i j x y : nth_error (set_nth i x l) j = Some (Some y) ->
    (i = j /\ x = Some y /\ exists z, nth_error l j = Some z) \/ (i <> j /\ nth_error l j = Some (Some y)).
  Proof.
    rewrite sn_nth. destruct (Nat.eqb_spec i j) as [->|N]; [|auto]. intros H. left. destruct (nth_error l j); [|discriminate].
    split; [reflexivity|]. split; [congruence|eauto].
  Qed.
  Lemma in_remove i l p : In p (remove_key i l) <-> In p l /\ fst p <> i.
  Proof. unfold remove_key. rewrite filter_In. destruct (Nat.eqb_spec (fst p) i); cbn; intuition congruence. Qed.
  Lemma has_key_in i l : has_key i l = true -> exists t, In (i, t) l.
  Proof. unfold has_key. rewrite existsb_exists. intros ([j t] & H & E0). apply Nat.eqb_eq in E0. cbn in E0. subst. eauto. Qed.
  Lemma put_eq {A} i (x : A) f : put i x f i = x.
  Proof. unfold put. now rewrite Nat.eqb_refl. Qed.
  Lemma put_neq {A} i j (x : A) f : i <> j -> put i x f j = f j.
  Proof. intros H. unfold put. apply Nat.eqb_neq in H. now rewrite H. Qed.
  Lemma lt_some {A} (l : list A) i x : nth_error l i = Some x -> i < length l.
  Proof. intros H. apply nth_error_Some. congruence. Qed.

  (** ** Mock *)
  Lemma step_ready (S : sum) i t y y1 b : inv S y -> mstep (MReady i t) y = (y1, b) -> inv (upd S (MReady i t) b) y1.
  Proof.
    destruct S as [c a r n e p rp rd rx an ms].
    intros V Hs. cbn [mstep] in Hs. destruct (nth_error (y_mocks y) i) as [[m|]|] eqn:Em; try (injection Hs as <- <-; exact V).
    unfold mock_poll_ready in Hs. simp.
    assert (Hi : id m = i) by (eapply v_ids; eauto).
    assert (Hlt := lt_some _ _ Em).
    assert (Same : set_nth i (Some m) (y_mocks y) = y_mocks y) by (now apply sn_same).
    assert (V1 := inv_current t V).
    destruct (poisoned (y_w y)) eqn:Ep; [injection Hs as <- <-; exact V1|].
    destruct (is_closed (shared (y_w y))) eqn:Ec; [injection Hs as <- <-; rewrite Same; exact V1|].
    assert (Hc : c = false) by (rewrite (v_closed V) in Ec; exact Ec). subst c.
    destruct (err_with (shared (y_w y))) as [x|] eqn:Ee.
    { injection Hs as <- <-. rewrite Same. destruct V; simp. constructor; simp; auto.
      intros H. destruct (v_tasks H) as (A & B & C). congruence. }
    assert (He : e = None) by (rewrite (v_err V) in Ee; exact Ee). subst e.
    assert (Hcan := v_can V i eq_refl Em). simp.
    destruct (can_send m) eqn:Ecs.
    { injection Hs as <- <-. rewrite Same. destruct V; simp. constructor; simp; auto.
      - intros j m' _ Hj. rewrite (v_can _ _ eq_refl Hj). unfold put. destruct (Nat.eqb_spec i j) as [<-|]; auto.
      - intros j Hj. rewrite put_neq by lia. auto. }
    destruct (0 <? rem (shared (y_w y)))%N eqn:Er.
    - assert (Ht : tasks (shared (y_w y)) = []).
      { destruct (tasks (shared (y_w y))) eqn:Et; [reflexivity|]. destruct (v_tasks V) as (A & _); [congruence|]. rewrite A in Er. discriminate. }
      destruct (has_key (id m) (tasks (shared (y_w y)))) eqn:Ek; [rewrite Ht in Ek; discriminate|].
      injection Hs as <- <-. destruct V; simp. constructor; simp; auto.
      + intros j m' Hj. apply nth_sn_some in Hj. destruct Hj as [(<- & X & _)|(_ & Hj)]; [injection X as <-; exact Hi|eauto].
      + rewrite sn_len. auto.
      + intros j m' _ Hj. apply nth_sn_some in Hj. destruct Hj as [(<- & X & _)|(N & Hj)].
        * injection X as <-. now rewrite put_eq.
        * rewrite put_neq by auto. eauto.
      + intros j t' m' H. rewrite Ht in H. destruct H.
      + intros j t' H. rewrite Ht in H. destruct H.
      + intros j. rewrite sn_len. intros Hj. rewrite put_neq by lia. auto.
    - injection Hs as <- <-. rewrite Same. apply N.ltb_ge in Er. assert (Er0 : rem (shared (y_w y)) = 0%N) by lia.
      destruct V; simp. constructor; simp; auto.
      + intros j t' m' [H|H].
        * injection H as <- <-. intros Hj. rewrite Hi in Hj. congruence.
        * apply in_remove in H. destruct H as [H _]. eauto.
      + intros j t' [H|H]; [injection H as <- <-; lia|]. apply in_remove in H. destruct H as [H _]. eauto.
  Qed.

  Lemma over_acc c c' a a' r n n' e e' p p' rp rd rx an an' ms ms' j :
    over (Sum c a r n e p rp rd rx an ms : sum) j = over (Sum c' a' r n' e' p' rp rd rx an' ms' : sum) j.
  Proof. reflexivity. Qed.

  Lemma step_call (S : sum) i q y y1 b : inv S y -> mstep (MCall i q) y = (y1, b) -> inv (upd S (MCall i q) b) y1.
  Proof.
    destruct S as [c a r n e p rp rd rx an ms].
    intros V Hs. cbn [mstep] in Hs. destruct (nth_error (y_mocks y) i) as [[m|]|] eqn:Em; try (injection Hs as <- <-; exact V).
    unfold mock_call in Hs. simp.
    assert (Hi : id m = i) by (eapply v_ids; eauto).
    assert (Hlt := lt_some _ _ Em).
    assert (Same : set_nth i (Some m) (y_mocks y) = y_mocks y) by (now apply sn_same).
    destruct (poisoned (y_w y)) eqn:Ep.
    { injection Hs as <- <-. destruct V; simp. constructor; simp; auto. }
    destruct (is_closed (shared (y_w y))) eqn:Ec.
    { injection Hs as <- <-. rewrite Same. rewrite (v_closed V) in Ec. simp. subst c.
      assert (HH : y_handle y <> HOpen) by (intros X; apply (v_open V) in X; simp; discriminate).
      destruct V; simp. constructor; simp; auto; try discriminate; try (intros; congruence).
      - intros j Hj. rewrite put_neq by lia. auto.
      - intros j f Hj. rewrite nth_snoc in Hj. destruct (Nat.eqb_spec j (length (y_futs y))) as [->|N]; [|apply (v_futs _ _ Hj)].
        injection Hj as <-. cbn. apply v_nfuts.
      - rewrite app_length. cbn. destruct v_nfuts. split; [lia|discriminate].
      - intros j. rewrite app_length. cbn. intros. apply v_unans. lia. }
    rewrite (v_closed V) in Ec. simp. subst c.
    assert (Hcan := v_can V i eq_refl Em). simp.
    destruct (can_send m) eqn:Ecs; cbn [negb] in Hs.
    2:{ injection Hs as <- <-. destruct V; simp. constructor; simp; auto; intros; discriminate. }
    assert (Hrx : rx_live (y_w y) = true).
    { rewrite (v_rx V). simp. destruct rx; [|reflexivity]. exfalso. assert (X := proj1 (v_gone V) eq_refl).
      assert (Y := v_shut V). rewrite X in Y. simp. specialize (Y ltac:(discriminate) Ep). discriminate. }
    rewrite Hrx in Hs. injection Hs as <- <-.
    assert (Hrem : (if (0 <? rem (shared (y_w y)))%N then N.pred (rem (shared (y_w y))) else rem (shared (y_w y))) = N.pred n).
    { assert (X := v_rem V eq_refl). simp. rewrite X. destruct (N.ltb_spec 0 n); [reflexivity|]. lia. }
    rewrite Hrem.
    assert (rx = false) by (rewrite (v_rx V) in Hrx; simp; now destruct rx). subst rx.
    destruct V; simp.
    destruct (v_queue eq_refl) as [Q1 Q2]. destruct v_nfuts as [F1 F2]. specialize (F2 eq_refl).
    assert (Hq : length (queue (y_w y)) + length r = length a) by (rewrite Q1, app_length, map_length; lia).
    constructor; simp; auto; try discriminate.
    - intros j m' Hj. apply nth_sn_some in Hj. destruct Hj as [(<- & X & _)|(_ & Hj)]; [injection X as <-; exact Hi|eauto].
    - rewrite sn_len. auto.
    - intros j m' _ Hj. apply nth_sn_some in Hj. destruct Hj as [(<- & X & _)|(N & Hj)].
      + injection X as <-. now rewrite put_eq.
      + rewrite put_neq by auto. eauto.
    - intros H. destruct (v_tasks H) as (A & B & C). rewrite <- (v_rem eq_refl), A. auto.
    - intros j t' m' H Hj. apply nth_sn_some in Hj. destruct Hj as [(<- & X & _)|(N & Hj)]; [injection X as <-; reflexivity|eauto].
    - intros j t'. rewrite sn_len. eauto.
    - intros j. rewrite sn_len. intros Hj. rewrite put_neq by lia. auto.
    - intros _. split; [rewrite map_app, app_assoc, <- Q1; reflexivity|].
      rewrite map_app, app_length, Q2. cbn. rewrite seq_app. cbn. rewrite v_shots. do 2 f_equal. lia.
    - destruct v_prefix as [q' ->]. exists (q' ++ [q]). now rewrite app_assoc.
    - rewrite !app_length. cbn. lia.
    - intros j o Hj. rewrite nth_snoc in Hj. destruct (Nat.eqb_spec j (length (oneshots (y_w y)))) as [->|N]; [|exact (v_shot _ _ Hj)].
      injection Hj as <-. cbn. destruct (v_late (length (oneshots (y_w y)))) as [L1 L2]; [rewrite v_shots; lia|]. unfold over. simp. rewrite L1, L2. auto.
    - intros j f Hj. rewrite nth_snoc in Hj. destruct (Nat.eqb_spec j (length (y_futs y))) as [->|N].
      + injection Hj as <-. cbn. rewrite app_length. cbn. split; [congruence|]. split; [lia|]. auto.
      + specialize (v_futs _ _ Hj). destruct f; cbn in *; rewrite ?app_length; cbn; auto.
        * apply lt_some in Hj. lia.
        * destruct v_futs as (A & B & C). split; [exact A|]. split; [lia|exact C].
    - rewrite !app_length. cbn. lia.
    - intros j. rewrite app_length. cbn. intros. apply v_unans. lia.
  Qed.

  Lemma step_clone (S : sum) i y y1 b : inv S y -> mstep (MClone i) y = (y1, b) -> inv (upd S (MClone i) b) y1.
  Proof.
    destruct S as [c a r n e p rp rd rx an ms].
    intros V Hs. cbn [mstep] in Hs. destruct (nth_error (y_mocks y) i) as [[m|]|] eqn:Em; try (injection Hs as <- <-; exact V).
    unfold mock_clone in Hs. destruct (poisoned (y_w y)) eqn:Ep; injection Hs as <- <-.
    { destruct V; constructor; auto. }
    destruct V; simp. constructor; simp; auto.
    - intros j m' Hj. rewrite nth_snoc in Hj. destruct (Nat.eqb_spec j (length (y_mocks y))) as [->|N]; [injection Hj as <-; cbn; congruence|eauto].
    - rewrite app_length. cbn. lia.
    - intros j m' Hc Hj. rewrite nth_snoc in Hj. destruct (Nat.eqb_spec j (length (y_mocks y))) as [->|N]; [injection Hj as <-; cbn; symmetry; apply v_none; lia|eauto].
    - intros j t' m' H Hj. rewrite nth_snoc in Hj. destruct (Nat.eqb_spec j (length (y_mocks y))) as [->|N]; [|eauto]. apply v_keys in H. lia.
    - intros j t' H. rewrite app_length. apply v_keys in H. lia.
    - intros j. rewrite app_length. cbn. intros. apply v_none. lia.
  Qed.

  Lemma step_drop (S : sum) i u y y1 b : inv S y -> mstep (MDrop i u) y = (y1, b) -> inv (upd S (MDrop i u) b) y1.
  Proof.
    destruct S as [c a r n e p rp rd rx an ms].
    intros V Hs. cbn [mstep] in Hs. destruct (nth_error (y_mocks y) i) as [[m|]|] eqn:Em; try (injection Hs as <- <-; exact V).
    assert (K : forall w1, shared w1 = shared (y_w y) \/ shared w1 = State (rem (shared (y_w y))) (remove_key (id m) (tasks (shared (y_w y)))) (is_closed (shared (y_w y))) (next_clone_id (shared (y_w y))) (err_with (shared (y_w y))) ->
      poisoned w1 = poisoned (y_w y) -> queue w1 = queue (y_w y) -> rx_live w1 = rx_live (y_w y) -> oneshots w1 = oneshots (y_w y) ->
      inv (Sum c a r n e p rp rd rx an ms) (MSys (set_nth i None (y_mocks y)) (y_futs y) (y_replies y) (y_handle y) w1)).
    { intros w1 Hw H1 H2 H3 H4.
      assert (Hr : rem (shared w1) = rem (shared (y_w y)) /\ is_closed (shared w1) = is_closed (shared (y_w y)) /\ next_clone_id (shared w1) = next_clone_id (shared (y_w y)) /\ err_with (shared w1) = err_with (shared (y_w y)) /\ (forall x, In x (tasks (shared w1)) -> In x (tasks (shared (y_w y))))).
      { destruct Hw as [-> | ->]; simp; repeat split; auto. intros x X. apply in_remove in X. tauto. }
      destruct Hr as (R1 & R2 & R3 & R4 & R5).
      destruct V; simp. constructor; simp; rewrite ?H1, ?H2, ?H3, ?H4, ?R1, ?R2, ?R3, ?R4; auto.
      - intros j m' Hj. apply nth_sn_some in Hj. destruct Hj as [(<- & X & _)|(_ & Hj)]; [discriminate|eauto].
      - rewrite sn_len. auto.
      - intros j m' Hc Hj. apply nth_sn_some in Hj. destruct Hj as [(<- & X & _)|(_ & Hj)]; [discriminate|eauto].
      - intros H. apply v_tasks. destruct (tasks (shared w1)) eqn:Et; [congruence|]. assert (X := R5 _ (or_introl eq_refl)). intros Z. rewrite Z in X. destruct X.
      - intros j t' m' H Hj. apply nth_sn_some in Hj. destruct Hj as [(<- & X & _)|(_ & Hj)]; [discriminate|eauto].
      - intros j t' H. rewrite sn_len. eauto.
      - intros j. rewrite sn_len. auto. }
    unfold mock_drop in Hs. destruct (poisoned (y_w y)) eqn:Ep.
    - injection Hs as <- <-. destruct u; (apply K; simp; auto).
    - injection Hs as <- <-. apply K; simp; auto.
  Qed.

  (** ** Futures *)
  Lemma shots_keep (S : sum) y w1 : inv S y -> shared w1 = shared (y_w y) -> poisoned w1 = poisoned (y_w y) -> queue w1 = queue (y_w y) -> rx_live w1 = rx_live (y_w y) ->
    length (oneshots w1) = length (oneshots (y_w y)) ->
    (forall j o, nth_error (oneshots w1) j = Some o -> exists o', nth_error (oneshots (y_w y)) j = Some o' /\ os_val o = os_val o' /\ os_tx o = os_tx o') ->
    inv S (y_set w1 y).
  Proof.
    intros V H1 H2 H3 H4 H5 H6. destruct V; constructor; simp; rewrite ?H1, ?H2, ?H3, ?H4, ?H5; auto.
    intros j o Hj. destruct (H6 _ _ Hj) as (o' & A & B & C). rewrite B, C. eauto.
  Qed.
  Lemma step_poll (S : sum) j t y y1 b : inv S y -> mstep (MPoll j t) y = (y1, b) -> inv (upd S (MPoll j t) b) y1.
  Proof.
    destruct S as [c a r n e p rp rd rx an ms].
    intros V Hs. cbn [mstep] in Hs. destruct (nth_error (y_futs y) j) as [[f|]|] eqn:Ef; try (injection Hs as <- <-; exact V).
    assert (V1 := inv_current t V). assert (Hf := v_futs V _ Ef). assert (Hlt := lt_some _ _ Ef).
    assert (Done : forall f1, (f1 = RfDone \/ (f1 = RfClosed /\ f = RfClosed)) -> inv (Sum c a r n e p rp rd rx (put j true an) ms)
       (MSys (y_mocks y) (set_nth j (Some f1) (y_futs y)) (y_replies y) (y_handle y) (set_current t (y_w y)))).
    { intros f1 Hf1. destruct V; simp. constructor; simp; auto.
      - intros j' f' Hj. apply nth_sn_some in Hj. destruct Hj as [(<- & X & _)|(N & Hj)].
        + injection X as <-. destruct Hf1 as [->|[-> ->]]; cbn; [apply put_eq|exact Hf].
        + specialize (v_futs _ _ Hj). destruct f'; cbn in *; rewrite ?put_neq by auto; auto.
      - rewrite sn_len. auto.
      - intros j'. rewrite sn_len. intros. rewrite put_neq by lia. auto. }
    destruct f as [|j'|]; cbn in Hf; unfold resp_poll in Hs; simp.
    - injection Hs as <- <-. apply Done. auto.
    - destruct Hf as (-> & Hja & Hna).
      assert (Same : set_nth j (Some (RfWait j)) (y_futs y) = y_futs y) by (now apply sn_same).
      destruct (nth_error (oneshots (y_w y)) j) as [[[x|] [|] wk]|] eqn:Eo; try (injection Hs as <- <-; apply Done; auto).
      injection Hs as <- <-. rewrite Same. refine (shots_keep _ V1 _ _ _ _ _ _); simp; auto; [apply sn_len|].
      intros j1 o Hj. rewrite sn_nth in Hj. destruct (Nat.eqb_spec j j1) as [<-|N]; [|eauto]. rewrite Eo in Hj. injection Hj as <-. eauto.
    - injection Hs as <- <-. exact V1.
  Qed.
  Lemma step_dropfut (S : sum) j y y1 b : inv S y -> mstep (MDropFut j) y = (y1, b) -> inv (upd S (MDropFut j) b) y1.
  Proof.
    destruct S as [c a r n e p rp rd rx an ms].
    intros V Hs. cbn [mstep] in Hs. destruct (nth_error (y_futs y) j) as [[f|]|] eqn:Ef; try (injection Hs as <- <-; exact V).
    injection Hs as <- <-.
    assert (V2 : inv (Sum c a r n e p rp rd rx an ms) (MSys (y_mocks y) (set_nth j None (y_futs y)) (y_replies y) (y_handle y) (y_w y))).
    { destruct V; simp; constructor; simp; auto.
      - intros j' f' Hj. apply nth_sn_some in Hj. destruct Hj as [(<- & X & _)|(N & Hj)]; [discriminate|eauto].
      - rewrite sn_len. auto.
      - intros j'. rewrite sn_len. auto. }
    destruct f as [|j'|]; cbn [resp_drop]; try exact V2. destruct (nth_error (oneshots (y_w y)) j') as [o|] eqn:Eo; [|exact V2].
    refine (shots_keep _ V2 _ _ _ _ _ _); simp; auto; [apply sn_len|].
    intros j1 o1 Hj. rewrite sn_nth in Hj. destruct (Nat.eqb_spec j' j1) as [<-|N]; [|eauto]. rewrite Eo in Hj. injection Hj as <-. eauto.
  Qed.

  (** ** Handle *)
  Lemma step_allow (S : sum) m y y1 b : inv S y -> mstep (MAllow m) y = (y1, b) -> inv (upd S (MAllow m) b) y1.
  Proof.
    destruct S as [c a r n e p rp rd rx an ms].
    intros V Hs. cbn [mstep] in Hs. destruct (y_handle y) eqn:Eh; try (injection Hs as <- <-; exact V).
    unfold handle_allow in Hs. destruct (poisoned (y_w y)) eqn:Ep; injection Hs as <- <-; [destruct V; simp; constructor; simp; auto|].
    destruct V; simp. destruct (N.ltb_spec 0 m) as [L|L]; constructor; simp; rewrite ?Eh, ?Ep in *; auto; try (intros; contradiction); try congruence.
    intros H. destruct (v_tasks H) as (A & B & C). split; [lia|auto].
  Qed.
  Lemma step_senderr (S : sum) x y y1 b : inv S y -> mstep (MSendError x) y = (y1, b) -> inv (upd S (MSendError x) b) y1.
  Proof.
    destruct S as [c a r n e p rp rd rx an ms].
    intros V Hs. cbn [mstep] in Hs. destruct (y_handle y) eqn:Eh; try (injection Hs as <- <-; exact V).
    unfold handle_send_error in Hs. destruct (poisoned (y_w y)) eqn:Ep; injection Hs as <- <-; [destruct V; simp; constructor; simp; auto|].
    destruct V; simp. constructor; simp; rewrite ?Eh, ?Ep in *; auto; try (intros; contradiction); try congruence.
  Qed.
  Lemma step_drophandle (S : sum) u y y1 b : inv S y -> mstep (MDropHandle u) y = (y1, b) -> inv (upd S (MDropHandle u) b) y1.
  Proof.
    destruct S as [c a r n e p rp rd rx an ms].
    intros V Hs. cbn [mstep] in Hs. destruct (y_handle y) eqn:Eh; try (injection Hs as <- <-; exact V).
    assert (Hrx : rx = false). { destruct rx; [|reflexivity]. assert (X := proj1 (v_gone V) eq_refl). congruence. } subst rx.
    unfold handle_drop in Hs. destruct (poisoned (y_w y)) eqn:Ep; injection Hs as <- <-.
    - destruct u; (destruct V; simp; constructor; simp; rewrite ?Eh, ?Ep in *; auto; try discriminate; split; discriminate).
    - destruct V; simp. constructor; simp; rewrite ?Eh, ?Ep in *; auto; try (intros; contradiction); try discriminate; try (split; discriminate).
      split; [apply v_nfuts|discriminate].
  Qed.
  Lemma step_request (S : sum) y y1 b : inv S y -> mstep MRequest y = (y1, b) -> inv (upd S MRequest b) y1.
  Proof.
    destruct S as [c a r n e p rp rd rx an ms].
    intros V Hs. cbn [mstep] in Hs. destruct (y_handle y) eqn:Eh; try (injection Hs as <- <-; exact V).
    assert (Hrx : rx = false). { destruct rx; [|reflexivity]. assert (X := proj1 (v_gone V) eq_refl). congruence. } subst rx.
    unfold handle_poll_request in Hs. destruct (queue (y_w y)) as [|[q j] l] eqn:Eq.
    { destruct (senders (y_w y)); injection Hs as <- <-; (destruct V; simp; constructor; simp; rewrite ?Eh, ?Eq in *; auto). }
    injection Hs as <- <-. destruct V; simp. destruct (v_queue eq_refl) as [Q1 Q2]. rewrite Eq in Q1, Q2. cbn in Q1, Q2. injection Q2 as Q2 Q3. subst j.
    assert (Hov : forall j, over (Sum c a (r ++ [q]) n e p rp rd false an ms : sum) j = over (Sum c a r n e p rp rd false an ms : sum) j) by reflexivity.
    assert (Hlen : length (r ++ [q]) = S (length r)) by (rewrite app_length; cbn; lia).
    constructor; simp; rewrite ?Eh in *; auto; try discriminate.
    - intros _. split; [rewrite <- app_assoc; exact Q1|]. rewrite Hlen. exact Q3.
    - exists (map fst l). rewrite <- app_assoc. exact Q1.
    - rewrite app_length, Hlen. cbn. lia.
    - intros k x Hk. rewrite nth_snoc in Hk. destruct (Nat.eqb_spec k (length (y_replies y))) as [->|N].
      + injection Hk as <-. rewrite v_replies. split; [reflexivity|]. destruct (v_late (length r) ltac:(lia)) as [L1 L2]. unfold over. simp. now rewrite L1, L2.
      + exact (v_reply _ _ Hk).
    - intros k Hk. apply v_late. lia.
  Qed.

  (** A reply is used up. *)
  Lemma close_shot (x : option (result U merr)) k (w : mworld) :
    shared (close_oneshot x k w) = shared w /\ poisoned (close_oneshot x k w) = poisoned w /\ queue (close_oneshot x k w) = queue w /\
    rx_live (close_oneshot x k w) = rx_live w /\ length (oneshots (close_oneshot x k w)) = length (oneshots w) /\
    forall j, nth_error (oneshots (close_oneshot x k w)) j =
      if k =? j then match nth_error (oneshots w) j with Some _ => Some (Oneshot x false None) | None => None end else nth_error (oneshots w) j.
  Proof.
    unfold close_oneshot. destruct (nth_error (oneshots w) k) as [o|] eqn:Eo.
    - destruct (os_waker o); simp; (repeat split; auto; [apply sn_len|]; intros j; apply sn_nth).
    - repeat split; auto. intros j. destruct (Nat.eqb_spec k j) as [<-|]; [now rewrite Eo|reflexivity].
  Qed.
  Lemma step_reply (S : sum) k x y y1 b : inv S y -> mstep (MReply k x) y = (y1, b) -> inv (upd S (MReply k x) b) y1.
  Proof.
    destruct S as [c a r n e p rp rd rx an ms].
    intros V Hs. cbn [mstep] in Hs. destruct (nth_error (y_replies y) k) as [[j|]|] eqn:Er; try (injection Hs as <- <-; exact V).
    injection Hs as <- <-. destruct (v_reply V _ Er) as [-> Ho]. assert (Hlt := lt_some _ _ Er).
    assert (Hov : forall j, over (Sum c a r n e p (put k (Some x) rp) rd rx an ms : sum) j = (k =? j) || over (Sum c a r n e p rp rd rx an ms : sum) j).
    { intros j. unfold over, put. simp. destruct (k =? j); reflexivity. }
    destruct (close_shot (Some x) k (y_w y)) as (C1 & C2 & C3 & C4 & C5 & C6). unfold send_response.
    destruct V; simp. constructor; simp; rewrite ?C1, ?C2, ?C3, ?C4, ?C5; auto.
    - intros j o Hj. rewrite C6 in Hj. rewrite Hov. destruct (Nat.eqb_spec k j) as [<-|N].
      + destruct (nth_error (oneshots (y_w y)) k); [|discriminate]. injection Hj as <-. rewrite put_eq. auto.
      + rewrite put_neq by auto. cbn [orb]. auto.
    - rewrite sn_len. auto.
    - intros k' z Hk. rewrite Hov. rewrite sn_nth in Hk. destruct (Nat.eqb_spec k k') as [<-|N].
      + rewrite Er in Hk. injection Hk as <-. reflexivity.
      + exact (v_reply _ _ Hk).
    - intros k' Hk. rewrite put_neq by lia. auto.
  Qed.
  Lemma step_dropreply (S : sum) k y y1 b : inv S y -> mstep (MDropReply k) y = (y1, b) -> inv (upd S (MDropReply k) b) y1.
  Proof.
    destruct S as [c a r n e p rp rd rx an ms].
    intros V Hs. cbn [mstep] in Hs. destruct (nth_error (y_replies y) k) as [[j|]|] eqn:Er; try (injection Hs as <- <-; exact V).
    injection Hs as <- <-. destruct (v_reply V _ Er) as [-> Ho]. assert (Hlt := lt_some _ _ Er).
    assert (Hov : forall j, over (Sum c a r n e p rp (put k true rd) rx an ms : sum) j = (k =? j) || over (Sum c a r n e p rp rd rx an ms : sum) j).
    { intros j. unfold over, put. simp. destruct (k =? j), (rp j); reflexivity. }
    assert (Hn : rp k = None). { unfold over in Ho. simp. destruct (rp k); [discriminate|reflexivity]. }
    destruct (close_shot None k (y_w y)) as (C1 & C2 & C3 & C4 & C5 & C6). unfold drop_send_response.
    destruct V; simp. constructor; simp; rewrite ?C1, ?C2, ?C3, ?C4, ?C5; auto.
    - intros j o Hj. rewrite C6 in Hj. rewrite Hov. destruct (Nat.eqb_spec k j) as [<-|N].
      + destruct (nth_error (oneshots (y_w y)) k); [|discriminate]. injection Hj as <-. auto.
      + cbn [orb]. auto.
    - rewrite sn_len. auto.
    - intros k' z Hk. rewrite Hov. rewrite sn_nth in Hk. destruct (Nat.eqb_spec k k') as [<-|N].
      + rewrite Er in Hk. injection Hk as <-. reflexivity.
      + exact (v_reply _ _ Hk).
    - intros k' Hk. rewrite put_neq by lia. auto.
  Qed.
  Lemma drop_queue (l : list (T * nat)) : forall w : mworld, let w1 := fold_left (fun w p => drop_send_response (snd p) w) l w in
    shared w1 = shared w /\ poisoned w1 = poisoned w /\ queue w1 = queue w /\ rx_live w1 = rx_live w /\ length (oneshots w1) = length (oneshots w) /\
    forall j o, nth_error (oneshots w1) j = Some o ->
      if existsb (fun i => i =? j) (map snd l) then o = Oneshot None false None else nth_error (oneshots w) j = Some o.
  Proof.
    induction l as [|[q k] l IH]; intros w w1; [cbn in w1; subst w1; repeat split; auto|].
    destruct (close_shot None k w) as (C1 & C2 & C3 & C4 & C5 & C6).
    destruct (IH (drop_send_response k w)) as (D1 & D2 & D3 & D4 & D5 & D6). cbn in w1.
    fold w1 in D1, D2, D3, D4, D5, D6. unfold drop_send_response in *. repeat split; try congruence.
    intros j o Hj. specialize (D6 _ _ Hj). cbn. destruct (existsb (fun i => i =? j) (map snd l)); [now rewrite orb_true_r|].
    rewrite orb_false_r. rewrite C6 in D6. destruct (k =? j); [|exact D6]. destruct (nth_error (oneshots w) j); [|discriminate]. now injection D6 as <-.
  Qed.
  Lemma in_seq_b j a n : existsb (fun i => i =? j) (seq a n) = (a <=? j) && (j <? a + n).
  Proof.
    destruct (existsb _ _) eqn:Ex.
    - apply existsb_exists in Ex. destruct Ex as (i & Hi & Ei). apply Nat.eqb_eq in Ei. subst. apply in_seq in Hi.
      symmetry. apply andb_true_intro. split; [apply Nat.leb_le|apply Nat.ltb_lt]; lia.
    - destruct (Nat.leb_spec a j); [|reflexivity]. destruct (Nat.ltb_spec j (a + n)); [|reflexivity].
      assert (X : existsb (fun i => i =? j) (seq a n) = true).
      { apply existsb_exists. exists j. split; [apply in_seq; lia|apply Nat.eqb_refl]. } congruence.
  Qed.
  Lemma step_droprx (S : sum) y y1 b : inv S y -> mstep MDropRx y = (y1, b) -> inv (upd S MDropRx b) y1.
  Proof.
    destruct S as [c a r n e p rp rd rx an ms].
    intros V Hs. cbn [mstep] in Hs. destruct (y_handle y) eqn:Eh; try (injection Hs as <- <-; exact V).
    assert (Hrx : rx = false). { destruct rx; [|reflexivity]. assert (X := proj1 (v_gone V) eq_refl). congruence. } subst rx.
    injection Hs as <- <-. destruct (v_queue V eq_refl) as [Q1 Q2]. simp.
    assert (Hqa : length r + length (queue (y_w y)) = length a) by (rewrite Q1, app_length, map_length; lia).
    assert (D := drop_queue (queue (y_w y)) (set_queue [] false (y_w y))). cbn zeta in D. fold (drop_rx (y_w y)) in D.
    destruct D as (D1 & D2 & D3 & D4 & D5 & D6). simp. rewrite Q2 in D6.
    destruct V; simp. constructor; simp; rewrite ?D1, ?D2, ?D3, ?D4, ?D5, ?Eh in *; auto; try discriminate.
    - intros _. apply v_shut. discriminate.
    - split; reflexivity.
    - intros j o Hj. assert (Hja : j < length a) by (rewrite <- v_shots, <- D5; eapply lt_some; eauto).
      specialize (D6 _ _ Hj). rewrite in_seq_b in D6. unfold over. simp. rewrite andb_true_l.
      destruct (Nat.leb_spec (length r) j) as [L|L].
      + replace (j <? length r + length (queue (y_w y))) with true in D6 by (symmetry; apply Nat.ltb_lt; lia). cbn in D6. subst o. cbn.
        destruct (v_late _ L) as [-> ->]. auto.
      + cbn in D6. specialize (v_shot _ _ D6). unfold over in v_shot. simp. rewrite andb_false_l in v_shot. exact v_shot.
    - intros k z Hk. specialize (v_reply _ _ Hk). apply lt_some in Hk. unfold over in *. simp.
      replace (length r <=? k) with false by (symmetry; apply Nat.leb_gt; lia). exact v_reply.
  Qed.

  Lemma inv_step (S : sum) o y y1 b : inv S y -> mstep o y = (y1, b) -> inv (upd S o b) y1.
  Proof.
    destruct o; eauto using step_ready, step_call, step_clone, step_drop, step_poll, step_dropfut, step_allow, step_senderr, step_request,
      step_reply, step_dropreply, step_drophandle, step_droprx.
  Qed.
End P.
