(** tower-test's Mock: nobody who waits is forgotten. *)
From Verif Require Import Base Middleware LoadProof Mock MockSpec MockProof MockStep MockTop.
Set Implicit Arguments.

Section P.
  Context {T U E : Type}.
  Notation merr := (@merr E).
  Notation mop := (mop T U E).
  Notation mobs := (mobs T U E).
  Notation mworld := (@mworld T U E).
  Notation msys := (@msys T U E).
  Notation mentry := (@mentry T U E).
  Notation sum := (@sum T U E).

  Ltac simp := cbn [y_mocks y_futs y_replies y_handle y_w y_set shared poisoned queue rx_live senders oneshots current woken
    set_state set_poisoned set_queue set_senders set_oneshots set_current wake wake_tasks rem tasks is_closed next_clone_id err_with fst snd id can_send
    os_val os_tx os_waker s_closed s_acc s_rec s_rem s_err s_perm s_reply s_rdrop s_rx s_ans s_mis upd] in *.

  (** Oneshot [j] is open and will wake [t]. *)
  Definition shot_waits (j t : nat) (w : mworld) : Prop := nth_error (oneshots w) j = Some (Oneshot None true (Some t)).
  (** From [w] to [w1], whoever waited still waits or was woken (but for mock [x] and future [z]). *)
  Definition kept (x z : option nat) (w w1 : mworld) : Prop :=
    exists d, woken w1 = woken w ++ d /\
      (forall i t, x <> Some i -> In (i, t) (tasks (shared w)) -> In (i, t) (tasks (shared w1)) \/ In t d) /\
      (forall j t, z <> Some j -> shot_waits j t w -> shot_waits j t w1 \/ In t d).
  Lemma kept_same x z (w w1 : mworld) : woken w1 = woken w -> tasks (shared w1) = tasks (shared w) -> oneshots w1 = oneshots w -> kept x z w w1.
  Proof. intros A B C. exists []. rewrite A, B, app_nil_r. unfold shot_waits. rewrite C. auto. Qed.
  Lemma kept_refl x z w : kept x z w w.
  Proof. now apply kept_same. Qed.
  Lemma kept_trans x z a b c : kept x z a b -> kept x z b c -> kept x z a c.
  Proof.
    intros (d1 & A1 & A2 & A3) (d2 & B1 & B2 & B3). exists (d1 ++ d2). rewrite B1, A1, app_assoc. split; [reflexivity|]. split.
    - intros i t Hx H. destruct (A2 _ _ Hx H) as [K|K]; [destruct (B2 _ _ Hx K) as [L|L]|]; rewrite in_app_iff; auto.
    - intros i t Hx H. destruct (A3 _ _ Hx H) as [K|K]; [destruct (B3 _ _ Hx K) as [L|L]|]; rewrite in_app_iff; auto.
  Qed.
  Lemma kept_weak x z a b : kept None None a b -> kept x z a b.
  Proof. intros (d & A1 & A2 & A3). exists d. split; [exact A1|]. split; intros; [apply A2|apply A3]; auto; discriminate. Qed.
  Lemma kept_close v k (w : mworld) : kept None None w (close_oneshot v k w).
  Proof.
    destruct (close_shot v k w) as (C1 & _ & _ & _ & _ & C6). unfold kept. rewrite C1.
    assert (W : exists d, woken (close_oneshot v k w) = woken w ++ d /\ forall t, shot_waits k t w -> In t d).
    { unfold close_oneshot, shot_waits. destruct (nth_error (oneshots w) k) as [o|] eqn:Eo.
      - destruct (os_waker o) as [t|] eqn:Ew; simp; [exists [t]|exists []]; rewrite ?app_nil_r; (split; [reflexivity|]); intros t' X; injection X as X; subst o; simp; [injection Ew as ->; left; reflexivity|discriminate].
      - exists []. rewrite app_nil_r. split; [reflexivity|discriminate]. }
    destruct W as (d & W1 & W2). exists d. split; [exact W1|]. split; [auto|]. intros j t _ Hj. destruct (Nat.eq_dec k j) as [->|N]; [auto|].
    left. unfold shot_waits in *. rewrite C6. apply Nat.eqb_neq in N. now rewrite N.
  Qed.
  Lemma kept_fold (l : list (T * nat)) : forall w, kept None None w (fold_left (fun w p => drop_send_response (snd p) w) l w).
  Proof. induction l as [|p l IH]; intros w; cbn [fold_left]; [apply kept_refl|]. eapply kept_trans; [apply kept_close|apply IH]. Qed.
  Lemma kept_tasks (w : mworld) : kept None None w (wake_tasks w).
  Proof. exists (map snd (tasks (shared w))). simp. split; [reflexivity|]. split; [|auto]. intros i t _ H. right. apply (in_map snd) in H. exact H. Qed.

  Definition task_exc (o : mop) : option nat := match o with MReady i _ | MDrop i _ => Some i | _ => None end.
  Definition fut_exc (o : mop) : option nat := match o with MPoll j _ | MDropFut j => Some j | _ => None end.
  Lemma kept_step (S : sum) o (y y1 : msys) b : inv S y -> mstep o y = (y1, b) -> kept (task_exc o) (fut_exc o) (y_w y) (y_w y1).
  Proof.
    intros V H. destruct o; cbn [mstep task_exc fut_exc] in *.
    - destruct (nth_error (y_mocks y) i) as [[m|]|] eqn:Em; try (injection H as <- _; apply kept_refl).
      unfold mock_poll_ready in H. simp. destruct (poisoned _); [injection H as <- _; now apply kept_same|].
      destruct (is_closed _); [injection H as <- _; now apply kept_same|]. destruct (err_with _); [injection H as <- _; now apply kept_same|].
      destruct (can_send m); [injection H as <- _; now apply kept_same|].
      destruct (0 <? _)%N; [destruct (has_key _ _); injection H as <- _; now apply kept_same|].
      injection H as <- _. exists []. simp. rewrite app_nil_r. split; [reflexivity|]. split; [|auto].
      intros i' t' Hi X. left. unfold insert_key. right. apply in_remove. split; [exact X|]. rewrite (v_ids V _ Em). cbn [fst]. congruence.
    - destruct (nth_error (y_mocks y) i) as [[m|]|] eqn:Em; try (injection H as <- _; apply kept_refl).
      unfold mock_call in H. simp. destruct (poisoned _); [injection H as <- _; now apply kept_same|].
      destruct (is_closed _); [injection H as <- _; now apply kept_same|]. destruct (negb (can_send m)); [injection H as <- _; now apply kept_same|].
      destruct (rx_live _); injection H as <- _; [|now apply kept_same]. exists []. simp. rewrite app_nil_r. split; [reflexivity|]. split; [auto|].
      intros j t _ Hj. left. unfold shot_waits in *. simp. rewrite nth_error_app1; [exact Hj|]. now apply lt_some in Hj.
    - destruct (nth_error (y_mocks y) i) as [[m|]|] eqn:Em; try (injection H as <- _; apply kept_refl).
      unfold mock_clone in H. destruct (poisoned _); injection H as <- _; now apply kept_same.
    - destruct (nth_error (y_mocks y) i) as [[m|]|] eqn:Em; try (injection H as <- _; apply kept_refl).
      unfold mock_drop in H. destruct (poisoned _); injection H as <- _; [now apply kept_same|].
      exists []. simp. rewrite app_nil_r. split; [reflexivity|]. split; [|auto].
      intros i' t' Hi X. left. apply in_remove. split; [exact X|]. rewrite (v_ids V _ Em). cbn [fst]. congruence.
    - destruct (nth_error (y_futs y) j) as [[f|]|] eqn:Ef; try (injection H as <- _; apply kept_refl). assert (F := v_futs V _ Ef).
      unfold resp_poll in H. simp. destruct f as [|j'|]; try (injection H as <- _; now apply kept_same). cbn in F. destruct F as (-> & _).
      destruct (nth_error (oneshots (y_w y)) j) as [[[x|] [|] wk]|]; injection H as <- _; try (now apply kept_same).
      exists []. simp. rewrite app_nil_r. split; [reflexivity|]. split; [auto|]. intros j' t' Hj X. left. unfold shot_waits in *. simp.
      rewrite sn_nth. destruct (Nat.eqb_spec j j') as [->|]; [congruence|exact X].
    - destruct (nth_error (y_futs y) j) as [[f|]|] eqn:Ef; try (injection H as <- _; apply kept_refl). assert (F := v_futs V _ Ef).
      injection H as <- _. simp. destruct f as [|j'|]; try apply kept_refl. cbn in F. destruct F as (-> & _). cbn [resp_drop].
      destruct (nth_error (oneshots (y_w y)) j) as [o|]; [|apply kept_refl].
      exists []. simp. rewrite app_nil_r. split; [reflexivity|]. split; [auto|]. intros j' t' Hj X. left. unfold shot_waits in *. simp.
      rewrite sn_nth. destruct (Nat.eqb_spec j j') as [->|]; [congruence|exact X].
    - destruct (y_handle y); try (injection H as <- _; apply kept_refl). unfold handle_allow in H.
      destruct (poisoned _); injection H as <- _; [apply kept_refl|]. destruct (0 <? n)%N; [|now apply kept_same].
      eapply kept_trans; [|apply kept_tasks]. now apply kept_same.
    - destruct (y_handle y); try (injection H as <- _; apply kept_refl). unfold handle_send_error in H.
      destruct (poisoned _); injection H as <- _; [apply kept_refl|]. eapply kept_trans; [|apply kept_tasks]. now apply kept_same.
    - destruct (y_handle y); try (injection H as <- _; apply kept_refl). unfold handle_poll_request in H.
      destruct (queue (y_w y)) as [|[q j] l0]; [destruct (senders (y_w y))|]; injection H as <- _; now apply kept_same.
    - destruct (nth_error (y_replies y) k) as [[j|]|]; injection H as <- _; try apply kept_refl. apply kept_close.
    - destruct (nth_error (y_replies y) k) as [[j|]|]; injection H as <- _; try apply kept_refl. apply kept_close.
    - destruct (y_handle y); try (injection H as <- _; apply kept_refl). unfold handle_drop in H.
      destruct (poisoned _); injection H as <- _; [apply kept_refl|]. eapply kept_trans; [|apply kept_tasks]. now apply kept_same.
    - destruct (y_handle y); injection H as <- _; try apply kept_refl. simp. unfold drop_rx. eapply kept_trans; [|apply kept_fold]. now apply kept_same.
  Qed.
  Lemma kept_woke x z (y y1 : msys) : kept x z (y_w y) (y_w y1) -> woken (y_w y1) = woken (y_w y) ++ woke y y1 /\
      (forall i t, x <> Some i -> In (i, t) (tasks (shared (y_w y))) -> In (i, t) (tasks (shared (y_w y1))) \/ In t (woke y y1)) /\
      (forall j t, z <> Some j -> shot_waits j t (y_w y) -> shot_waits j t (y_w y1) \/ In t (woke y y1)).
  Proof.
    intros (d & A & B). assert (D : woke y y1 = d). { unfold woke. rewrite A, skipn_app, skipn_all, Nat.sub_diag. reflexivity. }
    rewrite D. auto.
  Qed.
  (** A mock that is not dropped stays. *)
  Lemma mock_stays o (y y1 : msys) b i m : mstep o y = (y1, b) -> (forall u, o <> MDrop i u) -> nth_error (y_mocks y) i = Some (Some m) ->
    exists m1, nth_error (y_mocks y1) i = Some (Some m1).
  Proof.
    intros H Ho Hm.
    assert (Sn : forall k m1, k < length (y_mocks y) -> exists m2, nth_error (set_nth k (Some m1) (y_mocks y)) i = Some (Some m2)).
    { intros k m1 _. rewrite sn_nth, Hm. destruct (k =? i); eauto. }
    destruct o; cbn [mstep] in H; try (destruct (nth_error (y_mocks y) i0) as [[m0|]|] eqn:Em; [|injection H as <- <-; eauto|injection H as <- <-; eauto]; assert (L := lt_some _ _ Em)).
    - destruct (mock_poll_ready m0 _) as [w1 [[m1 a]| |]]; injection H as <- <-; cbn [y_mocks y_set]; eauto.
    - destruct (mock_call m0 r _) as [w1 [[m1 a]| |]]; injection H as <- <-; cbn [y_mocks y_set]; eauto.
    - destruct (mock_clone m0 _) as [w1 [m1| |]]; injection H as <- <-; cbn [y_mocks y_set]; eauto. rewrite nth_error_app1 by (now apply lt_some in Hm). eauto.
    - destruct (mock_drop m0 unwinding _) as [w1 v]. injection H as <- <-. cbn [y_mocks]. rewrite sn_nth, Hm.
      destruct (Nat.eqb_spec i0 i) as [->|]; [|eauto]. destruct (Ho unwinding eq_refl).
    - destruct (nth_error (y_futs y) j) as [[f|]|]; try (injection H as <- _; eauto). destruct (resp_poll f _) as [w1 [[f1 a]| |]]; injection H as <- _; eauto.
    - destruct (nth_error (y_futs y) j) as [[f|]|]; injection H as <- _; eauto.
    - destruct (y_handle y); try (injection H as <- _; eauto). destruct (handle_allow n _) as [w1 v]. injection H as <- _. eauto.
    - destruct (y_handle y); try (injection H as <- _; eauto). destruct (handle_send_error e _) as [w1 v]. injection H as <- _. eauto.
    - destruct (y_handle y); try (injection H as <- _; eauto). destruct (handle_poll_request _) as [w1 [[|[[q j]|]]| |]]; injection H as <- _; eauto.
    - destruct (nth_error (y_replies y) k) as [[j|]|]; injection H as <- _; eauto.
    - destruct (nth_error (y_replies y) k) as [[j|]|]; injection H as <- _; eauto.
    - destruct (y_handle y); try (injection H as <- _; eauto). destruct (handle_drop unwinding _) as [w1 v]. injection H as <- _. eauto.
    - destruct (y_handle y); injection H as <- _; eauto.
  Qed.


  (** A run over [h2]. *)
  Lemma wait_here (y : msys) S (h : list mentry) i t : inv S y -> agree h S ->
    In (i, t) (tasks (shared (y_w y))) -> (exists m, nth_error (y_mocks y) i = Some (Some m)) -> ready_answer h i = Pending.
  Proof.
    intros V A Ht [m Hm]. unfold ready_answer. rewrite (g_closed A), (g_err A), (g_perm A), (g_rem A).
    destruct (v_tasks V) as (R & C & X); [intros Z; rewrite Z in Ht; destruct Ht|]. rewrite C, X, <- (v_rem V C), R, <- (v_can V _ C Hm), (v_wait V _ _ Ht Hm). reflexivity.
  Qed.
  Lemma wait_run l : forall (y : msys) S (h : list mentry) h2 h3 i t, inv S y -> agree h S -> mrun y l = h2 ++ h3 -> leaves_mock i h2 ->
    In (i, t) (tasks (shared (y_w y))) -> (exists m, nth_error (y_mocks y) i = Some (Some m)) ->
    In t (wakes h2) \/ ready_answer (h ++ h2) i = Pending.
  Proof.
    induction l as [|o l IH]; intros y S h h2 h3 i t V A Hr Hl Ht Hm.
    { assert (h2 = []) as -> by (destruct h2; [reflexivity|discriminate Hr]). rewrite app_nil_r. right. eauto using wait_here. }
    destruct h2 as [|e h2]; [rewrite app_nil_r; right; eauto using wait_here|]. cbn [mrun] in Hr. destruct (mstep o y) as [y1 b] eqn:Es.
    injection Hr as <- Hr. fold (woke y y1) in *. unfold wakes. cbn [flat_map snd]. fold (wakes h2). rewrite in_app_iff.
    destruct (@kept_woke _ _ _ _ (@kept_step _ _ _ _ _ V Es)) as (_ & K & _).
    assert (N1 : task_exc o <> Some i).
    { intros X. destruct o; cbn in X; try discriminate; injection X as ->.
      - apply (proj1 (Hl t0 b (woke y y1))). left. reflexivity.
      - apply (proj2 (Hl t b (woke y y1)) unwinding). left. reflexivity. }
    destruct (K _ _ N1 Ht) as [K1|K1]; [|auto]. destruct Hm as [m Hm].
    assert (Hm1 : exists m1, nth_error (y_mocks y1) i = Some (Some m1)).
    { eapply mock_stays; [exact Es| |exact Hm]. intros u ->. apply (proj2 (Hl t b (woke y y1)) u). left. reflexivity. }
    assert (Hl1 : leaves_mock i h2).
    { intros t' b' d'. destruct (Hl t' b' d') as [P Q]. split; [intros X; apply P; right; exact X|intros u X; apply (Q u); right; exact X]. }
    destruct (IH y1 _ (h ++ [(o, b, woke y y1)]) h2 h3 i t (inv_step _ V Es) (agree_upd o b (woke y y1) A) Hr Hl1 K1 Hm1) as [R|R]; [auto|].
    right. rewrite <- app_assoc in R. exact R.
  Qed.
  Lemma mock_wakes_ready l (h1 : list mentry) i t d h2 h3 : mhistory l = h1 ++ (MReady i t, MoReady Pending, d) :: h2 ++ h3 -> leaves_mock i h2 ->
    ready_answer (h1 ++ (MReady i t, MoReady Pending, d) :: h2) i <> Pending -> In t (wakes h2).
  Proof.
    intros H Hl Hne. destruct (@hist_at _ _ _ l h1 _ _ H) as (y & S & o & b & y1 & l' & V & A & Hs & He & Hr & _). injection He as <- <- Hd.
    assert (V1 := inv_step _ V Hs). assert (A1 := agree_upd (MReady i t) (MoReady Pending) d A).
    assert (X : In (i, t) (tasks (shared (y_w y1))) /\ exists m, nth_error (y_mocks y1) i = Some (Some m)).
    { cbn [mstep] in Hs. destruct (nth_error (y_mocks y) i) as [[m|]|] eqn:Em; try discriminate. unfold mock_poll_ready in Hs. simp.
      destruct (poisoned _); [discriminate|]. destruct (is_closed _); [discriminate|]. destruct (err_with _); [discriminate|]. destruct (can_send m); [discriminate|].
      destruct (0 <? _)%N; [destruct (has_key _ _); discriminate|]. injection Hs as <-. simp. rewrite (v_ids V _ Em). split; [left; reflexivity|].
      rewrite sn_nth, Em, Nat.eqb_refl. eauto. }
    destruct X as [X1 X2]. destruct (@wait_run l' y1 _ _ h2 h3 i t V1 A1 (eq_sym Hr) Hl X1 X2) as [R|R]; [exact R|].
    rewrite <- app_assoc in R. cbn [app] in R. contradiction.
  Qed.

  Lemma fut_here (y : msys) S (h : list mentry) j t : inv S y -> agree h S -> shot_waits j t (y_w y) -> response h j = Pending.
  Proof.
    intros V A Ht. unfold response. rewrite (g_acc A), (g_reply A), (g_rdrop A), (g_rx A), (g_rec A). unfold shot_waits in Ht.
    destruct (v_shot V _ Ht) as [S1 S2]. unfold over in S2. simp. assert (L := lt_some _ _ Ht). rewrite (v_shots V) in L.
    apply Nat.ltb_lt in L. rewrite L, <- S1. rewrite <- S1 in S2. destruct (_ || _); [discriminate|reflexivity].
  Qed.
  Lemma fut_run l : forall (y : msys) S (h : list mentry) h2 h3 j t, inv S y -> agree h S -> mrun y l = h2 ++ h3 -> leaves_fut j h2 ->
    shot_waits j t (y_w y) -> In t (wakes h2) \/ response (h ++ h2) j = Pending.
  Proof.
    induction l as [|o l IH]; intros y S h h2 h3 j t V A Hr Hl Ht.
    { assert (h2 = []) as -> by (destruct h2; [reflexivity|discriminate Hr]). rewrite app_nil_r. right. eauto using fut_here. }
    destruct h2 as [|e h2]; [rewrite app_nil_r; right; eauto using fut_here|]. cbn [mrun] in Hr. destruct (mstep o y) as [y1 b] eqn:Es.
    injection Hr as <- Hr. fold (woke y y1) in *. unfold wakes. cbn [flat_map snd]. fold (wakes h2). rewrite in_app_iff.
    destruct (@kept_woke _ _ _ _ (@kept_step _ _ _ _ _ V Es)) as (_ & _ & K).
    assert (N1 : fut_exc o <> Some j).
    { intros X. destruct o; cbn in X; try discriminate; injection X as ->.
      - apply (proj1 (Hl b (woke y y1)) t0). left. reflexivity.
      - apply (proj2 (Hl b (woke y y1))). left. reflexivity. }
    destruct (K _ _ N1 Ht) as [K1|K1]; [|auto].
    assert (Hl1 : leaves_fut j h2).
    { intros b' d'. destruct (Hl b' d') as [P Q]. split; [intros t' X; apply (P t'); right; exact X|intros X; apply Q; right; exact X]. }
    destruct (IH y1 _ (h ++ [(o, b, woke y y1)]) h2 h3 j t (inv_step _ V Es) (agree_upd o b (woke y y1) A) Hr Hl1 K1) as [R|R]; [auto|].
    right. rewrite <- app_assoc in R. exact R.
  Qed.
  Lemma mock_wakes_response l (h1 : list mentry) j t d h2 h3 : mhistory l = h1 ++ (MPoll j t, MoPolled Pending, d) :: h2 ++ h3 -> leaves_fut j h2 ->
    response (h1 ++ (MPoll j t, MoPolled Pending, d) :: h2) j <> Pending -> In t (wakes h2).
  Proof.
    intros H Hl Hne. destruct (@hist_at _ _ _ l h1 _ _ H) as (y & S & o & b & y1 & l' & V & A & Hs & He & Hr & _). injection He as <- <- Hd.
    assert (V1 := inv_step _ V Hs). assert (A1 := agree_upd (MPoll j t) (MoPolled Pending) d A).
    assert (X : shot_waits j t (y_w y1)).
    { cbn [mstep] in Hs. destruct (nth_error (y_futs y) j) as [[f|]|] eqn:Ef; try discriminate. assert (F := v_futs V _ Ef). unfold resp_poll in Hs. simp.
      destruct f as [|j'|]; try discriminate. cbn in F. destruct F as (-> & _).
      destruct (nth_error (oneshots (y_w y)) j) as [[[x|] [|] wk]|] eqn:Eo; try discriminate. injection Hs as <-. unfold shot_waits. simp.
      rewrite sn_nth, Eo, Nat.eqb_refl. reflexivity. }
    destruct (@fut_run l' y1 _ _ h2 h3 j t V1 A1 (eq_sym Hr) Hl X) as [R|R]; [exact R|].
    rewrite <- app_assoc in R. cbn [app] in R. contradiction.
  Qed.

  (** ** Misuse panics *)
  Lemma mock_call_panics l (h1 : list mentry) i r b d h2 : mhistory l = h1 ++ (MCall i r, b, d) :: h2 -> b <> MoNone ->
    closed h1 = false -> permitted h1 i = false -> b = MoPanic.
  Proof.
    intros H Hn Hc Hp. destruct (@hist_at _ _ _ l h1 _ _ H) as (y & S & o & b' & y1 & l' & V & A & Hs & He & _). injection He as <- <- _.
    rewrite (g_closed A) in Hc. rewrite (g_perm A) in Hp. cbn [mstep] in Hs.
    destruct (nth_error (y_mocks y) i) as [[m|]|] eqn:Em; try (injection Hs as _ <-; contradiction). unfold mock_call in Hs. simp.
    destruct (poisoned (y_w y)); [now injection Hs as _ <-|]. rewrite (v_closed V), Hc, (v_can V i Hc Em), Hp in Hs. now injection Hs as _ <-.
  Qed.
End P.
