(** tower-test's Mock: when the handle learns that no more requests will come. *)
From Verif Require Import Base Middleware Mock MockSpec MockProof MockStep MockTop.
Set Implicit Arguments.

Section P.
  Context {T U E : Type}.
  Notation mop := (mop T U E).
  Notation mobs := (mobs T U E).
  Notation mworld := (@mworld T U E).
  Notation msys := (@msys T U E).
  Notation mentry := (@mentry T U E).

  Fixpoint held (l : list (option mock)) : nat := match l with [] => 0 | Some _ :: l' => S (held l') | None :: l' => held l' end.
  Lemma held_app l1 l2 : held (l1 ++ l2) = held l1 + held l2.
  Proof. induction l1 as [|[m|] l IH]; cbn; lia. Qed.
  Lemma held_set l : forall i m x, nth_error l i = Some (Some m) -> held (set_nth i x l) + 1 = held l + match x with Some _ => 1 | None => 0 end.
  Proof.
    induction l as [|y l IH]; intros [|i] m x E0; try discriminate.
    - cbn in E0. injection E0 as ->. cbn. destruct x; lia.
    - specialize (IH i m x E0). destruct y; cbn; lia.
  Qed.
  Lemma close_senders x j (w : mworld) : senders (close_oneshot x j w) = senders w.
  Proof. unfold close_oneshot. destruct (nth_error _ _) as [o|]; [|reflexivity]. destruct (os_waker o); reflexivity. Qed.
  Lemma fold_senders (q : list (T * nat)) : forall w : mworld, senders (fold_left (fun w p => drop_send_response (snd p) w) q w) = senders w.
  Proof. induction q as [|p q IH]; intros w; cbn [fold_left]; [reflexivity|]. rewrite IH. apply close_senders. Qed.

  Definition drop1 (e : mentry) : nat := match fst e with (MDrop _ _, MoNone) => 0 | (MDrop _ _, _) => 1 | _ => 0 end.
  Lemma drops_cons (e : mentry) h : drops (e :: h) = drop1 e + drops h.
  Proof. destruct e as [[o b] d]. destruct o, b; reflexivity. Qed.

  Ltac fin := cbn [clone1 drop1 fst snd y_mocks y_set y_w shared poisoned queue rx_live senders oneshots set_state set_poisoned set_queue set_senders set_oneshots set_current wake wake_tasks].
  Lemma step_senders o (y y1 : msys) b d : mstep o y = (y1, b) -> senders (y_w y) = held (y_mocks y) ->
    senders (y_w y1) = held (y_mocks y1) /\ held (y_mocks y1) + drop1 (o, b, d) = held (y_mocks y) + clone1 (o, b, d).
  Proof.
    intros H V. destruct o; cbn [mstep] in H.
    - destruct (nth_error (y_mocks y) i) as [[m|]|] eqn:En; [| injection H as <- <-; fin; lia ..].
      generalize (held_set _ _ (Some m) En) as Hs. intros Hs.
      unfold mock_poll_ready in H. cbn [set_current poisoned shared current] in H.
      repeat match type of H with
      | context [if ?c then _ else _] => destruct c
      | context [match err_with ?c with _ => _ end] => destruct (err_with c)
      end; injection H as <- <-; fin; try (split; lia);
      match goal with |- context [held (set_nth i (Some ?x) _)] => generalize (held_set _ _ (Some x) En); cbn; lia end.
    - destruct (nth_error (y_mocks y) i) as [[m|]|] eqn:En; [| injection H as <- <-; fin; lia ..].
      unfold mock_call in H.
      repeat match type of H with
      | context [if ?c then _ else _] => destruct c
      end; injection H as <- <-; fin; try (split; lia);
      match goal with |- context [held (set_nth i (Some ?x) _)] => generalize (held_set _ _ (Some x) En); cbn; lia end.
    - destruct (nth_error (y_mocks y) i) as [[m|]|] eqn:En; [| injection H as <- <-; fin; lia ..].
      unfold mock_clone in H. destruct (poisoned (y_w y)); injection H as <- <-; fin; [lia|].
      rewrite held_app. cbn [held]. lia.
    - destruct (nth_error (y_mocks y) i) as [[m|]|] eqn:En; [| injection H as <- <-; fin; lia ..].
      generalize (held_set _ _ None En) as Hs. intros Hs.
      unfold mock_drop in H. destruct (poisoned (y_w y)), unwinding; injection H as <- <-; fin; lia.
    - destruct (nth_error (y_futs y) j) as [[f|]|] eqn:En; [| injection H as <- <-; fin; lia ..].
      unfold resp_poll in H. destruct f as [|k|]; [injection H as <- <-; fin; lia | | injection H as <- <-; fin; lia].
      destruct (nth_error (oneshots (set_current t (y_w y))) k) as [[[x|] [|] ?]|]; injection H as <- <-; fin; lia.
    - destruct (nth_error (y_futs y) j) as [[f|]|] eqn:En; [| injection H as <- <-; fin; lia ..].
      injection H as <- <-. fin. unfold resp_drop. destruct f as [|k|]; try (split; lia). destruct (nth_error (oneshots (y_w y)) k); fin; lia.
    - destruct (y_handle y); [| injection H as <- <-; fin; lia ..].
      unfold handle_allow in H. destruct (poisoned (y_w y)); [|destruct (0 <? n)%N]; injection H as <- <-; fin; lia.
    - destruct (y_handle y); [| injection H as <- <-; fin; lia ..].
      unfold handle_send_error in H. destruct (poisoned (y_w y)); injection H as <- <-; fin; lia.
    - destruct (y_handle y); [| injection H as <- <-; fin; lia ..].
      unfold handle_poll_request in H. destruct (queue (y_w y)) as [|[r j] q]; [destruct (senders (y_w y)) eqn:Es|]; injection H as <- <-; fin; lia.
    - destruct (nth_error (y_replies y) k) as [[j|]|]; injection H as <- <-; fin; try lia. unfold send_response. rewrite close_senders. lia.
    - destruct (nth_error (y_replies y) k) as [[j|]|]; injection H as <- <-; fin; try lia. unfold drop_send_response. rewrite close_senders. lia.
    - destruct (y_handle y); [| injection H as <- <-; fin; lia ..].
      unfold handle_drop in H. destruct (poisoned (y_w y)), unwinding; injection H as <- <-; fin; lia.
    - destruct (y_handle y); injection H as <- <-; fin; try lia. unfold drop_rx. rewrite fold_senders. cbn [senders set_queue]. lia.
  Qed.
  Lemma run_senders l : forall (y : msys), senders (y_w y) = held (y_mocks y) -> forall h1 e h2, mrun y l = h1 ++ e :: h2 ->
    exists y' o b y'', senders (y_w y') = held (y_mocks y') /\ mstep o y' = (y'', b) /\ fst e = (o, b) /\
      held (y_mocks y') + drops h1 = held (y_mocks y) + clones h1.
  Proof.
    induction l as [|o l IH]; intros y V h1 e h2 Hr; cbn [mrun] in Hr; [destruct h1; discriminate|].
    destruct (mstep o y) as [y1 b] eqn:Es. destruct h1 as [|e1 h1].
    - injection Hr as <- <-. exists y, o, b, y1. cbn [drops clones List.filter length fst]. auto.
    - injection Hr as <- Hr. destruct (step_senders _ _ (woke y y1) Es V) as (V1 & Hh).
      destruct (IH y1 V1 _ _ _ Hr) as (y' & o' & b' & y'' & A1 & A2 & A3 & A4).
      exists y', o', b', y''. repeat (split; [assumption|]). rewrite clones_cons, drops_cons. fold (woke y y1). lia.
  Qed.
  Lemma mock_none_left l (h1 : list mentry) a d h2 :
    mhistory l = h1 ++ (MRequest, MoRequest a, d) :: h2 ->
    (a = Ready None <-> accepted h1 = received h1 /\ mocks_left h1 = 0).
  Proof.
    intros Hh. generalize (@mock_delivers_all T U E l h1 a d h2 Hh) as Hd. intros Hd.
    destruct (run_senders l msys0 eq_refl _ _ _ Hh) as (y' & o & b & y'' & V & Es & Eo & Hc). cbn [fst] in Eo. injection Eo as <- <-.
    cbn [msys0 y_mocks held] in Hc. unfold mocks_left.
    assert (Hl : 1 + clones h1 - drops h1 = held (y_mocks y')) by lia. rewrite Hl, <- V. clear Hl Hc V.
    cbn [mstep] in Es. destruct (y_handle y'); try discriminate. unfold handle_poll_request in Es.
    destruct (queue (y_w y')) as [|[r j] q].
    - destruct (senders (y_w y')); injection Es as _ <-; [tauto|]. split; [discriminate|]. intros (_ & X). discriminate.
    - injection Es as _ <-. split; [discriminate|]. intros (X & _). destruct Hd as (q0 & Hd). rewrite X in Hd. exfalso. revert Hd. generalize (received h1). intros l0 Hd. apply (f_equal (@length _)) in Hd. rewrite app_length in Hd. cbn in Hd. lia.
  Qed.
End P.
