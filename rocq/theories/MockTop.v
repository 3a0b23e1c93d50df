(** tower-test's Mock: the theorems. *)
From Verif Require Import Base Middleware LoadProof Mock MockSpec MockProof MockStep.
Set Implicit Arguments.

Section P.
  Context {T U E : Type}.
  Notation merr := (@merr E).
  Notation mop := (mop T U E).
  Notation mobs := (mobs T U E).
  Notation mworld := (@mworld T U E).
  Notation msys := (@msys T U E).
  Notation mentry := (@mentry T U E).
  Notation sum := (@sum T U E).
  Notation accepted1 := (@accepted1 T U E).

  Ltac simp := cbn [y_mocks y_futs y_replies y_handle y_w y_set shared poisoned queue rx_live senders oneshots current woken
    set_state set_poisoned set_queue set_senders set_oneshots set_current wake wake_tasks rem tasks is_closed next_clone_id err_with fst snd id can_send
    os_val os_tx os_waker s_closed s_acc s_rec s_rem s_err s_perm s_reply s_rdrop s_rx s_ans s_mis upd] in *.

  Definition woke (y y1 : msys) : list nat := skipn (length (woken (y_w y))) (woken (y_w y1)).
  Definition clone1 (e : mentry) : nat := match fst e with (MClone _, MoDone) => 1 | _ => 0 end.
  Lemma clones_cons (e : mentry) h : clones (e :: h) = clone1 e + clones h.
  Proof. destruct e as [[o b] d]. destruct o, b; reflexivity. Qed.
  Lemma mocks_step o (y y1 : msys) b d : mstep o y = (y1, b) -> length (y_mocks y1) = length (y_mocks y) + clone1 (o, b, d).
  Proof.
    intros H. destruct o; cbn [mstep] in H;
    repeat match type of H with
    | match nth_error ?l ?i with _ => _ end = _ => destruct (nth_error l i) as [[?|]|]
    | match y_handle ?y with _ => _ end = _ => destruct (y_handle y)
    | match ?f ?w with (_, _) => _ end = _ => destruct (f w) as [? v] eqn:?; try destruct v as [[? ?]| |]
    end;
    try (injection H as <- <-; cbn [clone1 fst y_mocks y_set]; rewrite ?app_length, ?sn_len; cbn [length]; lia).
    all: try (match type of H with match ?v with _ => _ end = _ => destruct v as [[|[[? ?]|]]| |] end; injection H as <- <-; cbn [clone1 fst y_mocks y_set]; lia).
    all: try (match type of H with match ?v with _ => _ end = _ => destruct v end; injection H as <- <-; cbn [clone1 fst y_mocks y_set]; rewrite ?app_length; cbn [length]; lia).
    all: try (injection H as <- <-; destruct v as [?| |]; cbn [clone1 fst y_mocks y_set]; rewrite ?sn_len; lia).
  Qed.
  Lemma run_at l : forall (y : msys) S (h : list mentry), inv S y -> agree h S -> forall h1 e h2, mrun y l = h1 ++ e :: h2 ->
    exists y' S' o b y'' l', inv S' y' /\ agree (h ++ h1) S' /\ mstep o y' = (y'', b) /\ e = (o, b, woke y' y'') /\ h2 = mrun y'' l' /\
      length (y_mocks y') = length (y_mocks y) + clones h1.
  Proof.
    induction l as [|o l IH]; intros y S h V A h1 e h2 Hr; cbn [mrun] in Hr; [destruct h1; discriminate|].
    destruct (mstep o y) as [y1 b] eqn:Es. destruct h1 as [|e1 h1].
    - injection Hr as <- <-. exists y, S, o, b, y1, l. rewrite app_nil_r. cbn [clones List.filter length]. rewrite Nat.add_0_r. auto 10.
    - injection Hr as <- Hr. apply (inv_step _ V) in Es as V1.
      destruct (IH y1 _ _ V1 (agree_upd o b (woke y y1) A) _ _ _ Hr) as (y' & S' & o' & b' & y'' & l' & A1 & A2 & A3 & A4 & A5 & A6).
      exists y', S', o', b', y'', l'. rewrite <- app_assoc in A2. repeat (split; [assumption|]).
      rewrite clones_cons. fold (woke y y1). rewrite A6, (mocks_step _ _ (woke y y1) Es). lia.
  Qed.
  Lemma hist_at l (h1 : list mentry) e h2 : mhistory l = h1 ++ e :: h2 ->
    exists y' S' o b y'' l', inv S' y' /\ agree h1 S' /\ mstep o y' = (y'', b) /\ e = (o, b, woke y' y'') /\ h2 = mrun y'' l' /\
      length (y_mocks y') = 1 + clones h1.
  Proof. exact (run_at l inv0 agree0 h1 e h2). Qed.
  (** ... and at the end of a prefix. *)
  Lemma run_end l : forall (y : msys) S (h : list mentry), inv S y -> agree h S -> forall h1 h2, mrun y l = h1 ++ h2 ->
    exists y' S' l', inv S' y' /\ agree (h ++ h1) S' /\ h2 = mrun y' l'.
  Proof.
    induction l as [|o l IH]; intros y S h V A h1 h2 Hr; cbn [mrun] in Hr.
    { destruct h1; [|discriminate]. cbn in Hr. subst h2. exists y, S, []. rewrite app_nil_r. auto. }
    destruct (mstep o y) as [y1 b] eqn:Es. destruct h1 as [|e1 h1].
    - cbn in Hr. exists y, S, (o :: l). rewrite app_nil_r. split; [exact V|]. split; [exact A|]. cbn [mrun]. rewrite Es. auto.
    - injection Hr as <- Hr. apply (inv_step _ V) in Es as V1.
      destruct (IH y1 _ _ V1 (agree_upd o b (woke y y1) A) _ _ Hr) as (y' & S' & l' & A1 & A2 & A3).
      exists y', S', l'. rewrite <- app_assoc in A2. auto.
  Qed.
  Lemma hist_end l (h1 h2 : list mentry) : mhistory l = h1 ++ h2 ->
    exists y' S' l', inv S' y' /\ agree h1 S' /\ h2 = mrun y' l'.
  Proof. exact (run_end l inv0 agree0 h1 h2). Qed.

  (** ** Readiness *)
  Lemma mock_ready l (h1 : list mentry) i t a d h2 : mhistory l = h1 ++ (MReady i t, MoReady a, d) :: h2 -> a = ready_answer h1 i.
  Proof.
    intros H. destruct (@hist_at l h1 _ _ H) as (y & S & o & b & y1 & l' & V & A & Hs & He & _). injection He as <- <- _.
    unfold ready_answer. rewrite (g_closed A), (g_err A), (g_perm A), (g_rem A). cbn [mstep] in Hs.
    destruct (nth_error (y_mocks y) i) as [[m|]|] eqn:Em; try discriminate. unfold mock_poll_ready in Hs. simp.
    destruct (poisoned (y_w y)); [discriminate|]. rewrite (v_closed V) in Hs. destruct (s_closed S) eqn:Ec; [now injection Hs as _ <-|].
    rewrite (v_err V) in Hs. destruct (s_err S) as [e|]; [now injection Hs as _ <-|].
    rewrite (v_can V i Ec Em) in Hs. rewrite (v_rem V Ec) in Hs. destruct (s_perm S i); [now injection Hs as _ <-|]. cbn [orb].
    destruct (0 <? s_rem S)%N; [|now injection Hs as _ <-]. destruct (has_key (id m) (tasks (shared (y_w y)))); [discriminate|now injection Hs as _ <-].
  Qed.
  (** ** Calls and panics *)
  Lemma mock_call_ok l (h1 : list mentry) i r d h2 : mhistory l = h1 ++ (MCall i r, MoCalled, d) :: h2 -> closed h1 = true \/ permitted h1 i = true.
  Proof.
    intros H. destruct (@hist_at l h1 _ _ H) as (y & S & o & b & y1 & l' & V & A & Hs & He & _). injection He as <- <- _.
    rewrite (g_closed A), (g_perm A). cbn [mstep] in Hs.
    destruct (nth_error (y_mocks y) i) as [[m|]|] eqn:Em; try discriminate. unfold mock_call in Hs. simp.
    destruct (poisoned (y_w y)); [discriminate|]. rewrite (v_closed V) in Hs. destruct (s_closed S) eqn:Ec; [auto|].
    rewrite (v_can V i Ec Em) in Hs. destruct (s_perm S i); [auto|discriminate].
  Qed.
  Lemma mock_panics l (h1 : list mentry) o d h2 : mhistory l = h1 ++ (o, MoPanic, d) :: h2 ->
    misuse (h1 ++ [(o, MoPanic, d)]) \/ exists j t, o = MPoll j t /\ answered h1 j = true.
  Proof.
    intros H. destruct (@hist_at l h1 _ _ H) as (y & S & o' & b & y1 & l' & V & A & Hs & He & _). injection He as <- <- Hd.
    assert (P : poisoned (y_w y) = true -> misuse (h1 ++ [(o, MoPanic, d)])).
    { intros X. apply misuse_app. apply (g_mis A). apply (v_poison V). exact X. }
    destruct o; cbn [mstep] in Hs.
    - left. destruct (nth_error (y_mocks y) i) as [[m|]|] eqn:Em; try discriminate. unfold mock_poll_ready in Hs. simp.
      destruct (poisoned (y_w y)); [apply P; reflexivity|]. destruct (is_closed (shared (y_w y))); [discriminate|].
      destruct (err_with (shared (y_w y))); [discriminate|]. destruct (can_send m); [discriminate|].
      destruct (0 <? rem (shared (y_w y)))%N eqn:Er; [|discriminate]. destruct (has_key (id m) (tasks (shared (y_w y)))) eqn:Ek; [|discriminate].
      exfalso. apply has_key_in in Ek. destruct Ek as [x Ek]. destruct (v_tasks V) as (R & _); [intros Z; rewrite Z in Ek; destruct Ek|].
      rewrite R in Er. discriminate.
    - left. destruct (nth_error (y_mocks y) i) as [[m|]|] eqn:Em; try discriminate. unfold mock_call in Hs. simp.
      destruct (poisoned (y_w y)); [apply P; reflexivity|]. rewrite (v_closed V) in Hs. destruct (s_closed S) eqn:Ec; [discriminate|].
      rewrite (v_can V i Ec Em) in Hs. destruct (s_perm S i) eqn:Epm.
      + cbn in Hs. destruct (rx_live (y_w y)); discriminate.
      + exists h1, i, r, d, []. rewrite (g_closed A), (g_perm A). auto.
    - left. destruct (nth_error (y_mocks y) i) as [[m|]|] eqn:Em; try discriminate. unfold mock_clone in Hs.
      destruct (poisoned (y_w y)); [apply P; reflexivity|discriminate].
    - left. destruct (nth_error (y_mocks y) i) as [[m|]|] eqn:Em; try discriminate. unfold mock_drop in Hs.
      destruct (poisoned (y_w y)); [apply P; reflexivity|discriminate].
    - right. exists j, t. split; [reflexivity|]. destruct (nth_error (y_futs y) j) as [[f|]|] eqn:Ef; try discriminate.
      rewrite (g_ans A). assert (F := v_futs V _ Ef). unfold resp_poll in Hs. destruct f as [|j'|]; [discriminate| |exact F].
      destruct (nth_error _ j') as [[[x|] [|] wk]|]; discriminate.
    - destruct (nth_error (y_futs y) j) as [[f|]|] eqn:Ef; discriminate.
    - left. destruct (y_handle y); try discriminate. unfold handle_allow in Hs. destruct (poisoned (y_w y)); [apply P; reflexivity|discriminate].
    - left. destruct (y_handle y); try discriminate. unfold handle_send_error in Hs. destruct (poisoned (y_w y)); [apply P; reflexivity|discriminate].
    - destruct (y_handle y); try discriminate. unfold handle_poll_request in Hs. destruct (queue (y_w y)) as [|[q j] l0]; [destruct (senders (y_w y)); discriminate|discriminate].
    - destruct (nth_error (y_replies y) k) as [[j|]|]; discriminate.
    - destruct (nth_error (y_replies y) k) as [[j|]|]; discriminate.
    - left. destruct (y_handle y); try discriminate. unfold handle_drop in Hs. destruct (poisoned (y_w y)); [apply P; reflexivity|discriminate].
    - destruct (y_handle y); discriminate.
  Qed.

  (** ** Requests and responses *)
  Lemma mock_delivers l (h1 h2 : list mentry) : mhistory l = h1 ++ h2 -> exists q, accepted h1 = received h1 ++ q.
  Proof.
    intros H. destruct (@hist_end l h1 _ H) as (y & S & l' & V & A & _). rewrite (g_acc A), (g_rec A). apply (v_prefix V).
  Qed.
  Lemma mock_delivers_all l (h1 : list mentry) a d h2 : mhistory l = h1 ++ (MRequest, MoRequest a, d) :: h2 ->
    match a with Ready (Some r) => exists q, accepted h1 = received h1 ++ r :: q | _ => accepted h1 = received h1 end.
  Proof.
    intros H. destruct (@hist_at l h1 _ _ H) as (y & S & o & b & y1 & l' & V & A & Hs & He & _). injection He as <- <- _.
    rewrite (g_acc A), (g_rec A). cbn [mstep] in Hs. destruct (y_handle y) eqn:Eh; try discriminate.
    assert (Hrx : s_rx S = false). { destruct (s_rx S) eqn:X; [|reflexivity]. apply (v_gone V) in X. congruence. }
    destruct (v_queue V Hrx) as [Q1 _]. unfold handle_poll_request in Hs. destruct (queue (y_w y)) as [|[q j] l0].
    - cbn in Q1. rewrite app_nil_r in Q1. destruct (senders (y_w y)); injection Hs as _ <-; exact Q1.
    - injection Hs as _ <-. rewrite Q1. cbn. eauto.
  Qed.
  Lemma mock_response l (h1 : list mentry) j t a d h2 : mhistory l = h1 ++ (MPoll j t, MoPolled a, d) :: h2 -> a = response h1 j.
  Proof.
    intros H. destruct (@hist_at l h1 _ _ H) as (y & S & o & b & y1 & l' & V & A & Hs & He & _). injection He as <- <- _.
    unfold response. rewrite (g_acc A), (g_reply A), (g_rdrop A), (g_rx A), (g_rec A). cbn [mstep] in Hs.
    destruct (nth_error (y_futs y) j) as [[f|]|] eqn:Ef; try discriminate. assert (F := v_futs V _ Ef). unfold resp_poll in Hs.
    destruct f as [|j'|]; cbn in F; simp.
    - injection Hs as _ <-. replace (j <? length (s_acc S)) with false by (symmetry; apply Nat.ltb_ge; exact F). reflexivity.
    - destruct F as (-> & Hj & _). replace (j <? length (s_acc S)) with true by (symmetry; apply Nat.ltb_lt; exact Hj).
      destruct (nth_error (oneshots (y_w y)) j) as [o|] eqn:Eo.
      2:{ apply nth_error_None in Eo. rewrite (v_shots V) in Eo. lia. }
      destruct (v_shot V _ Eo) as [S1 S2]. unfold over in S2. destruct o as [ov ot ow]. simp. rewrite <- S1 in *.
      destruct ov as [x|]; [now injection Hs as _ <-|]. destruct (s_rdrop S j || _); cbn in S2; subst ot; now injection Hs as _ <-.
    - discriminate.
  Qed.

  (** ** The number of requests admitted *)
  Definition can (m : option mock) : bool := match m with Some m => can_send m | None => false end.
  Definition permits (y : msys) : nat := length (List.filter can (y_mocks y)).
  Definition bound (y : msys) (c : nat) : N :=
    if (0 <? rem (shared (y_w y)))%N then (rem (shared (y_w y)) + N.of_nat (length (y_mocks y) + c) - 1)%N else N.of_nat (permits y).
  Lemma permits_le y : permits y <= length (y_mocks y).
  Proof. unfold permits. induction (y_mocks y) as [|x l IH]; cbn; [lia|]. destruct (can x); cbn; lia. Qed.

  Lemma bound_step o (y y1 : msys) b d c S : inv S y -> mstep o y = (y1, b) -> is_closed (shared (y_w y)) = false ->
    (forall n, o <> MAllow n) -> closes (o, b, d) = false ->
    is_closed (shared (y_w y1)) = false /\ (N.of_nat (length (accepted1 (o, b, d))) + bound y1 c <= bound y (c + clone1 (o, b, d)))%N.
  Proof.
    intros V Hs Hc Hn Hcl.
    assert (Same : forall w1 y2, y_mocks y2 = y_mocks y -> y_w y2 = w1 -> rem (shared w1) = rem (shared (y_w y)) -> bound y2 c = bound y c).
    { intros w1 y2 E1 E2 E3. unfold bound, permits. rewrite E1, E2, E3. reflexivity. }
    assert (Pos : forall i m, nth_error (y_mocks y) i = Some (Some m) -> 1 <= length (y_mocks y)).
    { intros i m X. apply lt_some in X. lia. }
    destruct o; cbn [mstep] in Hs.
    - destruct (nth_error (y_mocks y) i) as [[m|]|] eqn:Em; try (injection Hs as <- <-; cbn [accepted1 fst length clone1]; rewrite Nat.add_0_r; split; [now auto|lia]).
      assert (Sn : set_nth i (Some m) (y_mocks y) = y_mocks y) by (now apply sn_same).
      unfold mock_poll_ready in Hs. simp. rewrite Hc in Hs. destruct (poisoned (y_w y)).
      { injection Hs as <- <-. cbn [accepted1 fst length clone1]. rewrite Nat.add_0_r. erewrite Same; [split; [now auto|lia]|reflexivity|reflexivity|reflexivity]. }
      destruct (err_with (shared (y_w y))).
      { injection Hs as <- <-. cbn [accepted1 fst length clone1]. rewrite Nat.add_0_r. erewrite Same; [split; [now auto|lia]|exact Sn|reflexivity|reflexivity]. }
      destruct (can_send m) eqn:Ecs.
      { injection Hs as <- <-. cbn [accepted1 fst length clone1]. rewrite Nat.add_0_r. erewrite Same; [split; [now auto|lia]|exact Sn|reflexivity|reflexivity]. }
      destruct (0 <? rem (shared (y_w y)))%N eqn:Er.
      + destruct (has_key (id m) (tasks (shared (y_w y)))); injection Hs as <- <-; cbn [accepted1 fst length clone1]; rewrite Nat.add_0_r.
        * erewrite Same; [split; [now auto|lia]|reflexivity|reflexivity|reflexivity].
        * split; [now auto|]. unfold bound. simp. rewrite Er, sn_len. lia.
      + injection Hs as <- <-. cbn [accepted1 fst length clone1]. rewrite Nat.add_0_r. erewrite Same; [split; [now auto|lia]|exact Sn|reflexivity|reflexivity].
    - destruct (nth_error (y_mocks y) i) as [[m|]|] eqn:Em; try (injection Hs as <- <-; cbn [accepted1 fst length clone1]; rewrite Nat.add_0_r; split; [now auto|lia]).
      assert (Hp := Pos _ _ Em). unfold mock_call in Hs. simp. rewrite Hc in Hs. destruct (poisoned (y_w y)).
      { injection Hs as <- <-. cbn [accepted1 fst length clone1]. rewrite Nat.add_0_r. erewrite Same; [split; [now auto|lia]|reflexivity|reflexivity|reflexivity]. }
      destruct (can_send m) eqn:Ecs; cbn [negb] in Hs.
      2:{ injection Hs as <- <-. cbn [accepted1 fst length clone1]. rewrite Nat.add_0_r. erewrite Same; [split; [now auto|lia]|reflexivity|reflexivity|reflexivity]. }
      assert (Cnt := sn_count can (y_mocks y) i (Some (Mock (id m) false)) Em). cbn [can can_send] in Cnt. rewrite Ecs in Cnt.
      assert (Ple := permits_le y). unfold permits in Ple.
      assert (K : forall y2, y_mocks y2 = set_nth i (Some (Mock (id m) false)) (y_mocks y) ->
        rem (shared (y_w y2)) = (if (0 <? rem (shared (y_w y)))%N then N.pred (rem (shared (y_w y))) else rem (shared (y_w y))) ->
        (1 + bound y2 c <= bound y c)%N).
      { intros y2 E1 E2. unfold bound, permits. rewrite E1, E2, sn_len. destruct (N.ltb_spec 0 (rem (shared (y_w y)))) as [L|L].
        - destruct (N.ltb_spec 0 (N.pred (rem (shared (y_w y))))) as [L2|L2]; lia.
        - replace (0 <? rem (shared (y_w y)))%N with false by (symmetry; apply N.ltb_ge; lia). lia. }
      assert (Ha : accepted1 (MCall i r, MoCalled, d) = [r]) by reflexivity.
      destruct (rx_live (y_w y)); injection Hs as <- <-; cbn [clone1 fst]; rewrite Ha, Nat.add_0_r; cbn [length];
        (split; [now auto|]; apply K; reflexivity).
    - destruct (nth_error (y_mocks y) i) as [[m|]|] eqn:Em; try (injection Hs as <- <-; cbn [accepted1 fst length clone1]; rewrite Nat.add_0_r; split; [now auto|lia]).
      unfold mock_clone in Hs. destruct (poisoned (y_w y)); injection Hs as <- <-; cbn [accepted1 fst length clone1].
      + rewrite Nat.add_0_r. erewrite Same; [split; [now auto|lia]|reflexivity|reflexivity|reflexivity].
      + split; [now auto|]. unfold bound, permits. simp. rewrite filter_app, !app_length. cbn. destruct (0 <? rem (shared (y_w y)))%N; lia.
    - destruct (nth_error (y_mocks y) i) as [[m|]|] eqn:Em; try (injection Hs as <- <-; cbn [accepted1 fst length clone1]; rewrite Nat.add_0_r; split; [now auto|lia]).
      assert (Cnt := sn_count can (y_mocks y) i None Em). cbn [can] in Cnt.
      assert (K : forall y2, y_mocks y2 = set_nth i None (y_mocks y) -> rem (shared (y_w y2)) = rem (shared (y_w y)) -> (bound y2 c <= bound y c)%N).
      { intros y2 E1 E2. unfold bound, permits. rewrite E1, E2, sn_len. destruct (0 <? rem (shared (y_w y)))%N; [lia|]. destruct (can_send m); lia. }
      assert (Ha : accepted1 (MDrop i unwinding, b, d) = [] /\ clone1 (MDrop i unwinding, b, d) = 0) by (split; destruct b; reflexivity).
      destruct Ha as [-> ->]. rewrite Nat.add_0_r.
      unfold mock_drop in Hs. destruct (poisoned (y_w y)); injection Hs as <- <-; (split; [now auto|]; cbn [length]; apply K; reflexivity).
    - assert (Ha : accepted1 (MPoll j t, b, d) = [] /\ clone1 (MPoll j t, b, d) = 0) by (split; destruct b; reflexivity).
      destruct Ha as [-> ->]. rewrite Nat.add_0_r. cbn [length].
      destruct (nth_error (y_futs y) j) as [[f|]|]; try (injection Hs as <- <-; split; [now auto|lia]).
      unfold resp_poll in Hs. simp. destruct f as [|j'|]; [| |injection Hs as <- <-].
      + injection Hs as <- <-. erewrite Same; [split; [now auto|lia]|reflexivity|reflexivity|reflexivity].
      + destruct (nth_error (oneshots (y_w y)) j') as [[[x|] [|] wk]|]; injection Hs as <- <-; (erewrite Same; [split; [now auto|lia]|reflexivity|reflexivity|reflexivity]).
      + erewrite Same; [split; [now auto|lia]|reflexivity|reflexivity|reflexivity].
    - assert (Ha : accepted1 (MDropFut j, b, d) = [] /\ clone1 (MDropFut j, b, d) = 0) by (split; destruct b; reflexivity).
      destruct Ha as [-> ->]. rewrite Nat.add_0_r. cbn [length].
      destruct (nth_error (y_futs y) j) as [[f|]|]; try (injection Hs as <- <-; split; [now auto|lia]).
      injection Hs as <- <-. assert (X : shared (resp_drop f (y_w y)) = shared (y_w y)).
      { destruct f as [|j'|]; try reflexivity. cbn [resp_drop]. destruct (nth_error (oneshots (y_w y)) j'); reflexivity. }
      simp. rewrite X. erewrite Same; [split; [now auto|lia]|reflexivity|reflexivity|simp; now rewrite X].
    - destruct (Hn n eq_refl).
    - assert (Ha : accepted1 (MSendError e, b, d) = [] /\ clone1 (MSendError e, b, d) = 0) by (split; destruct b; reflexivity).
      destruct Ha as [-> ->]. rewrite Nat.add_0_r. cbn [length].
      destruct (y_handle y); try (injection Hs as <- <-; split; [now auto|lia]).
      unfold handle_send_error in Hs. destruct (poisoned (y_w y)); injection Hs as <- <-; (erewrite Same; [split; [now auto|lia]|reflexivity|reflexivity|reflexivity]).
    - assert (Ha : accepted1 (MRequest, b, d) = [] /\ clone1 (MRequest, b, d) = 0) by (split; destruct b; reflexivity).
      destruct Ha as [-> ->]. rewrite Nat.add_0_r. cbn [length].
      destruct (y_handle y); try (injection Hs as <- <-; split; [now auto|lia]).
      unfold handle_poll_request in Hs. destruct (queue (y_w y)) as [|[q j] l0]; [destruct (senders (y_w y))|]; injection Hs as <- <-;
        (erewrite Same; [split; [now auto|lia]|reflexivity|reflexivity|reflexivity]).
    - assert (Ha : accepted1 (MReply k x, b, d) = [] /\ clone1 (MReply k x, b, d) = 0) by (split; destruct b; reflexivity).
      destruct Ha as [-> ->]. rewrite Nat.add_0_r. cbn [length].
      destruct (nth_error (y_replies y) k) as [[j|]|]; try (injection Hs as <- <-; split; [now auto|lia]).
      injection Hs as <- <-. destruct (close_shot (Some x) j (y_w y)) as (C1 & _). unfold send_response. simp.
      rewrite C1. erewrite Same; [split; [now auto|lia]|reflexivity|reflexivity|simp; now rewrite C1].
    - assert (Ha : accepted1 (MDropReply k, b, d) = [] /\ clone1 (MDropReply k, b, d) = 0) by (split; destruct b; reflexivity).
      destruct Ha as [-> ->]. rewrite Nat.add_0_r. cbn [length].
      destruct (nth_error (y_replies y) k) as [[j|]|]; try (injection Hs as <- <-; split; [now auto|lia]).
      injection Hs as <- <-. destruct (close_shot None j (y_w y)) as (C1 & _). unfold drop_send_response. simp.
      rewrite C1. erewrite Same; [split; [now auto|lia]|reflexivity|reflexivity|simp; now rewrite C1].
    - assert (Ha : accepted1 (MDropHandle unwinding, b, d) = [] /\ clone1 (MDropHandle unwinding, b, d) = 0) by (split; destruct b; reflexivity).
      destruct Ha as [-> ->]. rewrite Nat.add_0_r. cbn [length].
      destruct (y_handle y); try (injection Hs as <- <-; split; [now auto|lia]).
      unfold handle_drop in Hs. destruct (poisoned (y_w y)).
      + destruct unwinding; injection Hs as <- <-; (erewrite Same; [split; [now auto|lia]|reflexivity|reflexivity|reflexivity]).
      + injection Hs as <- <-. discriminate.
    - assert (Ha : accepted1 (MDropRx, b, d) = [] /\ clone1 (MDropRx, b, d) = 0) by (split; destruct b; reflexivity).
      destruct Ha as [-> ->]. rewrite Nat.add_0_r. cbn [length].
      destruct (y_handle y); try (injection Hs as <- <-; split; [now auto|lia]).
      injection Hs as <- <-. assert (D := drop_queue (queue (y_w y)) (set_queue [] false (y_w y))). cbn zeta in D. fold (drop_rx (y_w y)) in D.
      destruct D as (D1 & _). simp. rewrite D1. erewrite Same; [split; [now auto|lia]|reflexivity|reflexivity|simp; now rewrite D1].
  Qed.

  Lemma accepted_cons (e : mentry) h : accepted (e :: h) = if closes e then [] else accepted1 e ++ accepted h.
  Proof. destruct e as [[o b] d]. destruct o, b; reflexivity. Qed.
  Lemma bound_run l : forall (y : msys) S h2 h3, inv S y -> is_closed (shared (y_w y)) = false -> mrun y l = h2 ++ h3 -> no_allow h2 ->
    (N.of_nat (length (accepted h2)) <= bound y (clones h2))%N.
  Proof.
    induction l as [|o l IH]; intros y S h2 h3 V Hc Hr Hn; cbn [mrun] in Hr.
    { destruct h2; [|discriminate]. cbn [accepted length]. lia. }
    destruct (mstep o y) as [y1 b] eqn:Es. destruct h2 as [|e h2]; [cbn [accepted length]; lia|]. injection Hr as <- Hr.
    rewrite accepted_cons, clones_cons. destruct (closes _) eqn:Ecl; [cbn [length]; lia|].
    assert (Hno : forall n, o <> MAllow n) by (intros n ->; apply (Hn n b (woke y y1)); left; reflexivity).
    destruct (bound_step (woke y y1) (clones h2) V Es Hc Hno Ecl) as [Hc1 Hb].
    assert (Hn1 : no_allow h2) by (intros n b' d' X; apply (Hn n b' d'); right; exact X).
    specialize (IH y1 _ h2 h3 (inv_step _ V Es) Hc1 Hr Hn1). rewrite app_length. rewrite (Nat.add_comm (clone1 _)). fold (woke y y1). lia.
  Qed.
  Lemma clones_app (h1 h2 : list mentry) : clones (h1 ++ h2) = clones h1 + clones h2.
  Proof. unfold clones. rewrite filter_app, app_length. reflexivity. Qed.
  Lemma mock_admits l (h1 : list mentry) n d h2 h3 : mhistory l = h1 ++ (MAllow n, MoDone, d) :: h2 ++ h3 -> no_allow h2 ->
    (N.of_nat (length (accepted h2)) <= n + N.of_nat (clones (h1 ++ h2)) + (if (n =? 0)%N then 1 else 0))%N.
  Proof.
    intros H Hn. destruct (@hist_at l h1 _ _ H) as (y & S & o & b & y1 & l' & V & A & Hs & He & Hr & Hm). injection He as <- <- _.
    assert (V1 := inv_step _ V Hs). cbn [mstep] in Hs. destruct (y_handle y) eqn:Eh; try discriminate. assert (Ho := v_open V Eh).
    unfold handle_allow in Hs. destruct (poisoned (y_w y)); [discriminate|]. injection Hs as Hs. rewrite clones_app.
    assert (X : y_mocks y1 = y_mocks y /\ rem (shared (y_w y1)) = n /\ is_closed (shared (y_w y1)) = false).
    { subst y1. rewrite <- Ho, <- (v_closed V). destruct (0 <? n)%N; auto. }
    destruct X as (X1 & X2 & X3). assert (B := @bound_run _ _ _ _ _ V1 X3 (eq_sym Hr) Hn). unfold bound in B. rewrite X1, X2 in B.
    assert (P := permits_le y1). rewrite X1 in P. destruct (N.eqb_spec n 0) as [->|].
    - cbn [N.ltb N.compare] in B. lia.
    - replace (0 <? n)%N with true in B by (symmetry; apply N.ltb_lt; lia). lia.
  Qed.
  Lemma mock_admits_single l (h1 : list mentry) n d h2 h3 : mhistory l = h1 ++ (MAllow n, MoDone, d) :: h2 ++ h3 -> no_allow h2 -> (0 < n)%N ->
    clones (h1 ++ h2) = 0 -> (N.of_nat (length (accepted h2)) <= n)%N.
  Proof.
    intros H Hn Hp Hc. assert (X := @mock_admits l h1 n d h2 h3 H Hn). rewrite Hc in X. destruct (N.eqb_spec n 0); lia.
  Qed.
End P.
