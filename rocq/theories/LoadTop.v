(** Load tracking with CompleteOnResponse. *)
From Verif Require Import Base Middleware Load LoadSpec LoadProof.
Set Implicit Arguments.

Section T.
  Context {W Req Resp Err C T Met : Type} (svc : Service W Req Resp Err).
  Context (start : M W T) (finish : T -> C -> W -> C * W) (rload : nat -> C -> W -> C * W * Met).
  Notation hist := (list (lop W Req * lobs Resp Err Met * W)).
  Notation rsys := (rsys (C := C) (T := T) svc).
  Notation rstep := (rsys_step (svc := svc) start finish complete_on_response rload).

  Definition good (h : hist) : Prop :=
    length (lives h) = called h /\
    forall j x, nth_error (lives h) j = Some x -> x = if ended h j then Over else InFuture.
  Lemma lives_snoc (h : hist) e : lives (h ++ [e]) = life_step (lives h) (fst e).
  Proof. unfold lives. rewrite fold_left_app. reflexivity. Qed.
  Definition ends (e : lop W Req * lobs Resp Err Met) (j : nat) : bool :=
    match e with
    | (LPoll i, LoPolled (Ready (Ok _))) => i =? j
    | (LDropFut i, LoDone) => i =? j
    | _ => false
    end.
  Lemma ended_snoc (h : hist) e j : ended (h ++ [e]) j = ended h j || ends (fst e) j.
  Proof. unfold ended. rewrite existsb_app. cbn. now rewrite orb_false_r. Qed.
  Definition calls1 (e : lop W Req * lobs Resp Err Met) : nat := match e with (LCall _, LoCalled) => 1 | _ => 0 end.
  Lemma called_snoc (h : hist) e : called (h ++ [e]) = called h + calls1 (fst e).
  Proof.
    unfold called. rewrite filter_app, app_length. f_equal. cbn. destruct e as [[[] []] w]; reflexivity.
  Qed.

  Definition nokept (z : rsys) : Prop := length (r_futs z) = length (r_reqs z) /\
    (forall j t, nth_error (r_reqs z) j <> Some (Kept t)).
  Lemma ended_late (h : hist) : good h -> (forall j, ended h j = true -> j < called h) ->
    length (List.filter (fun x => match x with Over => false | _ => true end) (lives h)) =
    length (List.filter (fun j => negb (ended h j)) (seq 0 (called h))).
  Proof.
    intros [G1 G2] _. rewrite <- G1. clear G1.
    assert (X : forall k L, (forall j x, nth_error L j = Some x -> x = if ended h (k + j) then Over else InFuture) ->
      length (List.filter (fun x => match x with Over => false | _ => true end) L) = length (List.filter (fun j => negb (ended h j)) (seq k (length L)))).
    { intros k L. revert k. induction L as [|x L IH]; intros k HL; [reflexivity|]. cbn.
      assert (Hx := HL 0 x eq_refl). rewrite Nat.add_0_r in Hx. subst x.
      assert (HI : length (List.filter (fun x => match x with Over => false | _ => true end) L) = length (List.filter (fun j => negb (ended h j)) (seq (S k) (length L)))).
      { apply IH. intros j x Hj. replace (S k + j) with (k + S j) by lia. exact (HL (S j) x Hj). }
      destruct (ended h k); cbn; rewrite HI; reflexivity. }
    apply (X 0). exact G2.
  Qed.

  Definition valid (h : hist) : Prop := forall j, ended h j = true -> j < called h.
  Lemma step_good o (z : rsys) (h : hist) : let '(z1, b) := rstep o z in
    b <> LoPanic -> b <> LoDiverge ->
    map (life_of (T := T)) (r_reqs z) = lives h -> nokept z -> good h -> valid h ->
    map (life_of (T := T)) (r_reqs z1) = lives (h ++ [(o, b, r_w z1)]) /\ nokept z1 /\
    good (h ++ [(o, b, r_w z1)]) /\ valid (h ++ [(o, b, r_w z1)]).
  Proof.
    assert (Hl := life_rstep start finish complete_on_response rload o z).
    destruct (rstep o z) as [z1 b] eqn:Es. intros Hb1 Hb2 HL [K1 K2] HG HV. specialize (Hl Hb1 Hb2).
    split; [rewrite lives_snoc, <- HL; exact Hl|].
    assert (Len : length (lives h) = length (r_reqs z)) by (rewrite <- HL; apply map_length).
    destruct HG as [G1 G2].
    assert (NoEnd : calls1 (o, b) = 0 -> (forall j, ends (o, b) j = false) -> life_step (lives h) (o, b) = lives h ->
       good (h ++ [(o, b, r_w z1)]) /\ valid (h ++ [(o, b, r_w z1)])).
    { intros A1 A2 A3. split.
      - split; [rewrite lives_snoc, called_snoc; cbn [fst]; rewrite A3, A1; lia|].
        intros j x. rewrite lives_snoc, ended_snoc. cbn [fst]. rewrite A2, A3, orb_false_r. apply G2.
      - intros j. rewrite ended_snoc, called_snoc. cbn [fst]. rewrite A2, orb_false_r. intros H. apply HV in H. lia. }
    assert (EndJ : forall i, i < length (r_reqs z) -> calls1 (o, b) = 0 -> (forall j, ends (o, b) j = (i =? j)) ->
       life_step (lives h) (o, b) = set_nth i Over (lives h) ->
       good (h ++ [(o, b, r_w z1)]) /\ valid (h ++ [(o, b, r_w z1)])).
    { intros i Hi A1 A2 A3. split.
      - split; [rewrite lives_snoc, called_snoc; cbn [fst]; rewrite A3, A1, sn_len; lia|].
        intros j x. rewrite lives_snoc, ended_snoc. cbn [fst]. rewrite A2, A3, sn_nth. destruct (i =? j) eqn:Ej.
        + destruct (nth_error (lives h) j); [|discriminate]. intros E. injection E as <-. now rewrite orb_true_r.
        + rewrite orb_false_r. apply G2.
      - intros j. rewrite ended_snoc, called_snoc. cbn [fst]. rewrite A2, A1. intros H. apply orb_prop in H. destruct H as [H|H].
        + apply HV in H. lia.
        + apply Nat.eqb_eq in H. subst. lia. }
    destruct z as [s rf rq c w]. cbn [r_svc r_futs r_reqs r_est r_w] in *.
    assert (NK : forall rf1 rq1 s1 c1 w1, length rf1 = length rf -> rq1 = rq -> nokept (@RSys _ _ _ _ _ _ svc s1 rf1 rq1 c1 w1)).
    { intros; subst; split; cbn; [congruence|assumption]. }
    destruct o as [|r|i|i|i| | |g]; cbn [rsys_step r_svc r_futs r_reqs r_est r_w] in Es.
    - assert (r_reqs z1 = rq /\ nokept z1) as [E1 E2].
      { destruct s as [s|]; [destruct (poll_ready svc s w) as [w1 [[s1 a]| |]]|]; injection Es as <- <-; split; auto. }
      split; [assumption|]. apply NoEnd; auto; destruct b; reflexivity.
    - destruct s as [s|]; [|injection Es as <- <-; split; [auto|apply NoEnd; auto]].
      destruct (start w) as [w1 [t| |]]; [|injection Es as <- <-; congruence|injection Es as <- <-; congruence].
      destruct (call svc s r w1) as [w2 [[s1 f]| |]]; [| |injection Es as <- <-; congruence].
      2:{ destruct (finish t c w2). injection Es as <- <-. congruence. }
      injection Es as <- <-. cbn [r_w]. split.
      { split; cbn; [rewrite !app_length; cbn; congruence|]. intros j t'. rewrite nth_snoc. destruct (j =? length rq); [discriminate|apply K2]. }
      assert (Hlate : forall j, called h <= j -> ended h j = false).
      { intros j Hj. destruct (ended h j) eqn:Ee; auto. apply HV in Ee. lia. }
      split.
      + split; [rewrite lives_snoc, called_snoc; cbn; rewrite app_length; cbn; lia|].
        intros j x. rewrite lives_snoc, ended_snoc. cbn. rewrite orb_false_r, nth_snoc.
        destruct (Nat.eqb_spec j (length (lives h))) as [->|N]; [|apply G2]. intros E. injection E as <-.
        rewrite Hlate; [reflexivity|lia].
      + intros j. rewrite ended_snoc, called_snoc. cbn. rewrite orb_false_r. intros H. apply HV in H. lia.
    - destruct (nth_error rf i) as [[f|]|] eqn:Ef; try (injection Es as <- <-; split; [auto|apply NoEnd; auto]).
      assert (Hi : i < length rq) by (rewrite <- K1; apply nth_error_Some; congruence).
      destruct (poll_fut svc f w) as [w1 [[f1 a]| |]]; [|injection Es as <- <-; congruence|injection Es as <- <-; congruence].
      destruct a as [|[v|e]].
      + injection Es as <- <-. split; [apply NK; [apply sn_len|reflexivity]|apply NoEnd; auto].
      + destruct (nth_error rq i) as [[t|t|]|] eqn:Eq; try (injection Es as <- <-; congruence).
        cbn in Es. destruct (finish t c w1) as [c3 w3]. injection Es as <- <-. cbn [r_w] in *. split.
        { split; cbn; [now rewrite !sn_len|]. intros j t'. rewrite sn_nth. destruct (i =? j); [|apply K2]. destruct (nth_error rq j); discriminate. }
        apply (EndJ i); auto.
      + injection Es as <- <-. split; [apply NK; [apply sn_len|reflexivity]|apply NoEnd; auto].
    - destruct (nth_error rf i) as [[f|]|] eqn:Ef; try (injection Es as <- <-; split; [auto|apply NoEnd; auto]).
      assert (Hi : i < length rq) by (rewrite <- K1; apply nth_error_Some; congruence).
      destruct (nth_error rq i) as [[t|t|]|] eqn:Eq.
      + destruct (finish t c (drop_fut svc f w)) as [c2 w2]. injection Es as <- <-. cbn [r_w] in *. split.
        { split; cbn; [now rewrite !sn_len|]. intros j t'. rewrite sn_nth. destruct (i =? j); [|apply K2]. destruct (nth_error rq j); discriminate. }
        apply (EndJ i); auto. cbn. rewrite <- HL, nth_error_map, Eq. reflexivity.
      + destruct (K2 _ _ Eq).
      + injection Es as <- <-. split; [apply NK; [apply sn_len|reflexivity]|]. apply (EndJ i); auto. cbn. rewrite <- HL, nth_error_map, Eq. cbn.
        symmetry. apply sn_same. rewrite nth_error_map, Eq. reflexivity.
      + apply nth_error_None in Eq. lia.
    - destruct (nth_error rq i) as [[t|t|]|] eqn:Eq; try (injection Es as <- <-; split; [auto|apply NoEnd; auto]). destruct (K2 _ _ Eq).
    - assert (r_reqs z1 = rq /\ nokept z1) as [E1 E2].
      { destruct s as [s|]; [destruct (rload _ c w) as [[c1 w1] m]|]; injection Es as <- <-; split; auto. }
      split; [assumption|]. apply NoEnd; auto; destruct b; reflexivity.
    - assert (r_reqs z1 = rq /\ nokept z1) as [E1 E2].
      { destruct s as [s|]; injection Es as <- <-; split; auto. }
      split; [assumption|]. apply NoEnd; auto; destruct b; reflexivity.
    - injection Es as <- <-. split; [auto|]. apply NoEnd; auto.
  Qed.

  Lemma run_good l : forall (z : rsys) (h h1 : hist) e h2,
    map (life_of (T := T)) (r_reqs z) = lives h -> nokept z -> good h -> valid h ->
    rsys_run (svc := svc) start finish complete_on_response rload z l = h1 ++ e :: h2 -> good (h ++ h1) /\ valid (h ++ h1).
  Proof.
    induction l as [|o l IH]; intros z h h1 e h2 HL HK HG HV E; cbn [rsys_run] in E; [destruct h1; discriminate|].
    assert (Hs := step_good o z h). destruct (rstep o z) as [z1 b].
    destruct h1 as [|e1 h1]; [rewrite app_nil_r; auto|]. cbn in E. injection E as <- E.
    assert (Hb : b <> LoPanic /\ b <> LoDiverge) by (destruct b; split; try discriminate; destruct h1; discriminate).
    assert (E' : rsys_run (svc := svc) start finish complete_on_response rload z1 l = h1 ++ e :: h2)
      by (destruct b; try exact E; destruct h1; discriminate).
    destruct Hb as [Hb1 Hb2]. destruct (Hs Hb1 Hb2 HL HK HG HV) as (A1 & A2 & A3 & A4).
    replace (h ++ (o, b, r_w z1) :: h1) with ((h ++ [(o, b, r_w z1)]) ++ h1) by (rewrite <- app_assoc; reflexivity).
    eapply IH; eauto.
  Qed.

  Lemma unfinished_unanswered s c w l h1 e h2 :
    rsys_run (svc := svc) start finish complete_on_response rload (rsys0 svc s c w) l = h1 ++ e :: h2 ->
    unfinished h1 = unanswered h1.
  Proof.
    intros H. destruct (@run_good l (rsys0 svc s c w) [] h1 e h2) as [G V]; auto.
    - split; [reflexivity|]. intros j t. destruct j; discriminate.
    - split; [reflexivity|]. intros j x. destruct j; discriminate.
    - intros j H0. discriminate.
    - cbn [app] in *. unfold unfinished, unanswered. apply ended_late; auto.
  Qed.
End T.

Lemma pr_load_unanswered {W Req Resp Err : Type} (svc : Service W Req Resp Err) s w l h1 m w1 h2 :
  lsys_run pr_load (lsys0 svc pr_start pr_finish complete_on_response s (arc_new tt, w)) l = h1 ++ (LLoad, LoLoad m, w1) :: h2 ->
  m = unanswered h1.
Proof.
  intros H. rewrite (@pr_load_counts _ _ _ _ svc complete_on_response s w l h1 m w1 h2 H).
  rewrite (@load_refines _ _ _ _ _ _ _ svc pr_start pr_finish complete_on_response pr_load (fun n c w => (c, w, n)) (fun _ _ _ => eq_refl)) in H.
  eapply unfinished_unanswered. exact H.
Qed.
