(** Proof of C67. *)
From Coq Require Import Permutation.
From Verif Require Import Base Middleware Limits ConcSpec ConcProof UnwindSpec.
Set Implicit Arguments. Unset Strict Implicit.

Section UnwindProof.
  Context {W Req Resp Err : Type} (svc : Service W Req Resp Err) (max : nat).
  Notation rel := (rel (svc := svc) max).
  Notation cl := (conc_limit svc (fun _ => false) true).

  Lemma rel_world insts futs m w pin line pf pw w1 :
    rel (Sys (svc := svc) insts futs (m, w)) (Spec (svc := svc) pin line pf pw) -> rel (Sys (svc := svc) insts futs (m, w1)) (Spec (svc := svc) pin line pf w1).
  Proof. intros (H1 & H2 & H3 & H4). cbn in *. split; [exact H1 |]. split; [exact H2 |]. split; [reflexivity | exact H4]. Qed.

  Lemma rel_at y sp i c : rel y sp -> @nth_error (option (conc_st svc)) (y_insts y) i = Some (Some c) ->
    nth_error (p_insts sp) i = Some (Some (cl_inner c, cl_permit c)).
  Proof. intros HR E. rewrite (nth_view i HR). change (st cl) with (conc_st svc). rewrite E. reflexivity. Qed.

  Lemma drop_rel insts futs m w pin line c i w1 :
    rel (Sys (svc := svc) insts futs (m, w)) (Spec (svc := svc) pin line futs w) -> @nth_error (option (conc_st svc)) insts i = Some (Some c) ->
    rel (Sys (svc := svc) (set_nth i None insts) futs (clone_unwound c m, w1)) (Spec (svc := svc) (set_nth i None pin) (leave i line) futs w1).
  Proof.
    intros HR E. generalize (step_sim (CDropSvc i) HR). cbn [sys_step spec_step y_insts p_insts].
    change (st cl) with (conc_st svc). rewrite E.
    generalize (rel_at HR E). cbn [p_insts]. intros ->. cbn [y_futs y_w p_futs p_line p_w]. intros (_ & _ & [K|K]); [discriminate |].
    cbn [drop_svc conc_limit fst snd] in K. eapply rel_world. exact K.
  Qed.
  Lemma drop_fut_rel insts futs m w pin line j f w1 :
    rel (Sys (svc := svc) insts futs (m, w)) (Spec (svc := svc) pin line futs w) -> @nth_error (option (fut svc)) futs j = Some (Some f) ->
    rel (Sys (svc := svc) insts (set_nth j None futs) (poll_unwound m, w1)) (Spec (svc := svc) pin line (set_nth j None futs) w1).
  Proof.
    intros HR E. generalize (step_sim (CDropFut j) HR). cbn [sys_step spec_step y_futs p_futs].
    change (fut cl) with (fut svc). rewrite E. cbn [y_insts y_w p_insts p_line p_w]. intros (_ & _ & [K|K]); [discriminate |].
    cbn [drop_fut conc_limit fst snd] in K. eapply rel_world. exact K.
  Qed.

  Lemma no_wait insts futs m w pin line pf pw i c : rel (Sys (svc := svc) insts futs (m, w)) (Spec (svc := svc) pin line pf pw) ->
    @nth_error (option (conc_st svc)) insts i = Some (Some c) -> cl_permit c = true -> cl_wait c = None.
  Proof.
    intros (_ & _ & _ & gl & (_ & _ & H3 & _) & _) E Hp. cbn in H3. destruct (cl_wait c) as [t|] eqn:Et; [| reflexivity].
    generalize (H3 _ _ _ E Et). congruence.
  Qed.
  Lemma call_same insts futs m w pin line pf pw i c : rel (Sys (svc := svc) insts futs (m, w)) (Spec (svc := svc) pin line pf pw) ->
    @nth_error (option (conc_st svc)) insts i = Some (Some c) -> call_unwound c m = clone_unwound c m.
  Proof.
    intros HR E. unfold call_unwound, clone_unwound. destruct (cl_permit c) eqn:Hp; [| reflexivity].
    rewrite (no_wait HR E Hp). reflexivity.
  Qed.
  Lemma ready_same insts futs m w pin line pf pw i c : rel (Sys (svc := svc) insts futs (m, w)) (Spec (svc := svc) pin line pf pw) ->
    @nth_error (option (conc_st svc)) insts i = Some (Some c) ->
    (cl_permit c = false -> snd (sem_poll (cl_wait c) m) = true) -> ready_unwound c m = clone_unwound c m.
  Proof.
    intros HR E Hg. unfold ready_unwound, clone_unwound. destruct (cl_permit c) eqn:Hp; [reflexivity |]. specialize (Hg eq_refl).
    destruct (cl_wait c) as [t|]; cbn [sem_poll sem_forget] in *.
    - destruct (mem_nat t (sem_granted m)); [reflexivity | discriminate].
    - destruct (sem_avail m) as [|a] eqn:Ea; [discriminate |]. cbn [sem_forget].
      destruct HR as (_ & _ & _ & gl & (_ & _ & _ & _ & _ & _ & _ & [H|H]) & _); cbn in H; [congruence |].
      unfold sem_release. cbn. rewrite H. destruct m as [av q g n]. cbn in *. subst. reflexivity.
  Qed.

  Lemma crash_sim o y sp : rel y sp ->
    let '(y1, b) := crash_step o y in let '(sp1, b') := crash_spec_step max o sp in
    b = b' /\ snd (y_w y1) = p_w sp1 /\ (b = CoDiverge \/ rel y1 sp1).
  Proof.
    intros HR. generalize (step_sim o HR). unfold crash_step, crash_spec_step.
    destruct (sys_step o y) as [y1 b] eqn:Ey. destruct (spec_step max o sp) as [sp1 b'] eqn:Es. intros (<- & Hw & Hr).
    destruct b; try (destruct Hr as [Hr|Hr]; [discriminate Hr |]; auto; fail); [| auto].
    clear Hr. pose proof HR as (E1 & E2 & E3 & _).
    destruct y as [insts futs [m w]], sp as [pin line pf pw]. cbn [p_futs p_w y_futs y_w snd fst] in E2, E3. subst pf pw.
    cbn [y_insts y_futs y_w p_insts p_futs p_line fst snd].
    destruct o as [i|i r|i|s0|i|j|j|g]; cbn [sys_step y_insts y_futs y_w] in Ey.
    - change (st cl) with (conc_st svc) in *.
      destruct (@nth_error (option (conc_st svc)) insts i) as [[c|]|] eqn:Hi; try discriminate Ey.
      split; [reflexivity |]. split; [exact Hw |]. right. rewrite <- Hw. cbn [snd y_w].
      rewrite (ready_same HR Hi); [eapply drop_rel; eassumption |].
      intros Hp. cbn [poll_ready conc_limit] in Ey. rewrite Hp in Ey. unfold bind, get, modify, ret in Ey. cbn [fst snd] in Ey.
      destruct (sem_poll (cl_wait c) m) as [[m1 w1] [|]]; [reflexivity |]. cbn in Ey. discriminate.
    - change (st cl) with (conc_st svc) in *.
      destruct (@nth_error (option (conc_st svc)) insts i) as [[c|]|] eqn:Hi; try discriminate Ey.
      split; [reflexivity |]. split; [exact Hw |]. right. rewrite <- Hw. cbn [snd y_w].
      rewrite (call_same HR Hi). eapply drop_rel; eassumption.
    - change (st cl) with (conc_st svc) in *.
      destruct (@nth_error (option (conc_st svc)) insts i) as [[c|]|] eqn:Hi; try discriminate Ey.
      split; [reflexivity |]. split; [exact Hw |]. right. rewrite <- Hw. cbn [snd y_w]. eapply drop_rel; eassumption.
    - discriminate Ey.
    - destruct (nth_error insts i) as [[c|]|]; discriminate Ey.
    - change (fut cl) with (fut svc) in *.
      destruct (@nth_error (option (fut svc)) futs j) as [[f|]|] eqn:Hj; try discriminate Ey.
      split; [reflexivity |]. split; [exact Hw |]. right. rewrite <- Hw. cbn [snd y_w]. eapply drop_fut_rel; eassumption.
    - destruct (nth_error futs j) as [[f|]|]; discriminate Ey.
    - discriminate Ey.
  Qed.

  Lemma crash_run_sim l : forall y sp, rel y sp -> fst (crash_run y l) = fst (crash_spec_run max sp l).
  Proof.
    induction l as [|o l IH]; intros y sp HR; [reflexivity |].
    cbn [crash_run crash_spec_run]. generalize (crash_sim o HR).
    destruct (crash_step o y) as [y1 b]. destruct (crash_spec_step max o sp) as [sp1 b']. intros (<- & Hw & H). rewrite <- Hw.
    destruct b; try (destruct H as [H|H]; [discriminate H |]; specialize (IH y1 sp1 H);
      destruct (crash_run y1 l), (crash_spec_run max sp1 l); cbn in *; rewrite IH; reflexivity); reflexivity.
  Qed.
  Lemma crash_refines s w l : fst (crash_run (sys0 svc max s w) l) = fst (crash_spec_run max (spec0 svc s w) l).
  Proof. apply crash_run_sim, rel0. Qed.

  Lemma crash_rel l : forall y sp, rel y sp -> ~ In CoDiverge (map fst (fst (crash_run y l))) ->
    exists sp1, rel (snd (crash_run y l)) sp1.
  Proof.
    induction l as [|o l IH]; intros y sp HR Hd; [cbn; eauto |].
    cbn [crash_run] in *. generalize (crash_sim o HR).
    destruct (crash_step o y) as [y1 b]. destruct (crash_spec_step max o sp) as [sp1 b']. intros (_ & _ & H).
    assert (Hb : b <> CoDiverge).
    { intros ->. apply Hd. cbn. auto. }
    destruct H as [H|H]; [contradiction |].
    destruct b; try congruence; specialize (IH y1 sp1 H); destruct (crash_run y1 l) as [h y2]; cbn in *; apply IH; tauto.
  Qed.
  Lemma crash_conserved s w l :
    let h := crash_run (sys0 svc max s w) l in
    ~ In CoDiverge (map fst (fst h)) ->
    sem_avail (fst (y_w (snd h))) + length (sem_granted (fst (y_w (snd h))))
    + length (List.filter (fun c => match c with Some c => cl_permit c | None => false end) (y_insts (snd h)))
    + live (y_futs (snd h)) = max.
  Proof.
    cbv zeta. intros He. destruct (crash_rel (rel0 max s w) He) as [sp (E1 & E2 & E3 & gl & Hw & Hm)].
    set (y := snd (crash_run (sys0 svc max s w) l)) in *.
    assert (F0 : in_flight sp = live (y_futs y)) by (unfold in_flight; rewrite E2; reflexivity).
    assert (H0 : holding sp = length (List.filter (fun c => match c with Some c => cl_permit c | None => false end) (y_insts y))).
    { unfold ConcSpec.holding. rewrite E1. clearbody y. clear. induction (y_insts y) as [|[x|] l0 IH]; cbn; auto.
      destruct (cl_permit x); cbn; auto. }
    destruct Hw as (_ & _ & _ & _ & _ & _ & P & _). apply Permutation_length in P.
    change (st (conc_limit svc (fun _ : W => false) true)) with (conc_st svc). lia.
  Qed.
  Lemma crash_all_back s w l :
    let h := crash_run (sys0 svc max s w) l in
    ~ In CoDiverge (map fst (fst h)) ->
    live (y_insts (snd h)) = 0 -> live (y_futs (snd h)) = 0 ->
    sem_avail (fst (y_w (snd h))) = max.
  Proof.
    cbv zeta. intros He Hi Hf. generalize (crash_conserved He). cbv zeta.
    destruct (crash_rel (rel0 max s w) He) as [sp (E1 & E2 & E3 & gl & Hw & Hm)].
    set (y := snd (crash_run (sys0 svc max s w) l)) in *.
    assert (Hn : forall i c, nth_error (y_insts y) i <> Some (Some c)).
    { clearbody y. clear -Hi. unfold live in Hi. intros i c H. revert i H. induction (y_insts y) as [|x l0 IH]; intros [|i] H; cbn in *; try discriminate.
      - injection H as ->. discriminate.
      - destruct x; [discriminate|]. eapply IH; eauto. }
    assert (G0 : gl = []).
    { destruct Hw as (H1 & _). destruct gl as [|t gl]; auto. exfalso.
      inversion H1 as [|x ? ? ? K1 K2]. destruct (wait_nth K1) as (c & Hc & _). eapply Hn; eauto. }
    destruct Hw as (_ & _ & _ & _ & _ & _ & P & _). subst gl. apply Permutation_sym, Permutation_nil in P. rewrite P, Hf.
    assert (H0 : length (List.filter (fun c => match c with Some c => cl_permit c | None => false end) (y_insts y)) = 0).
    { clearbody y. clear -Hi. revert Hi. unfold live. induction (y_insts y) as [|[x|] l0 IH]; cbn; auto; discriminate. }
    rewrite H0. cbn. lia.
  Qed.
  (** Also up to a [CoDiverge]. *)
  Lemma crash_bound_gen l : forall y sp, rel y sp -> live (y_futs (snd (crash_run y l))) <= max.
  Proof.
    induction l as [|o l IH]; intros y sp HR.
    - exact (rel_live HR).
    - cbn [crash_run]. generalize (crash_sim o HR).
      destruct (crash_step o y) as [y1 b] eqn:Eo. destruct (crash_spec_step max o sp) as [sp1 b']. intros (_ & _ & H).
      assert (K : b = CoDiverge -> live (y_futs y1) <= max).
      { intros ->. unfold crash_step in Eo. generalize (rel_live HR).
        assert (Hs : y_futs y1 = y_futs y).
        { clear -Eo. destruct (sys_step o y) as [y2 b2] eqn:Ey.
          destruct b2; try (injection Eo as <- E; discriminate E).
          - destruct o as [i|i r|i|s0|i|j|j|g]; try (injection Eo as <- E; discriminate E);
              destruct (nth_error _ _) as [[c|]|]; injection Eo as <- E; discriminate E.
          - injection Eo as <-. revert Ey. destruct o as [i|i r|i|s0|i|j|j|g]; cbn [sys_step]; try (intros E; injection E as <- <-; discriminate); try discriminate.
            + destruct (nth_error _ _) as [[c|]|]; try discriminate. destruct (poll_ready _ c (y_w y)) as [w1 [[? ?]| |]]; intros E; injection E as <-; reflexivity || discriminate.
            + destruct (nth_error _ _) as [[c|]|]; try discriminate. destruct (call _ c r (y_w y)) as [w1 [[? ?]| |]]; intros E; injection E as <-; reflexivity || discriminate.
            + destruct (nth_error _ _) as [[c|]|]; try discriminate. destruct (clone _ c (y_w y)) as [w1 [?| |]]; intros E; injection E as <-; reflexivity || discriminate.
            + destruct (nth_error _ _) as [[c|]|]; discriminate.
            + destruct (nth_error _ _) as [[c|]|]; try discriminate. destruct (poll_fut _ c (y_w y)) as [w1 [[? ?]| |]]; intros E; injection E as <-; reflexivity || discriminate.
            + destruct (nth_error _ _) as [[c|]|]; discriminate. }
        rewrite Hs. auto. }
      destruct b; try (apply K; reflexivity);
        (destruct H as [H|H]; [discriminate H|]; specialize (IH y1 sp1 H); destruct (crash_run y1 l); exact IH).
  Qed.
  Lemma crash_bound s w l : live (y_futs (snd (crash_run (sys0 svc max s w) l))) <= max.
  Proof. eapply crash_bound_gen, rel0. Qed.
End UnwindProof.
