(** Proofs for C37-C39. *)
From Verif Require Import Base Limits Track RateSpec Demo.
Set Implicit Arguments.

Lemma windowed_le num per lo lo' ts : (lo' <= lo)%Z -> windowed num per lo ts -> windowed num per lo' ts.
Proof. intros H Hw. inversion Hw; subst; [constructor|]. apply win_cons with (s := s); auto. lia. Qed.

Lemma windowed_bound num per lo ts : windowed num per lo ts -> (0 <= per)%Z -> Forall (fun t => lo <= t)%Z ts.
Proof.
  induction 1 as [|lo s ts rest H1 H2 H3 H4 IH]; intros Hp; [constructor|].
  apply Forall_app. split.
  - eapply Forall_impl; [|exact H3]. cbn. intros; lia.
  - eapply Forall_impl; [|exact (IH Hp)]. cbn. intros; lia.
Qed.

Lemma within_le x per ts : length (within x per ts) <= length ts.
Proof. unfold within. induction ts as [|t ts IH]; cbn; auto. destruct (_ && _); cbn; lia. Qed.
Lemma within_none x per lo ts : (x + per <= lo)%Z -> Forall (fun t => lo <= t)%Z ts -> within x per ts = [].
Proof.
  intros H. induction 1 as [|t ts Ht _ IH]; cbn; auto.
  replace (t <? x + per)%Z with false by (symmetry; apply Z.ltb_ge; lia).
  rewrite andb_false_r. exact IH.
Qed.
Lemma within_app x per a b : within x per (a ++ b) = within x per a ++ within x per b.
Proof. apply filter_app. Qed.

(** At most two windows meet an interval of the same length. *)
Lemma windowed_within num per lo ts : (0 < per)%Z -> windowed num per lo ts ->
  forall x, (N.of_nat (length (within x per ts)) <= 2 * num)%N.
Proof.
  intros Hp. induction 1 as [|lo s ts rest H1 H2 H3 H4 IH]; intros x; [cbn; lia|].
  rewrite within_app, app_length.
  destruct (Z.le_gt_cases (s + per) x) as [Hx|Hx].
  - replace (within x per ts) with (@nil Z); [apply IH|]. symmetry.
    unfold within. apply Forall_impl with (Q := fun t => ((x <=? t) && (t <? x + per))%Z = false) in H3.
    + clear -H3. induction H3 as [|t ts Ht _ IH]; cbn; auto. rewrite Ht. exact IH.
    + intros t Ht. replace (x <=? t)%Z with false; auto. symmetry. apply Z.leb_gt. lia.
  - (* then only the next window can meet it too *)
    assert (K : (N.of_nat (length (within x per rest)) <= num)%N).
    { inversion H4 as [|lo' s' ts' rest' G1 G2 G3 G4 E1 E2]; subst; [cbn; lia|].
      rewrite within_app, app_length.
      rewrite (@within_none x per (s' + per) rest').
      - cbn. pose proof (within_le x per ts'). lia.
      - lia.
      - eapply windowed_bound; eauto. lia. }
    pose proof (within_le x per ts). lia.
Qed.

Section RateProof.
  Context {W Req Resp Err : Type} (rt : Rt W) (svc : Service W Req Resp Err) (r : rate).
  Notation L := (tev Req Resp Err).
  Notation TW := (W * tk L)%type.
  Notation tr := (trate rt svc r).
  Notation ts := (tracked (fun e : L => e) svc).
  Context (Hnum : (0 < r_num r)%N) (Hper : (0 < r_per r)%Z) (Hflow : time_flows rt svc).

  (** [c]: times of the calls in the current window, which starts at [s0]. *)
  Definition rinv (s : st tr) (w : TW) (s0 : Z) (c : list Z) : Prop :=
    (s0 <= now (tk_rt rt) w)%Z /\ Forall (fun t => s0 <= t < s0 + r_per r)%Z c /\ fst (rl_inner s) = 0 /\
    match rl_st s with
    | RlReady until rem => until = (s0 + r_per r)%Z /\ (N.of_nat (length c) + rem = r_num r)%N /\ (0 < rem)%N
    | RlLimited => rl_sleep s = (s0 + r_per r)%Z /\ N.of_nat (length c) = r_num r
    end.

  Lemma flow_ready s w : (now rt (fst w) <= now rt (fst (fst (poll_ready ts s w))))%Z.
  Proof.
    cbn. unfold bind, tk_lift. cbn. pose proof (proj1 Hflow (snd s) (fst w)) as H.
    destruct (poll_ready svc (snd s) (fst w)) as [w1 [[s1 a]| |]]; exact H.
  Qed.

  Lemma rate_call_eq x until rem sl q w' :
    call tr (RlSt ts (0, x) (RlReady until rem) sl) q w' =
    let t := now rt (fst w') in
    let reset := (until <=? t)%Z in
    let rem' := if reset then r_num r else rem in
    let until' := if reset then (t + r_per r)%Z else until in
    match call svc x q (fst w') with
    | (w1, Val (x1, f)) =>
        ((w1, Tk (S (tk_next (snd w'))) (TCall 0 q (tk_next (snd w')) :: log_of w')),
         Val (RlSt ts (0, x1) (if (1 <? rem')%N then RlReady until' (rem' - 1) else RlLimited)
                (if (1 <? rem')%N then sl else until'), (tk_next (snd w'), f)))
    | (w1, Panic) => ((w1, snd w'), Panic)
    | (w1, Diverge) => ((w1, snd w'), Diverge)
    end.
  Proof.
    cbn. unfold bind, get, tk_lift, ret. cbn.
    destruct (1 <? (if (until <=? now rt (fst w'))%Z then r_num r else rem))%N;
      destruct (call svc x q (fst w')) as [w1 [[x1 f]| |]]; reflexivity.
  Qed.

  Lemma rate_gen ops : Forall (fun o => forward rt (fst o)) ops -> forall p s w s0 c old,
    rinv s w s0 c -> (p = Primed -> rl_st s <> RlLimited) ->
    let h := run_svc tr p s w (tk_ops ops) in
    rate_entries (c ++ old) h /\
    exists t1 rest, call_times h = t1 ++ rest /\ (N.of_nat (length c + length t1) <= r_num r)%N /\
      Forall (fun t => s0 <= t < s0 + r_per r)%Z t1 /\ windowed (r_num r) (r_per r) (s0 + r_per r) rest.
  Proof.
    cbv zeta.
    assert (Hc : forall s w s0 c, rinv s w s0 c -> (N.of_nat (length c) <= r_num r)%N).
    { intros s w s0 c (_ & _ & _ & H). destruct (rl_st s); lia. }
    assert (Hnil : forall s w s0 c, rinv s w s0 c -> exists t1 rest, [] = t1 ++ rest /\ (N.of_nat (length c + length t1) <= r_num r)%N /\
      Forall (fun t => s0 <= t < s0 + r_per r)%Z t1 /\ windowed (r_num r) (r_per r) (s0 + r_per r) rest).
    { intros s w s0 c H. exists [], []. cbn. rewrite Nat.add_0_r. split; [reflexivity|].
      split; [eauto|]. split; constructor. }
    induction 1 as [|[g o] ops Hg Hops IH]; intros p s w s0 c old HI Hp.
    { cbn. split; [exact I | eauto]. }
    change (tk_ops (L := L) ((g, o) :: ops)) with ((tk_env (L := L) g, o) :: tk_ops ops).
    cbn in Hg.
    assert (HI' : rinv s (tk_env g w) s0 c).
    { destruct HI as (H1 & H2). split; auto. cbn in *. specialize (Hg (fst w)). lia. }
    clear HI. remember (tk_env (L := L) g w) as w' eqn:Ew.
    (* skipped operations *)
    assert (Hskip : forall p, p <> Primed -> let h := (w', ObsSkip, w') :: run_svc tr p s w' (tk_ops ops) in
      rate_entries (c ++ old) h /\ exists t1 rest, call_times h = t1 ++ rest /\ (N.of_nat (length c + length t1) <= r_num r)%N /\
      Forall (fun t => s0 <= t < s0 + r_per r)%Z t1 /\ windowed (r_num r) (r_per r) (s0 + r_per r) rest).
    { intros p' Hp'. cbv zeta. destruct (IH p' s w' s0 c old HI') as [H1 H2]; [contradiction|].
      cbn [rate_entries call_times]. auto. }
    (* poll_ready *)
    assert (Hready : let h := match poll_ready tr s w' with
        | (w1, Val (s1, a)) => (w', ObsReady a, w1) :: run_svc tr (phase_after a) s1 w1 (tk_ops ops)
        | (w1, Panic) => [(w', ObsPanic, w1)]
        | (w1, Diverge) => [(w', ObsDiverge, w1)]
        end in
      rate_entries (c ++ old) h /\ exists t1 rest, call_times h = t1 ++ rest /\ (N.of_nat (length c + length t1) <= r_num r)%N /\
      Forall (fun t => s0 <= t < s0 + r_per r)%Z t1 /\ windowed (r_num r) (r_per r) (s0 + r_per r) rest).
    { cbv zeta. destruct s as [[i x] sst sl].
      pose proof HI' as (Ht & Hf & Hi & Hst). cbn in Hi, Ht. subst i.
      cbn. destruct sst as [|until rem]; cbn [rl_st rl_sleep] in Hst |- *.
      - destruct Hst as [Hsl Hlen]. unfold sleep_poll, modify, bind at 1 2 3, get at 1, ret at 1. cbn.
        destruct (fired rt (fst w') sl) eqn:Ef; cbn.
        + (* a new window starts *)
          assert (Hnow : (s0 + r_per r <= now rt (fst w'))%Z)
            by (rewrite <- Hsl; apply (fired_sound rt); exact Ef).
          unfold bind, tk_lift, get, ret. cbn.
          rewrite now_nap. pose proof (proj1 Hflow x (nap rt sl (fst w'))) as Hfl. rewrite now_nap in Hfl.
          destruct (poll_ready svc x (nap rt sl (fst w'))) as [w1 [[x1 a]| |]]; cbn in Hfl |- *.
          * match goal with |- context [run_svc _ _ ?s1 ?w1 _] =>
              destruct (IH (phase_after a) s1 w1 (now rt (fst w')) [] (c ++ old)) as [H1 (t1 & rest & H2 & H3 & H4 & H5)] end.
            { repeat split; cbn; auto; try lia. }
            { cbn. discriminate. }
            split; [auto|]. exists [], (t1 ++ rest). rewrite H2. split; [reflexivity|].
            split; [cbn; lia|]. split; [constructor|].
            econstructor; eauto; lia.
          * split; [auto | eauto].
          * split; [auto | eauto].
        + match goal with |- context [run_svc _ _ ?s1 ?w1 _] =>
            destruct (IH Idle s1 w1 s0 c old) as [H1 H2]; [|discriminate|] end.
          { destruct HI' as (H1 & H2). split; [|exact H2]. cbn in *. rewrite now_nap. exact H1. }
          split; [|exact H2]. split; [|exact H1]. right.
          split; [reflexivity|]. exists s0, c, old. split; [rewrite <- Hsl; reflexivity|].
          split; [reflexivity|]. split; [auto|]. split; [auto|]. rewrite <- Hsl. exact Ef.
      - unfold bind, tk_lift, ret. cbn.
        pose proof (proj1 Hflow x (fst w')) as Hfl.
        destruct (poll_ready svc x (fst w')) as [w1 [[x1 a]| |]]; cbn in Hfl |- *.
        * match goal with |- context [run_svc _ _ ?s1 ?w1 _] =>
            destruct (IH (phase_after a) s1 w1 s0 c old) as [H1 H2] end.
          { split; [cbn; lia|]. auto. }
          { cbn. discriminate. }
          split; [auto | exact H2].
        * split; [auto | eauto].
        * split; [auto | eauto]. }
    destruct o as [|q], p; cbn [run_svc]; rewrite <- Ew; try exact Hready; try (apply Hskip; discriminate).
    clear Ew Hg g w.
    (* call *)
    destruct s as [[i x] sst sl]. pose proof HI' as (Ht & Hf & Hi & Hst). cbn in Hi, Ht. subst i.
    specialize (Hp eq_refl). cbn in Hp. destruct sst as [|until rem]; [congruence|]. clear Hp Hready Hskip.
    cbn in Hst. destruct Hst as (-> & Hlen & Hrem).
    rewrite rate_call_eq. cbv zeta.
    set (t := now rt (fst w')) in *.
    (* the window the call belongs to *)
    set (reset := (s0 + r_per r <=? t)%Z).
    set (s0' := if reset then t else s0).
    set (c' := if reset then [] else c).
    assert (E1 : (if reset then (t + r_per r)%Z else (s0 + r_per r)%Z) = (s0' + r_per r)%Z) by (unfold s0'; destruct reset; auto).
    assert (E2 : (N.of_nat (length c') + (if reset then r_num r else rem) = r_num r)%N) by (unfold c'; destruct reset; cbn; lia).
    assert (E3 : (0 < if reset then r_num r else rem)%N) by (destruct reset; lia).
    assert (E4 : (s0' <= t < s0' + r_per r)%Z).
    { unfold s0'. destruct reset eqn:Er; [lia|]. apply Z.leb_gt in Er. lia. }
    assert (E5 : Forall (fun t => s0' <= t < s0' + r_per r)%Z (t :: c')).
    { constructor; auto. unfold c', s0'. destruct reset; auto. }
    rewrite E1. set (rem' := if reset then r_num r else rem) in *.
    assert (E6 : t :: c ++ old = (t :: c') ++ (if reset then c ++ old else old)) by (unfold c'; destruct reset; auto).
    (* joining the first windows *)
    assert (Hjoin : forall l, (exists t1 rest, l = t1 ++ rest /\ (N.of_nat (length (t :: c') + length t1) <= r_num r)%N /\
        Forall (fun t => s0' <= t < s0' + r_per r)%Z t1 /\ windowed (r_num r) (r_per r) (s0' + r_per r) rest) ->
      exists t1 rest, t :: l = t1 ++ rest /\ (N.of_nat (length c + length t1) <= r_num r)%N /\
        Forall (fun t => s0 <= t < s0 + r_per r)%Z t1 /\ windowed (r_num r) (r_per r) (s0 + r_per r) rest).
    { intros l (t1 & rest & -> & H1 & H2 & H3). unfold s0', c' in *. destruct reset eqn:Er.
      - exists [], (t :: t1 ++ rest). split; [reflexivity|]. split; [cbn; lia|]. split; [constructor|].
        apply (@win_cons (r_num r) (r_per r) _ t (t :: t1) rest); auto.
        + apply Z.leb_le in Er. exact Er.
      - exists (t :: t1), rest. split; [reflexivity|]. split; [cbn [length] in *; lia|]. split; auto. }
    pose proof (proj2 Hflow x q (fst w')) as Hfl. fold t in Hfl.
    destruct (call svc x q (fst w')) as [w1 [[x1 f]| |]]; cbn [fst] in Hfl.
    - cbn [rate_entries call_times].
      match goal with |- context [run_svc _ _ ?s1 ?w1 _] =>
        destruct (IH Idle s1 w1 s0' (t :: c') (if reset then c ++ old else old)) as [H1 H2] end.
      { split; [cbn; lia|]. split; [exact E5|]. split; [reflexivity|]. cbn [rl_st rl_sleep length].
        destruct (1 <? rem')%N eqn:Eone; [apply N.ltb_lt in Eone | apply N.ltb_ge in Eone];
          (split; [auto|]; lia). }
      { discriminate. }
      split; [|apply Hjoin; exact H2]. split; [reflexivity|]. cbn [now tk_rt]. fold t. rewrite E6. exact H1.
    - cbn. split; [auto | eauto].
    - cbn. split; [auto | eauto].
  Qed.

  Lemma rate_run (x : st svc) w0 w s ops :
    Forall (fun o => forward rt (fst o)) ops ->
    rate_limit_new (tk_rt rt) r ts (0, x) w0 = (w, Val s) ->
    let h := run_svc tr Idle s w (tk_ops ops) in
    rate_entries [] h /\
    exists lo, windowed (r_num r) (r_per r) lo (call_times h).
  Proof.
    intros Hops Hnew. unfold rate_limit_new, bind, get, ret in Hnew. injection Hnew as <- <-.
    destruct (@rate_gen ops Hops Idle (RlSt ts (0, x) (RlReady (now (tk_rt rt) w0) (r_num r)) (now (tk_rt rt) w0)) w0 (now (tk_rt rt) w0 - r_per r)%Z [] []) as [H1 (t1 & rest & H2 & H3 & H4 & H5)].
    - split; [cbn; lia|]. split; [constructor|]. split; [reflexivity|]. cbn. split; lia.
    - discriminate.
    - cbv zeta. split; [exact H1|]. exists (now (tk_rt rt) w0 - r_per r)%Z.
      refine (eq_ind_r (fun l => windowed _ _ _ l) _ H2).
      apply win_cons with (s := (now (tk_rt rt) w0 - r_per r)%Z); auto. lia.
  Qed.
End RateProof.

Section RateCor.
  Context {W Req Resp Err : Type} (rt : Rt W) (svc : Service W Req Resp Err) (r : rate).
  Context (Hnum : (0 < r_num r)%N) (Hper : (0 < r_per r)%Z) (Hflow : time_flows rt svc).
  Context (x : st svc) (w0 w : W * tk (tev Req Resp Err)) (s : st (trate rt svc r)) (ops : list ((W -> W) * @sop Req)).
  Context (Hops : Forall (fun o => forward rt (fst o)) ops).
  Context (Hnew : rate_limit_new (tk_rt rt) r (tracked (fun e => e) svc) (0, x) w0 = (w, Val s)).

  Lemma rate_windows : exists lo, windowed (r_num r) (r_per r) lo (call_times (run_svc (trate rt svc r) Idle s w (tk_ops ops))).
  Proof. apply (@rate_run _ _ _ _ rt svc r Hnum Hper Hflow x w0 w s ops Hops Hnew). Qed.
  Lemma rate_twice : forall t,
    (N.of_nat (length (within t (r_per r) (call_times (run_svc (trate rt svc r) Idle s w (tk_ops ops))))) <= 2 * r_num r)%N.
  Proof. destruct rate_windows as [lo H]. intros t. eapply windowed_within; eauto. Qed.
  Lemma rate_not_needlessly : rate_entries [] (run_svc (trate rt svc r) Idle s w (tk_ops ops)).
  Proof. apply (@rate_run _ _ _ _ rt svc r Hnum Hper Hflow x w0 w s ops Hops Hnew). Qed.
End RateCor.

Lemma rate_new_spec W (w : W) num per :
  rate_new num per w = (w, if (0 <? num)%N && (0 <? per)%Z then Val (Rate num per) else Panic).
Proof. unfold rate_new. destruct (0 <? num)%N, (0 <? per)%Z; reflexivity. Qed.

Lemma demo_flows : time_flows scr_rt demo.
Proof.
  split; cbn; intros; try lia. destruct (rdy_script w); cbn; lia.
Qed.
Lemma tick_forward d : (0 <= d)%Z -> forward scr_rt (tick d).
Proof. intros H w. cbn. lia. Qed.

Lemma rate_naive_refuted :
  ~ (forall W Req Resp Err (rt : Rt W) (svc : Service W Req Resp Err) (r : rate),
     (0 < r_num r)%N -> (0 < r_per r)%Z -> time_flows rt svc ->
     forall (x : st svc) w0 w s ops,
     Forall (fun o => forward rt (fst o)) ops ->
     rate_limit_new (tk_rt rt) r (tracked (fun e => e) svc) (0, x) w0 = (w, Val s) ->
     forall t, (N.of_nat (length (within t (r_per r) (call_times (run_svc (trate rt svc r) Idle s w (tk_ops ops)))))
                <= r_num r)%N).
Proof.
  intros H.
  specialize (H scr nat nat nat scr_rt demo (Rate 2 10) eq_refl eq_refl demo_flows 5 (scr0, Tk 1 []) (scr0, Tk 1 [])
    (RlSt (tracked (fun e => e) demo) (0, 5) (RlReady 0 2) 0) [(tick 0, SReady); (tick 0, SCall 1); (tick 9, SReady); (tick 0, SCall 2); (tick 0, SReady);
       (tick 0, SCall 3); (tick 1, SReady); (tick 0, SCall 4); (tick 0, SReady); (tick 1, SCall 5)]).
  specialize (H ltac:(repeat constructor; cbn; apply tick_forward; lia) eq_refl 9%Z).
  vm_compute in H. apply H. reflexivity.
Qed.
