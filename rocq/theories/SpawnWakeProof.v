(** Proofs for C88. *)
From Verif Require Import Base Util WakeCache RingSpec SpawnReady WakeSpawn RefineSpec SpawnWakeSpec.
Set Implicit Arguments.

Section P.
  Context {W Req Resp Err : Type} (svc : Service W Req Resp Err).
  Context (rings : W -> list waker) (gap : W -> W * list gmove) (coop : W -> bool) (fuel : nat).
  Notation ws := (wspawn svc).

  Definition swi (c : ws) : Prop :=
    match ws_in c with WsFut t (TRun _) q _ => q = true \/ waiting (ws_log c) 0 (WkChild t) | _ => True end.
  Definition asleep (c : ws) : Prop := ws_woken c = true \/ exists t s q, ws_in c = WsFut t (TRun s) q true.

  Lemma swi_ring k (c : ws) : swi c -> swi (sring k c).
  Proof.
    unfold swi, sring, slogged. destruct k as [|t0]; cbn [ws_in ws_log swoken].
    - destruct (ws_in c) as [s|t [s| | |] q j]; auto. cbn [waiting]. intros [H|H]; [left; exact H | right; split; [discriminate | exact H]].
    - destruct (ws_in c) as [s|t [s| | |] q j] eqn:E; try (rewrite E; auto; fail).
      destruct (Nat.eqb_spec t t0) as [->|N]; [cbn; auto|]. rewrite E. intros [H|H]; [left; exact H|right]. cbn [waiting]. split; [congruence | exact H].
  Qed.
  Lemma swi_rings l : forall c : ws, swi c -> swi (sring_all l c).
  Proof. induction l as [|k l IH]; intros c H; [exact H|]. apply IH, swi_ring, H. Qed.
  Lemma woken_ring k (c : ws) : ws_woken c = true -> ws_woken (sring k c) = true.
  Proof. unfold sring. destruct k as [|t0]; [reflexivity|]. cbn. destruct (ws_in c) as [s|t [s| | |] q j]; auto. destruct (t =? t0); auto. Qed.
  Lemma asleep_ring k (c : ws) : asleep c -> asleep (sring k c).
  Proof.
    intros [H|(t & s & q & H)]; [left; apply woken_ring, H|]. unfold sring, asleep. destruct k as [|t0]; cbn [slogged swoken ws_in ws_woken]; [left; reflexivity|].
    rewrite H. right. destruct (t =? t0); cbn [sput ws_in]; eauto.
  Qed.
  Lemma asleep_rings l : forall c : ws, asleep c -> asleep (sring_all l c).
  Proof. induction l as [|k l IH]; intros c H; [exact H|]. apply IH, asleep_ring, H. Qed.

  Lemma finish_swi t r j (c : ws) e : (forall s, r <> TRun s) -> swi (slogged e (sfinish t r j c)).
  Proof. intros H. unfold swi, sfinish. destruct j; cbn; destruct r; auto; exfalso; eapply H; reflexivity. Qed.
  Lemma finish_asleep t r (c : ws) e : asleep (slogged e (sfinish t r true c)).
  Proof. left. reflexivity. Qed.
  Lemma finish_join t r j (c : ws) e : ws_woken c = true -> asleep (slogged e (sfinish t r j c)).
  Proof. intros H. left. unfold sfinish. destruct j; [reflexivity | exact H]. Qed.

  Lemma srun_keeps (c : ws) w w1 c1 : srun rings c w = (w1, Val c1) -> swi c -> swi c1 /\ (asleep c -> asleep c1).
  Proof.
    unfold srun. intros E HS.
    destruct (ws_in c) as [s|t [s| | |] [|] j] eqn:Ei; try (injection E as <- <-; auto; fail).
    destruct (poll_ready svc s w) as [w2 [[s1 [|[u|e]]]| |]]; try discriminate E; injection E as <- <-.
    - split; [apply swi_rings; unfold swi; cbn; auto|]. intros [H|(t0 & s0 & q0 & H)]; apply asleep_rings.
      + left. exact H.
      + rewrite Ei in H. injection H as _ _ _ ->. right. cbn. eauto.
    - split; [apply swi_rings, finish_swi; discriminate|]. intros [H|(t0 & s0 & q0 & H)]; apply asleep_rings; [apply finish_join, H|].
      rewrite Ei in H. injection H as _ _ _ ->. apply finish_asleep.
    - split; [apply swi_rings, finish_swi; discriminate|]. intros [H|(t0 & s0 & q0 & H)]; apply asleep_rings; [apply finish_join, H|].
      rewrite Ei in H. injection H as _ _ _ ->. apply finish_asleep.
    - split; [apply swi_rings, finish_swi; discriminate|]. intros [H|(t0 & s0 & q0 & H)]; apply asleep_rings; [apply finish_join, H|].
      rewrite Ei in H. injection H as _ _ _ ->. apply finish_asleep.
  Qed.
  Lemma skill_keeps (c : ws) w w1 c1 : skill c w = (w1, Val c1) -> swi c -> swi c1 /\ (asleep c -> asleep c1).
  Proof.
    unfold skill. intros E HS. destruct (ws_in c) as [s|t [s| | |] q j] eqn:Ei; try (injection E as <- <-; auto; fail).
    unfold bind, modify, ret in E. injection E as <- <-. split.
    - unfold swi, sfinish. destruct j; exact I.
    - intros [H|(t0 & s0 & q0 & H)].
      + left. unfold sfinish. destruct j; [reflexivity | exact H].
      + rewrite Ei in H. injection H as _ _ _ ->. left. reflexivity.
  Qed.
  Lemma gmoves_keeps l : forall (c : ws) w w1 c1, gmoves rings l c w = (w1, Val c1) -> swi c -> swi c1.
  Proof.
    induction l as [|m l IH]; intros c w w1 c1 E HS; [injection E as _ <-; exact HS|].
    cbn [gmoves] in E. unfold bind in E. destruct (gmove_do rings m c w) as [w2 [c2| |]] eqn:Em; try discriminate E.
    apply (IH _ _ _ _ E). destruct m as [|k]; cbn [gmove_do] in Em; [exact (proj1 (srun_keeps _ _ Em HS))|].
    injection Em as _ <-. apply swi_ring, HS.
  Qed.

  Lemma ready_keeps n : forall (c : ws) w w1 c1 a, ws_ready rings gap coop n c w = (w1, Val (c1, a)) -> swi c ->
    swi c1 /\ (a = Pending -> asleep c1).
  Proof.
    induction n as [|n IH]; intros c w w1 c1 a E HS; [discriminate E|]. cbn [ws_ready] in E.
    destruct (ws_in c) as [x|t task q j] eqn:Ei.
    - unfold bind at 1 in E. destruct (poll_ready svc x w) as [w2 [[x1 b]| |]]; try discriminate E. unfold bind at 1 in E.
      destruct b as [|r].
      + apply IH in E; [exact E|]. unfold swi. cbn. auto.
      + unfold ret in E. injection E as _ <- <-. split; [|discriminate]. apply swi_rings. exact I.
    - unfold bind at 1 in E. destruct (gap w) as [w2 g]. unfold bind at 1 in E.
      destruct (gmoves rings g c w2) as [w3 [c2| |]] eqn:Eg; try discriminate E. unfold bind, get in E.
      assert (H2 := gmoves_keeps _ _ _ Eg HS). destruct (ws_in c2) as [x|t2 task2 q2 j2] eqn:E2; [discriminate E|].
      destruct (coop w3).
      + unfold ret in E. injection E as _ <- <-. split; [exact H2|]. intros _. left. reflexivity.
      + destruct task2 as [s|[x|e]| |]; try discriminate E.
        * unfold ret in E. injection E as _ <- <-. split; [|intros _; right; cbn; eauto]. unfold swi in *. rewrite E2 in H2. exact H2.
        * apply IH in E; [exact E|exact I].
        * unfold ret in E. injection E as _ <- <-. split; [exact I|discriminate].
        * unfold ret in E. injection E as _ <- <-. split; [exact I|discriminate].
  Qed.
  Lemma call_keeps (c : ws) r w w1 c1 f : ws_call rings c r w = (w1, Val (c1, f)) -> swi c1.
  Proof.
    unfold ws_call, bind. destruct (ws_in c); [|discriminate]. destruct (call svc s r w) as [w2 [[x1 f1]| |]]; try discriminate.
    intros E. injection E as _ <- _. apply swi_rings. exact I.
  Qed.

  Lemma step_keeps o (c : ws) w b c1 w1 : sstep rings gap coop fuel o (c, w) = Some (b, c1, w1) -> swi c ->
    swi c1 /\ (b = SPolled Pending -> asleep c1) /\
    (match o with SPoll | SCall _ => False | _ => True end -> asleep c -> asleep c1).
  Proof.
    intros E HS. destruct o as [|r| | |k|g]; cbn [sstep] in E; unfold wdo in E.
    - destruct (ws_ready rings gap coop fuel (swoken false c) w) as [w2 [[c2 a]| |]] eqn:Er; try discriminate E. injection E as <- <- <-.
      destruct (ready_keeps _ _ _ Er HS) as [A B]. split; [exact A|]. split; [intros H; injection H as ->; apply B; reflexivity | intros []].
    - destruct (ws_call rings c r w) as [w2 [[c2 a]| |]] eqn:Er; try discriminate E. injection E as <- <- <-.
      split; [apply (call_keeps _ _ _ Er)|]. split; [discriminate|intros []].
    - destruct (srun rings c w) as [w2 [c2| |]] eqn:Er; try discriminate E. injection E as <- <- <-.
      destruct (srun_keeps _ _ Er HS) as [A B]. split; [exact A|]. split; [discriminate|intros _; exact B].
    - destruct (skill c w) as [w2 [c2| |]] eqn:Er; try discriminate E. injection E as <- <- <-.
      destruct (skill_keeps _ _ Er HS) as [A B]. split; [exact A|]. split; [discriminate|intros _; exact B].
    - injection E as <- <- <-. split; [apply swi_ring, HS|]. split; [discriminate|intros _; apply asleep_ring].
    - injection E as <- <- <-. split; [exact HS|]. split; [discriminate|auto].
  Qed.

  Notation RUN := (srun_all rings gap coop fuel).
  Lemma run_sw l : forall (c : ws) w, swi c -> forall n b c1 w1, nth_error (RUN (c, w) l) n = Some (b, c1, w1) ->
    swi c1 /\ (b = SPolled Pending -> asleep c1).
  Proof.
    induction l as [|o l IH]; intros c w HS n b c1 w1 E; [destruct n; discriminate E|]. cbn [srun_all] in E.
    destruct (sstep rings gap coop fuel o (c, w)) as [[[b2 c2] w2]|] eqn:Es; [|destruct n; discriminate E].
    destruct (step_keeps _ _ _ Es HS) as (A & B & _). destruct n as [|n]; [injection E as <- <- <-; auto|].
    apply (IH c2 w2 A n _ _ _ E).
  Qed.
  Lemma run_asleep l : forall (c : ws) w, swi c -> asleep c -> forall n b c1 w1, nth_error (RUN (c, w) l) n = Some (b, c1, w1) ->
    (forall j o, j <= n -> nth_error l j = Some o -> match o with SPoll | SCall _ => False | _ => True end) -> asleep c1.
  Proof.
    induction l as [|o l IH]; intros c w HS HA n b c1 w1 E HO; [destruct n; discriminate E|]. cbn [srun_all] in E.
    destruct (sstep rings gap coop fuel o (c, w)) as [[[b2 c2] w2]|] eqn:Es; [|destruct n; discriminate E].
    destruct (step_keeps _ _ _ Es HS) as (A & _ & B). specialize (B (HO 0 o (Nat.le_0_l _) eq_refl) HA).
    destruct n as [|n]; [injection E as <- <- <-; auto|].
    apply (IH c2 w2 A B n _ _ _ E). intros j o' Hj Ho. apply (HO (S j) o'); [lia|exact Ho].
  Qed.

  Lemma run_after l : forall (c : ws) w, swi c -> forall i ci wi n b c1 w1,
    nth_error (RUN (c, w) l) i = Some (SPolled Pending, ci, wi) -> i <= n ->
    (forall j o, i < j <= n -> nth_error l j = Some o -> match o with SPoll | SCall _ => False | _ => True end) ->
    nth_error (RUN (c, w) l) n = Some (b, c1, w1) -> swi c1 /\ asleep c1.
  Proof.
    induction l as [|o l IH]; intros c w HS i ci wi n b c1 w1 Ei Hin HO En; [destruct i; discriminate Ei|].
    split; [exact (proj1 (@run_sw (o :: l) c w HS n b c1 w1 En))|]. cbn [srun_all] in Ei, En.
    destruct (sstep rings gap coop fuel o (c, w)) as [[[b2 c2] w2]|] eqn:Es; [|destruct i; discriminate Ei].
    destruct (step_keeps _ _ _ Es HS) as (A & B & _). destruct i as [|i].
    - injection Ei as -> <- <-. specialize (B eq_refl). destruct n as [|n]; [injection En as <- <- <-; exact B|].
      refine (@run_asleep l c2 w2 A B n b c1 w1 En _). intros j o' Hj Ho. apply (HO (S j) o'); [lia|exact Ho].
    - destruct n as [|n]; [lia|]. refine (proj2 (@IH c2 w2 A i ci wi n _ _ _ Ei _ _ En)); [lia|].
      intros j o' Hj Ho. apply (HO (S j) o'); [lia|exact Ho].
  Qed.

  Definition no_poll (l : list (sop (W := W) (Req := Req))) (i n : nat) : Prop :=
    forall j o, i < j <= n -> nth_error l j = Some o -> match o with SPoll | SCall _ => False | _ => True end.
End P.

Theorem spawn_pending W Req Resp Err (svc : Service W Req Resp Err) rings gap coop fuel s w0 l i ci wi n b c w :
  nth_error (shistory svc rings gap coop fuel s w0 l) i = Some (SPolled Pending, ci, wi) -> i <= n ->
  (forall j o, i < j <= n -> nth_error l j = Some o -> match o with SPoll | SCall _ => False | _ => True end) ->
  nth_error (shistory svc rings gap coop fuel s w0 l) n = Some (b, c, w) ->
  ws_woken c = true \/ exists t q, at_work c = Some (t, q) /\ (q = true \/ service_waits c t).
Proof.
  intros Ei Hin HO En. destruct (@run_after _ _ _ _ svc rings gap coop fuel l (wspawn_new svc s) w0 I i ci wi n b c w Ei Hin HO En) as [A [B|(t & x & q & B)]]; [left; exact B|].
  right. exists t, q. unfold at_work. unfold swi in A. rewrite B in *. split; [reflexivity | exact A].
Qed.

Theorem spawn_again W Req Resp Err (svc : Service W Req Resp Err) rings gap coop fuel s w0 l i ci wi n b c w :
  nth_error (shistory svc rings gap coop (S fuel) s w0 l) i = Some (SPolled Pending, ci, wi) -> i <= n ->
  (forall j o, i < j <= n -> nth_error l j = Some o -> match o with SPoll | SCall _ => False | _ => True end) ->
  nth_error (shistory svc rings gap coop (S fuel) s w0 l) n = Some (b, c, w) ->
  ws_woken c = false -> gap w = (w, []) -> coop w = false ->
  sstep rings gap coop (S fuel) SPoll (c, w) = Some (SPolled Pending, c, w).
Proof.
  intros Ei Hin HO En HW HG HC. destruct (@run_after _ _ _ _ svc rings gap coop (S fuel) l (wspawn_new svc s) w0 I i ci wi n b c w Ei Hin HO En) as [A [B|(t & x & q & B)]]; [congruence|].
  destruct c as [ci0 nx wk lg]. cbn in HW, B. subst. unfold sstep, swoken. cbn [ws_in ws_next ws_log]. unfold wdo. cbn [ws_ready ws_in].
  unfold bind, get. cbv beta. rewrite HG. cbn [gmoves]. unfold ret.
  rewrite HC. cbn. reflexivity.
Qed.

Theorem spawn_idle W Req Resp Err (svc : Service W Req Resp Err) rings gap coop fuel (c : wspawn svc) w t :
  at_work c = Some (t, false) -> sstep rings gap coop fuel SRun (c, w) = Some (SMoved, c, w).
Proof.
  unfold at_work. intros E. cbn [sstep]. unfold wdo, srun. destruct (ws_in c) as [s|t' [s| | |] q j]; try discriminate E. injection E as _ ->. reflexivity.
Qed.

Lemma gmoves_done W Req Resp Err (svc : Service W Req Resp Err) rings l : forall (c : wspawn svc) w t r q j, ws_in c = WsFut t (TDone r) q j ->
  exists c1, gmoves rings l c w = (w, Val c1) /\ ws_in c1 = ws_in c.
Proof.
  induction l as [|m l IH]; intros c w t r q j E; [exists c; split; reflexivity|]. cbn [gmoves]. unfold bind at 1.
  destruct m as [|k]; cbn [gmove_do].
  - unfold srun. rewrite E. destruct (IH c w _ _ _ _ E) as (c1 & A & B). exists c1. split; [exact A | congruence].
  - unfold ret at 1. assert (X : ws_in (sring k c) = ws_in c) by (unfold sring; destruct k; [reflexivity|]; rewrite E; exact E).
    destruct (IH (sring k c) w t r q j ltac:(congruence)) as (c1 & A & B). exists c1. split; [exact A | congruence].
Qed.
Lemma rings_done W Req Resp Err (svc : Service W Req Resp Err) l : forall (c : wspawn svc) t r q j, ws_in c = WsFut t (TDone r) q j ->
  ws_in (sring_all l c) = ws_in c.
Proof.
  induction l as [|k l IH]; intros c t r q j E; [reflexivity|]. cbn [sring_all fold_left]. 
  assert (X : ws_in (sring k c) = ws_in c) by (unfold sring; destruct k; [reflexivity|]; rewrite E; exact E).
  change (ws_in (sring_all l (sring k c)) = ws_in c). rewrite (IH _ t r q j); congruence.
Qed.
Lemma rings_woken W Req Resp Err (svc : Service W Req Resp Err) l : forall (c : wspawn svc), ws_woken c = true -> ws_woken (sring_all l c) = true.
Proof. induction l as [|k l IH]; intros c E; [exact E|]. apply IH. eapply woken_ring; eauto. Qed.

Theorem spawn_comes W Req Resp Err (svc : Service W Req Resp Err) rings gap coop fuel (up : W -> Prop) s w0 l i ci wi n b c w t q :
  (forall s w, up w -> exists w1 s1, poll_ready svc s w = (w1, Val (s1, Ready (Ok tt))) /\ up w1) ->
  (forall w, up w -> up (fst (gap w)) /\ coop (fst (gap w)) = false) ->
  nth_error (shistory svc rings gap coop (S (S fuel)) s w0 l) i = Some (SPolled Pending, ci, wi) -> i <= n ->
  (forall j o, i < j <= n -> nth_error l j = Some o -> match o with SPoll | SCall _ => False | _ => True end) ->
  nth_error (shistory svc rings gap coop (S (S fuel)) s w0 l) n = Some (b, c, w) ->
  ws_woken c = false -> at_work c = Some (t, q) -> up w ->
  exists c1 w1 c2 w2,
    sstep rings gap coop (S (S fuel)) SRun (sring (WkChild t) c, w) = Some (SMoved, c1, w1) /\ ws_woken c1 = true /\
    sstep rings gap coop (S (S fuel)) SPoll (c1, w1) = Some (SPolled (Ready (Ok tt)), c2, w2).
Proof.
  intros HU HG Ei Hin HO En HW HA Hw.
  destruct (@run_after _ _ _ _ svc rings gap coop _ l (wspawn_new svc s) w0 I i ci wi n b c w Ei Hin HO En) as [_ [B|(t0 & x & q0 & B)]]; [congruence|].
  unfold at_work in HA. rewrite B in HA. injection HA as -> ->.
  destruct (HU x w Hw) as (w1 & x1 & E1 & U1).
  set (c1 := sring_all (rings w1) (slogged (EPoll 0 (WkChild t) false) (sfinish t (TDone (Ok x1)) true (sring (WkChild t) c)))).
  assert (I1 : ws_in c1 = WsFut t (TDone (Ok x1)) false false) by (eapply (@rings_done _ _ _ _ svc); reflexivity).
  assert (V1 : ws_woken c1 = true) by (apply rings_woken; reflexivity).
  destruct (gap w1) as [w2 g] eqn:Eg. destruct (HG w1 U1) as [U2 C2]. rewrite Eg in U2, C2. cbn [fst] in U2, C2.
  destruct (gmoves_done rings g (swoken false c1) w2 (t := t) (r := Ok x1) (q := false) (j := false) I1) as (c2 & G2 & I2).
  destruct (HU x1 w2 U2) as (w3 & x2 & E3 & _).
  eexists c1, w1, _, w3. split; [|split; [exact V1|]].
  - cbn [sstep]. unfold wdo, srun, sring. rewrite B. cbn [slogged ws_in]. rewrite Nat.eqb_refl. cbn [sput ws_in]. rewrite E1.
    unfold c1, sring. rewrite B, Nat.eqb_refl. reflexivity.
  - cbn [sstep]. unfold wdo. cbn [ws_ready]. change (ws_in (swoken false c1)) with (ws_in c1). rewrite I1. unfold bind, get. cbv beta. rewrite Eg, G2.
    change (ws_in (swoken false c1)) with (ws_in c1) in I2. rewrite I2, I1, C2. cbn [ws_in sput]. rewrite E3. unfold ret. cbn [map_er]. reflexivity.
Qed.
