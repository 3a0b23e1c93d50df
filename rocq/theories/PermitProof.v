(** Proofs for C84. *)
From Verif Require Import Base Util Middleware Limits MeterSpec MeterProof FlightSpec KeepSpec KeepProof KeepTop SwiftMore PermitSpec.
Set Implicit Arguments.
Local Open Scope Z_scope.

Lemma mem_in i l : mem_nat i l = true <-> In i l.
Proof.
  unfold mem_nat. rewrite existsb_exists. split.
  - intros (x & H & E). apply Nat.eqb_eq in E. subst. exact H.
  - intros H. exists i. split; [exact H | apply Nat.eqb_refl].
Qed.
Lemma remove_len i l : In i l -> length l = S (length (remove_nat i l)).
Proof.
  induction l as [|j l IH]; cbn; [intros [] |]. destruct (Nat.eqb_spec i j) as [->|N]; [reflexivity |].
  intros [E|H]; [congruence |]. cbn. rewrite <- IH by exact H. reflexivity.
Qed.
Notation cnt := (count_occ Nat.eq_dec).
Lemma remove_cnt i l t : In i l -> cnt l t = (cnt (remove_nat i l) t + (if Nat.eq_dec i t then 1 else 0))%nat.
Proof.
  induction l as [|j l IH]; cbn [In]; [intros [] |]. intros H. cbn [remove_nat]. destruct (Nat.eqb_spec i j) as [->|N].
  - cbn [count_occ]. destruct (Nat.eq_dec j t); lia.
  - destruct H as [E|H]; [congruence |]. cbn [count_occ]. rewrite (IH H). destruct (Nat.eq_dec j t), (Nat.eq_dec i t); lia.
Qed.

(** ** The semaphore *)
Lemma use_release W max m (w w' : W) : in_use max (sem_release m, w) = in_use max (m, w') - 1.
Proof. unfold in_use, sem_release. cbn [fst]. destruct (sem_queue m); cbn; lia. Qed.
Lemma use_forget W max m (w w' : W) t : in_use max (sem_forget t m, w) = in_use max (m, w').
Proof.
  destruct t as [i|]; cbn [sem_forget]; [|reflexivity]. destruct (mem_nat i (sem_granted m)) eqn:E; [|reflexivity].
  apply mem_in in E. rewrite (@use_release W max _ w w'). unfold in_use. cbn. rewrite (remove_len _ _ E). lia.
Qed.
Lemma use_poll W max m (w w' : W) t m1 t1 got : sem_poll t m = (m1, t1, got) -> in_use max (m1, w) = in_use max (m, w') + if got then 1 else 0.
Proof.
  unfold sem_poll, in_use. cbn [fst]. destruct t as [i|].
  - destruct (mem_nat i (sem_granted m)) eqn:E; intros H; injection H as <- _ <-; cbn; [|lia].
    apply mem_in in E. rewrite (remove_len _ _ E). lia.
  - destruct (sem_avail m) eqn:E; intros H; injection H as <- _ <-; cbn; lia.
Qed.
Definition tick (t : nat) (o : option nat) : Z := match o with Some t' => if Nat.eq_dec t' t then 1 else 0 | None => 0 end.
Lemma enr_release W m (w w' : W) t : enrolled t (sem_release m, w) = enrolled t (m, w').
Proof.
  unfold enrolled, sem_release. cbn [fst]. destruct (sem_queue m) as [|j q]; cbn [sem_queue sem_granted app]; [reflexivity|].
  rewrite !count_occ_app. cbn [count_occ]. rewrite count_occ_app. destruct (Nat.eq_dec j t); lia.
Qed.
Lemma enr_poll W m (w w' : W) o t m1 o1 got : sem_poll o m = (m1, o1, got) -> tick t o <= enrolled t (m, w') ->
  enrolled t (m1, w) - enrolled t (m, w') = tick t o1 - tick t o.
Proof.
  unfold sem_poll, enrolled, tick. cbn [fst]. destruct o as [i|].
  - destruct (mem_nat i (sem_granted m)) eqn:E; intros H; injection H as <- <- <-; cbn [sem_queue sem_granted]; intros L; [|lia].
    apply mem_in in E. rewrite !count_occ_app, (remove_cnt _ _ t E) in *. destruct (Nat.eq_dec i t); lia.
  - destruct (sem_avail m) eqn:E; intros H; injection H as <- <- <-; cbn [sem_queue sem_granted]; intros L; [|lia].
    rewrite !count_occ_app. cbn [count_occ]. destruct (Nat.eq_dec (sem_next m) t); lia.
Qed.
Lemma enr_forget W m (w w' : W) o t : tick t o <= enrolled t (m, w') -> enrolled t (sem_forget o m, w) = enrolled t (m, w') - tick t o.
Proof.
  destruct o as [i|]; cbn [sem_forget tick]; [|unfold enrolled; cbn; lia]. intros L.
  destruct (mem_nat i (sem_granted m)) eqn:E.
  - apply mem_in in E. rewrite (enr_release _ w w'). unfold enrolled. cbn [fst sem_queue sem_granted].
    rewrite !count_occ_app, (remove_cnt _ _ t E). destruct (Nat.eq_dec i t); lia.
  - unfold enrolled in *. cbn [fst sem_queue sem_granted] in *. rewrite !count_occ_app in *.
    destruct (Nat.eq_dec i t) as [<-|N].
    + assert (X : ~ In i (sem_granted m)) by (intros X; apply mem_in in X; congruence).
      rewrite (proj1 (count_occ_not_In _ _ _) X) in *. assert (Y : In i (sem_queue m)) by (apply (count_occ_In Nat.eq_dec); lia).
      rewrite (remove_cnt _ _ i Y). destruct (Nat.eq_dec i i); lia.
    + assert (Z : cnt (remove_nat i (sem_queue m)) t = cnt (sem_queue m) t); [|rewrite Z; lia].
      clear -N. induction (sem_queue m) as [|j l IH]; [reflexivity|]. cbn [remove_nat]. destruct (Nat.eqb_spec i j) as [->|M]; cbn [count_occ].
      * destruct (Nat.eq_dec j t); [congruence | reflexivity].
      * rewrite IH. reflexivity.
Qed.

(** ** The limit holds what it should *)
Section Limit.
  Context {W Req Resp Err : Type} (svc : Service W Req Resp Err) (closed : W -> bool) (debug : bool).
  Notation cl := (conc_limit svc closed debug).

  Lemma lift_run A (m : M W A) x x1 o : lift_snd m x = (x1, o) -> fst x1 = fst x /\ m (snd x) = (snd x1, o).
  Proof. unfold lift_snd. destruct (m (snd x)) as [w1 o1]. intros E. injection E as <- <-. auto. Qed.

  (** [g] goes up by [gc] with a call and down by it when the future is dropped. *)
  Definition counts (g : W -> Z) (gc : Z) : Prop :=
    (forall s w w1 x, poll_ready svc s w = (w1, Val x) -> g w1 = g w) /\
    (forall s r w w1 x, call svc s r w = (w1, Val x) -> g w1 = g w + gc) /\
    (forall f w w1 x, poll_fut svc f w = (w1, Val x) -> g w1 = g w) /\
    (forall s w w1 x, clone svc s w = (w1, Val x) -> g w1 = g w) /\
    (forall s w, g (drop_svc svc s w) = g w) /\ (forall f w, g (drop_fut svc f w) = g w - gc).

  Lemma permits_hold max g gc : counts g gc -> 0 <= gc <= 1 -> holds (fun x => in_use max x - g (snd x)) cl has_permit (fun _ => 1 - gc) none.
  Proof.
    intros (G1 & G2 & G3 & G4 & G5 & G6) Hg.
    constructor; cbn [conc_limit poll_ready call poll_fut clone drop_svc drop_fut st fut].
    - intros s [m w] x1 [s1 p] L E. cbv zeta in E. unfold has_permit in *. cbn [fst snd] in *.
      assert (P : forall m0 w0 t b, (z <- lift_snd (poll_ready svc (cl_inner s)) ;; (let '(s1, a) := z in ret (ConcSt svc s1 t b, a))) (m0, w0) = (x1, Val (s1, p)) ->
        in_use max x1 = in_use max (m0, w0) /\ g (snd x1) = g w0 /\ cl_permit s1 = b).
      { clear -G1. intros m0 w0 t b E. apply ran in E as (x2 & [s2 a] & E1 & E2). apply lift_run in E1 as [E1 E3]. cbn [fst snd] in E1, E3.
        cbv beta iota delta [ret] in E2; injection E2 as <- <- <-. unfold in_use. rewrite E1. apply G1 in E3. auto. }
      destruct (cl_permit s) eqn:Ep.
      + apply P in E as (-> & -> & ->). lia.
      + apply ran in E as (x2 & c & E1 & E2). unfold get in E1. injection E1 as <- <-. cbn [snd] in E2. destruct (closed w).
        * destruct debug; [discriminate E2|]. apply P in E2 as (-> & -> & ->). lia.
        * apply ran in E2 as (x2 & m0 & E1 & E2). unfold get in E1. injection E1 as <- <-. cbn [fst] in E2.
          destruct (sem_poll (cl_wait s) m) as [[m1 t1] got] eqn:Eq. apply ran in E2 as (x2 & u & E1 & E2). unfold modify in E1.
          injection E1 as <- _. cbn [snd] in E2. assert (U := @use_poll _ max m w w _ _ _ _ Eq). destruct got.
          -- apply P in E2 as (-> & -> & ->). lia.
          -- cbv beta iota delta [ret] in E2; injection E2 as <- <- _. cbn [cl_permit snd]. lia.
    - intros s r x x1 [s1 f] L E. unfold has_permit in *. cbn [fst snd] in *. destruct (cl_permit s); [|discriminate E].
      apply ran in E as (x2 & [s2 f2] & E1 & E2). apply lift_run in E1 as [E1 E3]. cbv beta iota delta [ret] in E2; injection E2 as <- <- <-.
      apply G2 in E3. unfold in_use. rewrite E1, E3. cbn [cl_permit]. lia.
    - intros f x x1 [f1 p] L E. apply lift_run in E as [E E3]. apply G3 in E3. unfold in_use. rewrite E, E3. unfold in_resp, none. cbn [snd].
      destruct p as [|[v|e]]; lia.
    - intros s x x1 s1 L E. apply ran in E as (x2 & s2 & E1 & E2). apply lift_run in E1 as [E1 E3]. cbv beta iota delta [ret] in E2; injection E2 as <- <-.
      apply G4 in E3. unfold in_use. rewrite E1, E3. unfold has_permit. cbn [cl_permit]. lia.
    - intros s [m w] L. unfold has_permit in *. cbn [fst snd] in *. rewrite G5. destruct (cl_permit s).
      + rewrite (@use_release _ max _ _ w), (@use_forget _ max _ _ w). lia.
      + rewrite (@use_forget _ max _ _ w). lia.
    - intros f [m w] L. cbn [fst snd] in *. rewrite G6, (@use_release _ max _ _ w). lia.
    - intros s. unfold has_permit. destruct (cl_permit s); lia.
    - intros f. lia.
    - intros v. unfold none. lia.
  Qed.

  Lemma tickets_hold t : (forall w, closed w = false) -> holds (enrolled t) cl (has_ticket t) none none.
  Proof.
    intros Hc. constructor; cbn [conc_limit poll_ready call poll_fut clone drop_svc drop_fut st fut].
    - intros s [m w] x1 [s1 p] L E. cbv zeta in E. change (has_ticket t s) with (tick t (cl_wait s)) in *. cbn [fst snd] in *.
      change (has_ticket t s1) with (tick t (cl_wait s1)) in *.
      assert (P : forall m0 w0 t0 b, (z <- lift_snd (poll_ready svc (cl_inner s)) ;; (let '(s1, a) := z in ret (ConcSt svc s1 t0 b, a))) (m0, w0) = (x1, Val (s1, p)) ->
        enrolled t x1 = enrolled t (m0, w0) /\ cl_wait s1 = t0).
      { clear. intros m0 w0 t0 b E. apply ran in E as (x2 & [s2 a] & E1 & E2). apply lift_run in E1 as [E1 _]. cbn [fst] in E1.
        cbv beta iota delta [ret] in E2; injection E2 as <- <- <-. unfold enrolled. rewrite E1. auto. }
      destruct (cl_permit s) eqn:Ep.
      + apply P in E as [-> ->]. lia.
      + apply ran in E as (x2 & c & E1 & E2). unfold get in E1. injection E1 as <- <-. cbn [snd] in E2. rewrite Hc in E2.
        apply ran in E2 as (x2 & m0 & E1 & E2). unfold get in E1. injection E1 as <- <-. cbn [fst] in E2.
        destruct (sem_poll (cl_wait s) m) as [[m1 t1] got] eqn:Eq. apply ran in E2 as (x2 & u & E1 & E2). unfold modify in E1.
        injection E1 as <- _. cbn [snd] in E2. assert (U := @enr_poll _ m w w _ t _ _ _ Eq L). destruct got.
        * apply P in E2 as [-> ->]. lia.
        * cbv beta iota delta [ret] in E2; injection E2 as <- <- _. cbn [cl_wait]. lia.
    - intros s r x x1 [s1 f] L E. cbn [fst snd] in *. destruct (cl_permit s); [|discriminate E].
      apply ran in E as (x2 & [s2 f2] & E1 & E2). apply lift_run in E1 as [E1 _]. cbv beta iota delta [ret] in E2; injection E2 as <- <- <-.
      unfold enrolled, none. rewrite E1. unfold has_ticket. cbn [cl_wait]. lia.
    - intros f x x1 [f1 p] L E. apply lift_run in E as [E _]. unfold enrolled. rewrite E. unfold none, in_resp. cbn [snd].
      destruct p as [|[v|e]]; lia.
    - intros s x x1 s1 L E. apply ran in E as (x2 & s2 & E1 & E2). apply lift_run in E1 as [E1 _]. cbv beta iota delta [ret] in E2; injection E2 as <- <-.
      unfold enrolled. rewrite E1. unfold has_ticket. cbn [cl_wait]. lia.
    - intros s [m w] L. change (has_ticket t s) with (tick t (cl_wait s)) in *. cbn [fst snd]. destruct (cl_permit s).
      + rewrite (@enr_release _ _ _ w). apply enr_forget, L.
      + apply enr_forget, L.
    - intros f [m w] L. cbn [fst snd]. unfold none. rewrite (@enr_release _ _ _ w). lia.
    - intros s. unfold has_ticket. destruct (cl_wait s); [destruct (Nat.eq_dec n t)|]; lia.
    - intros f. unfold none. lia.
    - intros v. unfold none. lia.
  Qed.
End Limit.

Lemma holds_live W Req Resp Err (l l' : W -> Z) (svc : Service W Req Resp Err) osv own orp : (forall w, l w = l' w) ->
  holds l svc osv own orp -> holds l' svc osv own orp.
Proof.
  intros E H. assert (B : forall A b (m : M W A) o, bal l b m o -> bal l' b m o).
  { intros A b m o X w w1 a. rewrite <- !E. apply X. }
  assert (G : forall n g, gone l n g -> gone l' n g) by (intros n g X w; rewrite <- !E; apply X).
  destruct H. constructor; auto.
Qed.
Theorem permits_kept W Req Resp Err (svc : Service W Req Resp Err) closed debug max :
  kept (in_use max) (conc_limit svc closed debug) has_permit one none.
Proof.
  apply kp_base. change (@one (fut (conc_limit svc closed debug))) with (fun _ : fut (conc_limit svc closed debug) => 1 - 0).
  apply (@holds_live _ _ _ _ (fun x => in_use max x - 0)); [intros x; lia |].
  apply (@permits_hold _ _ _ _ svc closed debug max (fun _ => 0) 0); [|lia].
  repeat split; reflexivity.
Qed.
Theorem tickets_kept W Req Resp Err (svc : Service W Req Resp Err) closed debug t : (forall w, closed w = false) ->
  kept (enrolled t) (conc_limit svc closed debug) (has_ticket t) none none.
Proof. intros H. apply kp_base, tickets_hold, H. Qed.
Theorem reserved_kept W Req Resp Err (svc : Service W Req Resp Err) closed debug max :
  kept (reserved max) (conc_limit (in_the_air svc) closed debug) has_permit none none.
Proof.
  apply kp_base. change (@none (fut (conc_limit (in_the_air svc) closed debug))) with (fun _ : fut (conc_limit (in_the_air svc) closed debug) => 1 - 1).
  apply (@permits_hold _ _ _ _ (in_the_air svc) closed debug max fst 1); [|lia].
  assert (L : forall A (m : M W A) x x1 o, lift_z m x = (x1, o) -> fst x1 = fst x).
  { intros A m x x1 o. unfold lift_z. destruct (m (snd x)). intros E. injection E as <- _. reflexivity. }
  repeat split; cbn [in_the_air poll_ready call poll_fut clone drop_svc drop_fut]; intros; eauto.
  apply ran in H as (x2 & a & E1 & E2). apply L in E1. apply ran in E2 as (x3 & u & E2 & E3). unfold modify in E2. injection E2 as <- _.
  injection E3 as <- _. cbn. lia.
Qed.

(** ** Programs *)
Section Programs.
  Context {W Req Resp Err : Type} {top : Service (sem * W) Req Resp Err} {osv : st top -> Z} {own : fut top -> Z}.

  Lemma spares_use (ops : list (@uop (sem * W) Req)) max : env_spares_limit ops -> env_same_z (in_use max) ops.
  Proof.
    unfold env_spares_limit, env_same_z. intros H. eapply Forall_impl; [|exact H]. intros [] E; auto.
    intros x. unfold in_use. rewrite E. reflexivity.
  Qed.
  Lemma spares_enr (ops : list (@uop (sem * W) Req)) t : env_spares_limit ops -> env_same_z (enrolled t) ops.
  Proof.
    unfold env_spares_limit, env_same_z. intros H. eapply Forall_impl; [|exact H]. intros [] E; auto.
    intros x. unfold enrolled. rewrite E. reflexivity.
  Qed.
  Lemma holding_nonneg (live : sem * W -> Z) (y : prog top) : kept live top osv own none -> 0 <= holding_in osv own y.
  Proof.
    intros HK. apply kept_holds in HK. unfold holding_in.
    assert (A := osum_nonneg (oopt osv) (u_svcs y) (fun x => oopt_nonneg osv x (ho_svc0 HK))).
    assert (B := osum_nonneg (oopt own) (u_futs y) (fun x => oopt_nonneg own x (ho_fut0 HK))). lia.
  Qed.

  Theorem permits_run max : kept (in_use max) top osv own none ->
    forall w insts ops, osum osv insts = 0 -> calm (ustart top (sem_new max, w) insts) ops -> env_spares_limit ops ->
    let y := urun (ustart top (sem_new max, w) insts) ops in
    in_use max (u_world y) = holding_in osv own y /\ 0 <= in_use max (u_world y) <= Z.of_nat max.
  Proof.
    intros HK w insts ops HI Hc He y. assert (U0 : in_use max (sem_new max, w) = 0) by (unfold in_use; cbn; lia).
    assert (E := @kept_run _ _ _ _ _ top osv own HK (sem_new max, w) insts ops ltac:(lia) Hc (spares_use max He)).
    cbv zeta in E. fold y in E. assert (N := holding_nonneg y HK). split; [lia|]. unfold in_use in *. lia.
  Qed.

  Theorem permits_back max (osvt : nat -> st top -> Z) (ownt : nat -> fut top -> Z) :
    kept (in_use max) top osv own none -> (forall t, kept (enrolled t) top (osvt t) (ownt t) none) ->
    forall w insts ops, osum osv insts = 0 -> (forall t, osum (osvt t) insts = 0) ->
    calm (ustart top (sem_new max, w) insts) ops -> env_spares_limit ops ->
    let y := urun (ustart top (sem_new max, w) insts) ops in
    (forall i, held_at (u_svcs y) i = None) -> (forall j, held_at (u_futs y) j = None) ->
    sem_avail (fst (u_world y)) = max /\ sem_queue (fst (u_world y)) = [] /\ sem_granted (fst (u_world y)) = [].
  Proof.
    intros HK HT w insts ops HI HIt Hc He y HS HF. assert (U0 : in_use max (sem_new max, w) = 0) by (unfold in_use; cbn; lia).
    assert (E := @kept_released _ _ _ _ _ top osv own HK (sem_new max, w) insts ops ltac:(lia) Hc (spares_use max He) HS HF). fold y in E.
    assert (T : sem_queue (fst (u_world y)) ++ sem_granted (fst (u_world y)) = []).
    { destruct (sem_queue (fst (u_world y)) ++ sem_granted (fst (u_world y))) as [|t l] eqn:El; [reflexivity|exfalso].
      assert (T0 : enrolled t (sem_new max, w) = 0) by reflexivity.
      assert (X := @kept_released _ _ _ _ _ top (osvt t) (ownt t) (HT t) (sem_new max, w) insts ops ltac:(rewrite HIt; lia) Hc (spares_enr t He) HS HF).
      fold y in X. unfold enrolled in X at 1. rewrite El in X. cbn [count_occ] in X. destruct (Nat.eq_dec t t); [|congruence].
      rewrite HIt in X. lia. }
    apply app_eq_nil in T as [T1 T2]. split; [|auto]. unfold in_use in E, U0. rewrite T2 in E. cbn [length] in E. lia.
  Qed.
End Programs.
Theorem permits_flight W Req Resp Err (top : Service (sem * (Z * W)) Req Resp Err) osv own max : kept (reserved max) top osv own none ->
  forall w insts ops, osum osv insts = 0 -> calm (ustart top (sem_new max, (0, w)) insts) ops -> env_same_z (reserved max) ops ->
  let y := urun (ustart top (sem_new max, (0, w)) insts) ops in
  fst (snd (u_world y)) + holding_in osv own y = in_use max (u_world y) /\ fst (snd (u_world y)) <= Z.of_nat max.
Proof.
  intros HK w insts ops HI Hc He y. assert (U0 : reserved max (sem_new max, (0, w)) = 0) by (unfold reserved, in_use; cbn; lia).
  assert (E := @kept_run _ _ _ _ _ top osv own HK (sem_new max, (0, w)) insts ops ltac:(lia) Hc He).
  cbv zeta in E. fold y in E. assert (N := holding_nonneg y HK). unfold reserved in *. unfold in_use in *. lia.
Qed.

(** ** Retry *)
Section Retry.
  Context {W Req Resp Err : Type} (svc : Service W Req Resp Err) (closed : W -> bool) (debug : bool).
  Notation cl := (conc_limit svc closed debug).
  Context (pol : Policy (sem * W) Req Resp Err) (fuel : nat).

  Definition calm_fut (f : retry_fut pol cl) : Prop :=
    match rf_state f with RRetrying => True | _ => cl_permit (svc := svc) (rf_svc f) = false end.
  Lemma call_takes (s : conc_st svc) r x x1 s1 f : call cl s r x = (x1, Val (s1, f)) -> cl_permit (svc := svc) s1 = false.
  Proof.
    cbn [conc_limit call]. destruct (cl_permit s); [|discriminate]. intros E. apply ran in E as (x2 & [s2 f2] & E1 & E2).
    cbv beta iota delta [ret] in E2. injection E2 as _ <- _. reflexivity.
  Qed.
  Lemma iter_calm f x x1 y : calm_fut f -> retry_iter f x = (x1, Val y) -> calm_fut (match y with inl f1 => f1 | inr (f1, _) => f1 end).
  Proof.
    unfold calm_fut, retry_iter. intros H E. destruct (rf_state f) as [g|t|] eqn:Es.
    - apply ran in E as (x2 & [g1 p] & E1 & E2). destruct p as [|r].
      + injection E2 as _ <-. exact H.
      + destruct (rf_req f) as [q|].
        * apply ran in E2 as (x3 & [[[p1 q1] r1] dec] & E2 & E3). destruct dec as [t|].
          -- apply ran in E3 as (x4 & u & E3 & E4). injection E4 as _ <-. exact H.
          -- injection E3 as _ <-. exact H.
        * injection E2 as _ <-. exact H.
    - apply ran in E as (x2 & [t1 p] & E1 & E2). destruct p as [|r].
      + injection E2 as _ <-. exact H.
      + apply ran in E2 as (x3 & u & E2 & E3). injection E3 as _ <-. exact I.
    - apply ran in E as (x2 & [s1 p] & E1 & E2). destruct p as [|[u|e]].
      + injection E2 as _ <-. exact I.
      + destruct (rf_req f) as [q|]; [|discriminate E2].
        apply ran in E2 as (x3 & [p1 sv] & E2 & E3). apply ran in E3 as (x4 & [s2 g] & E3 & E4). injection E4 as _ <-.
        cbn [rf_state rf_svc]. eapply call_takes, E3.
      + injection E2 as _ <-. exact I.
  Qed.
  Lemma poll_calm n : forall f x x1 f1 p, calm_fut f -> retry_poll n f x = (x1, Val (f1, p)) -> calm_fut f1.
  Proof.
    induction n as [|n IH]; cbn [retry_poll]; intros f x x1 f1 p H E; [discriminate|].
    apply ran in E as (x2 & [f2|[f2 p2]] & E1 & E2); apply (iter_calm _ _ H) in E1.
    - eapply IH; eassumption.
    - injection E2 as _ <- _. exact E1.
  Qed.
  Lemma retrying_calm f : retrying fuel f -> calm_fut f.
  Proof.
    induction 1 as [s r w w1 s1 f E|f w w1 f1 p H IH E].
    - cbn [retry call] in E. apply ran in E as (x2 & [p1 sv] & _ & E). apply ran in E as (x3 & [s2 g] & _ & E).
      apply ran in E as (x4 & p2 & _ & E). apply ran in E as (x5 & s3 & Ec & E). injection E as _ _ <-.
      unfold calm_fut. cbn [rf_state rf_svc]. cbn [conc_limit clone] in Ec. apply ran in Ec as (x6 & s4 & _ & Ec). injection Ec as _ <-. reflexivity.
    - eapply poll_calm; [exact IH | exact E].
  Qed.
  Theorem retry_permits (f : retry_fut pol cl) : retrying fuel f ->
    0 <= oretry (svc := cl) has_permit one f <= 1 /\ (backing_off f = true -> oretry (svc := cl) has_permit one f = 0).
  Proof.
    intros H. apply retrying_calm in H. unfold calm_fut, oretry, backing_off, has_permit, one in *.
    change (st cl) with (conc_st svc) in *. destruct (rf_state f); try rewrite H; [split; [lia|discriminate] | split; [lia|auto] |].
    split; [|discriminate]. destruct (cl_permit _); lia.
  Qed.
End Retry.
