(** Proofs for C63. *)
From Verif Require Import Base Middleware Limits Tps TpsSpec TpsProof TpsTop TpsLong StormSpec.
Set Implicit Arguments.
Local Open Scope Z_scope.

(** *** Runs of the budget, one more operation. *)
Fixpoint tend (c : tps_cfg) (b : tps) (ops : list (Z * tps_op)) : option tps :=
  match ops with
  | [] => Some b
  | (t, Deposit) :: ops' => match deposit c t b with Val b1 => tend c b1 ops' | _ => None end
  | (t, Withdraw) :: ops' => match withdraw c t b with Val (b1, _) => tend c b1 ops' | _ => None end
  end.
Lemma tend_app c ops2 : forall ops b b1, tend c b ops = Some b1 ->
  tend c b (ops ++ ops2) = tend c b1 ops2 /\ tps_run c b (ops ++ ops2) = tps_run c b ops ++ tps_run c b1 ops2 /\
  length (tps_run c b ops) = length ops.
Proof.
  induction ops as [|[t o] ops IH]; intros b b1 H; cbn [tend tps_run app] in *.
  - injection H as <-. auto.
  - destruct o.
    + destruct (deposit c t b) as [b2| |]; try discriminate. destruct (IH _ _ H) as (A & B & C).
      cbn [app length]. rewrite A, B, C. auto.
    + destruct (withdraw c t b) as [[b2 a]| |]; try discriminate. destruct (IH _ _ H) as (A & B & C).
      cbn [app length]. rewrite A, B, C. auto.
Qed.
Lemma history_app ops2 ans2 : forall ops ans, length ans = length ops ->
  history (ops ++ ops2) (ans ++ ans2) = history ops2 ans2 ++ history ops ans.
Proof.
  induction ops as [|[t o] ops IH]; intros [|a ans] H; try discriminate H; cbn [app history].
  - rewrite app_nil_r. reflexivity.
  - injection H as H. rewrite (IH _ H), app_assoc. reflexivity.
Qed.
Lemma in_order_snoc ops t o : forall t0, in_order t0 ops -> t0 <= t -> (forall u p, In (u, p) ops -> u <= t) ->
  in_order t0 (ops ++ [(t, o)]).
Proof.
  induction ops as [|[u p] ops IH]; intros t0 H Ht L; cbn [app in_order]; [auto|]. destruct H as [H1 H2].
  split; [exact H1|]. apply IH; [exact H2|exact (L u p (or_introl eq_refl))|]. intros v q Hv. exact (L v q (or_intror Hv)).
Qed.

Section StormProof.
  Context {W Req Resp Err : Type} (svc : Service W Req Resp Err) (clock : W -> Z) (cfg : tps_cfg).
  Context (again : result Resp Err -> bool) (T : Task W unit) (delay : result Resp Err -> M W (tst T))
    (copy : Req -> M W (option Req)) (fuel : nat).
  Hypothesis F : forward_svc svc clock T delay copy.
  Variable t0 : Z.
  Notation bw := (@bw W).
  Notation cs := (counted svc again).
  Notation bp := (budget_policy clock cfg again T delay copy).
  Notation rs := (retry bp cs fuel).

  Definition hist (b : bw) : list entry := history (bw_ops b) (tps_run cfg (tps_start t0) (bw_ops b)).
  Record E (b : bw) (n1 n2 : Z) : Prop := {
    e_end : tend cfg (tps_start t0) (bw_ops b) = Some (bw_tps b);
    e_ord : in_order t0 (bw_ops b);
    e_past : forall t o, In (t, o) (bw_ops b) -> t <= clock (bw_w b);
    e_t0 : t0 <= clock (bw_w b);
    e_good : n1 <= Z.of_nat (bw_good b) - deps (hist b);
    e_att : n2 <= wds (hist b) - Z.of_nat (bw_att b);
    e_deps : deposits (bw_ops b) = deps (hist b) }.
  Lemma E_weak b n1 n2 m1 m2 : E b n1 n2 -> m1 <= n1 -> m2 <= n2 -> E b m1 m2.
  Proof. intros [A B C D X Y Z0] H1 H2. split; try assumption; lia. Qed.
  Definition ok {A} (d1 d2 : Z) (m : M bw A) (k1 k2 : A -> Z) : Prop :=
    forall b n1 n2, E b (n1 + d1) (n2 + d2) ->
    match m b with (b1, Val a) => E b1 (n1 + k1 a) (n2 + k2 a) | (b1, _) => E b1 n1 n2 end.
  Definition c0 {A} : A -> Z := fun _ => 0.

  Lemma ok_ret A (a : A) k1 k2 : ok (k1 a) (k2 a) (ret a) k1 k2.
  Proof. intros b n1 n2 H. exact H. Qed.
  Lemma ok_bind A B d1 d2 (m : M bw A) (f : A -> M bw B) k1 k2 l1 l2 :
    ok d1 d2 m k1 k2 -> (forall a, ok (k1 a) (k2 a) (f a) l1 l2) -> ok d1 d2 (bind m f) l1 l2.
  Proof.
    intros Hm Hf b n1 n2 H. specialize (Hm b n1 n2 H). unfold bind. destruct (m b) as [b1 [a| |]]; [|exact Hm|exact Hm].
    exact (Hf a b1 n1 n2 Hm).
  Qed.
  Lemma ok_weak A d1 d2 (m : M bw A) k1 k2 : ok d1 d2 m k1 k2 -> forall e1 e2 l1 l2, d1 <= e1 -> d2 <= e2 ->
    (forall a, l1 a <= k1 a) -> (forall a, l2 a <= k2 a) -> ok e1 e2 m l1 l2.
  Proof.
    intros Hm e1 e2 l1 l2 H1 H2 H3 H4 b n1 n2 H.
    specialize (Hm b n1 n2). assert (H' : E b (n1 + d1) (n2 + d2)) by (apply (E_weak H); lia). specialize (Hm H').
    destruct (m b) as [b1 [a| |]]; [|exact Hm|exact Hm].
    apply (E_weak Hm); [specialize (H3 a)|specialize (H4 a)]; lia.
  Qed.
  (** what is not needed stays *)
  Lemma ok_frame A d1 d2 (m : M bw A) k1 k2 : ok d1 d2 m k1 k2 -> forall x1 x2, 0 <= x1 -> 0 <= x2 ->
    ok (d1 + x1) (d2 + x2) m (fun a => k1 a + x1) (fun a => k2 a + x2).
  Proof.
    intros Hm x1 x2 P1 P2 b n1 n2 H.
    specialize (Hm b (n1 + x1) (n2 + x2)). assert (H' : E b (n1 + x1 + d1) (n2 + x2 + d2)) by (apply (E_weak H); lia). specialize (Hm H').
    destruct (m b) as [b1 [a| |]]; apply (E_weak Hm); lia.
  Qed.
  Lemma E_w b w1 n1 n2 : E b n1 n2 -> clock (bw_w b) <= clock w1 ->
    E (BW (bw_tps b) (bw_ops b) (bw_att b) (bw_good b) w1) n1 n2.
  Proof.
    intros [A B C D X Y Z0] H. split; cbn [bw_ops bw_tps bw_w bw_good bw_att]; try assumption; try lia.
    intros t o Ht. specialize (C t o Ht). lia.
  Qed.
  Lemma ok_in_w A (m : M W A) : forward clock m -> ok 0 0 (in_w m) c0 c0.
  Proof.
    intros Hm b n1 n2 H. specialize (Hm (bw_w b)). unfold in_w. destruct (m (bw_w b)) as [w1 o]. cbn [fst] in Hm.
    pose proof (@E_w b w1 _ _ H Hm) as H1.
    destruct o as [a| |]; apply (E_weak H1); unfold c0; lia.
  Qed.
  Lemma ok_mod (g : bw -> bw) (h : W -> W) : onward clock h ->
    (forall b, g b = BW (bw_tps b) (bw_ops b) (bw_att b) (bw_good b) (h (bw_w b))) -> ok 0 0 (modify g) c0 c0.
  Proof.
    intros Hh Hg b n1 n2 H. unfold modify. rewrite Hg. apply E_w; [|apply Hh]. exact H.
  Qed.

  (** the budget *)
  Lemma ok_deposit : ok 1 0 (do_deposit clock cfg) c0 c0.
  Proof.
    intros b n1 n2 [A B C D X Y Z0]. unfold do_deposit.
    pose proof (@tend_app cfg [(clock (bw_w b), Deposit)] (bw_ops b) (tps_start t0) _ A) as (P & Q & R).
    cbn [tend tps_run] in P, Q.
    destruct (deposit cfg (clock (bw_w b)) (bw_tps b)) as [x| |] eqn:Ed;
      try (split; try assumption; lia).
    assert (Hh : hist (BW x (bw_ops b ++ [(clock (bw_w b), Deposit)]) (bw_att b) (bw_good b) (bw_w b)) = EDep (clock (bw_w b)) :: hist b).
    { unfold hist. cbn [bw_ops]. rewrite Q, (history_app _ _ _ _ R). reflexivity. }
    split; rewrite ?Hh; cbn [bw_ops bw_tps bw_w bw_good bw_att deps wds]; unfold c0; try assumption; try lia.
    - apply in_order_snoc; assumption.
    - intros t o Ht. apply in_app_or in Ht as [Ht|[Ht|[]]]; [exact (C t o Ht)|injection Ht as <- <-; lia].
    - clear - Z0. revert Z0. generalize (deps (hist b)). induction (bw_ops b) as [|[u [|]] l IH]; intros z Hz; cbn [app deposits] in *; [lia| |].
      + specialize (IH (z - 1) ltac:(lia)). lia.
      + apply IH. exact Hz.
  Qed.
  Lemma ok_withdraw : ok 0 0 (do_withdraw clock cfg) c0 (fun a => if a then 1 else 0).
  Proof.
    intros b n1 n2 [A B C D X Y Z0]. unfold do_withdraw.
    pose proof (@tend_app cfg [(clock (bw_w b), Withdraw)] (bw_ops b) (tps_start t0) _ A) as (P & Q & R).
    cbn [tend tps_run] in P, Q.
    destruct (withdraw cfg (clock (bw_w b)) (bw_tps b)) as [[x a]| |] eqn:Ed;
      try (split; try assumption; lia).
    assert (Hh : hist (BW x (bw_ops b ++ [(clock (bw_w b), Withdraw)]) (bw_att b) (bw_good b) (bw_w b)) =
      (if a then [EWd (clock (bw_w b))] else []) ++ hist b).
    { unfold hist. cbn [bw_ops]. rewrite Q, (history_app _ _ _ _ R). destruct a; reflexivity. }
    assert (Hd : deps ((if a then [EWd (clock (bw_w b))] else []) ++ hist b) = deps (hist b)) by (destruct a; reflexivity).
    assert (Hx : wds ((if a then [EWd (clock (bw_w b))] else []) ++ hist b) = (if a then 1 else 0) + wds (hist b)) by (destruct a; reflexivity).
    split; rewrite ?Hh, ?Hd, ?Hx; cbn [bw_ops bw_tps bw_w bw_good bw_att]; unfold c0; try assumption; try lia.
    - apply in_order_snoc; assumption.
    - intros t o Ht. apply in_app_or in Ht as [Ht|[Ht|[]]]; [exact (C t o Ht)|injection Ht as <- <-; lia].
    - rewrite <- Z0. clear. induction (bw_ops b) as [|[u [|]] l IH]; cbn [app deposits] in *; lia.
  Qed.

  (** the wrapped service and the policy *)
  Lemma ok_call s r : ok 0 1 (call cs s r) c0 c0.
  Proof.
    intros b n1 n2 H.
    pose proof (@ok_in_w _ _ (fw_call F s r) (BW (bw_tps b) (bw_ops b) (S (bw_att b)) (bw_good b) (bw_w b)) n1 n2) as K.
    apply K. destruct H as [A B C D X Y Z0]. split; cbn [bw_ops bw_tps bw_w bw_good bw_att]; try assumption.
    change (hist (BW (bw_tps b) (bw_ops b) (S (bw_att b)) (bw_good b) (bw_w b))) with (hist b). lia.
  Qed.
  Definition gain (x : fut cs * poll (result Resp Err)) : Z :=
    match snd x with Ready res => if again res then 0 else 1 | Pending => 0 end.
  Lemma ok_poll f : ok 0 0 (poll_fut cs f) gain c0.
  Proof.
    apply (@ok_bind _ _ 0 0 (in_w (poll_fut svc f)) _ c0 c0); [exact (ok_in_w (fw_poll F f))|].
    intros [f1 p]. intros b n1 n2 H. unfold bind, modify, ret, gain. cbn [snd].
    destruct p as [|res]; [exact H|]. destruct (again res); [exact H|].
    destruct H as [A B C D X Y Z0]. unfold c0 in *. split; cbn [bw_ops bw_tps bw_w bw_good bw_att]; try assumption.
    change (hist (BW (bw_tps b) (bw_ops b) (bw_att b) (S (bw_good b)) (bw_w b))) with (hist b). lia.
  Qed.
  Lemma ok_decide p q res : ok (if again res then 0 else 1) 0 (retry_decide bp p q res) c0
    (fun x => match snd x with Some _ => 1 | None => 0 end).
  Proof.
    cbn [retry_decide budget_policy]. destruct (again res).
    - eapply ok_bind; [exact ok_withdraw|]. intros [|].
      + eapply ok_bind; [exact (ok_frame (ok_in_w (fw_delay F res)) (Z.le_refl 0) (Z.le_0_1))|].
        intros t b n1 n2 H. exact H.
      + intros b n1 n2 H. exact H.
    - eapply ok_bind; [exact ok_deposit|]. intros u b n1 n2 H. exact H.
  Qed.

  (** the retry future *)
  Definition credit (f : fut rs) : Z := match rf_state f with RCalled _ => 0 | RWaiting _ => 1 | RRetrying => 1 end.
  Notation rfut := (retry_fut bp cs).
  Definition icredit (x : rfut + rfut * poll (result Resp Err)) : Z :=
    match x with inl f => credit f | inr (f, _) => credit f end.
  Lemma ok_iter (f : rfut) : ok 0 (credit f) (retry_iter f) c0 icredit.
  Proof.
    unfold retry_iter, credit. destruct (rf_state f) as [x|t|] eqn:Es.
    - eapply ok_bind; [exact (ok_poll x)|]. intros [x1 p]. unfold gain. cbn [snd].
      destruct p as [|res]; [intros b n1 n2 H; exact H|].
      destruct (rf_req f) as [req|].
      + eapply ok_bind; [exact (ok_decide (rf_pol f) req res)|]. intros [[[p1 req1] res1] [t|]]; cbn [snd].
        * eapply ok_bind; [|intros u b n1 n2 H; exact H].
          eapply (ok_frame (@ok_mod _ (drop_fut svc x1) (fw_dropf F x1) (fun b => eq_refl)) (Z.le_refl 0) Z.le_0_1).
        * intros b n1 n2 H; exact H.
      + intros b n1 n2 H. apply (E_weak H); cbn; destruct (again res); unfold c0; lia.
    - eapply ok_bind; [exact (ok_frame (ok_in_w (fw_wait F t)) (Z.le_refl 0) Z.le_0_1)|].
      intros [t1 p]. destruct p as [|u]; [intros b n1 n2 H; exact H|].
      eapply ok_bind; [|intros u1 b n1 n2 H; exact H].
      exact (ok_frame (@ok_mod _ (tdrop T t1) (fw_waitdrop F t1) (fun b => eq_refl)) (Z.le_refl 0) Z.le_0_1).
    - eapply ok_bind; [exact (ok_frame (ok_in_w (fw_ready F (rf_svc f))) (Z.le_refl 0) Z.le_0_1)|].
      intros [s1 p]. destruct p as [|[u|e]]; [intros b n1 n2 H; exact H| |intros b n1 n2 H; exact H].
      destruct (rf_req f) as [req|].
      + apply (@ok_bind _ _ _ _ _ _ (fun _ => 0) (fun _ => 1)).
        * cbn [clone_request budget_policy].
          eapply ok_bind; [exact (ok_frame (ok_in_w (fw_copy F req)) (Z.le_refl 0) Z.le_0_1)|].
          intros o b n1 n2 H. exact H.
        * intros [p1 saved]. eapply ok_bind; [exact (ok_call s1 req)|].
          intros [s2 x] b n1 n2 H. exact H.
      + intros b n1 n2 H. apply (E_weak H); unfold c0; lia.
  Qed.
  Lemma ok_retry_poll n : forall f : rfut, ok 0 (credit f) (retry_poll n f) c0 (fun x => credit (fst x)).
  Proof.
    induction n as [|n IH]; intros f; cbn [retry_poll].
    - intros b n1 n2 H. apply (E_weak H); [lia|]. unfold credit. destruct (rf_state f); lia.
    - eapply ok_bind; [exact (ok_iter f)|]. intros [f1|[f1 p]]; [exact (IH f1)|]. intros b n1 n2 H. exact H.
  Qed.

  Lemma ok_retry_call (s : st rs) r : ok 0 1 (call rs s r) c0 (fun x => credit (snd x)).
  Proof.
    cbn [call retry]. apply (@ok_bind _ _ _ _ _ _ (fun _ => 0) (fun _ => 1)).
    { cbn [clone_request budget_policy]. eapply ok_bind; [exact (ok_frame (ok_in_w (fw_copy F r)) (Z.le_refl 0) Z.le_0_1)|].
      intros o b n1 n2 H. exact H. }
    intros [p1 saved]. eapply ok_bind; [exact (ok_call (snd s) r)|]. intros [s1 x].
    apply (@ok_bind _ _ _ _ _ _ (fun _ => 0) (fun _ => 0)); [intros b n1 n2 H; exact H|]. intros p2.
    eapply ok_bind; [exact (ok_in_w (fw_clone F s1))|]. intros s2 b n1 n2 H. exact H.
  Qed.
  Lemma ok_retry_clone (s : st rs) : ok 0 0 (clone rs s) c0 c0.
  Proof.
    cbn [clone retry]. apply (@ok_bind _ _ _ _ _ _ (fun _ => 0) (fun _ => 0)); [intros b n1 n2 H; exact H|]. intros p2.
    eapply ok_bind; [exact (ok_in_w (fw_clone F (snd s)))|]. intros s2 b n1 n2 H. exact H.
  Qed.
  Lemma ok_retry_ready (s : st rs) : ok 0 0 (poll_ready rs s) c0 c0.
  Proof.
    cbn [poll_ready retry]. eapply ok_bind; [exact (ok_in_w (fw_ready F (snd s)))|]. intros [s1 a] b n1 n2 H. exact H.
  Qed.

  (** *** The system. *)
  Notation gsys := (gsys svc clock cfg again T delay copy fuel).
  Definition ocredit (f : option (fut rs)) : Z := match f with Some f => credit f | None => 0 end.
  Fixpoint credits (l : list (option (fut rs))) : Z := match l with [] => 0 | f :: l' => ocredit f + credits l' end.
  Lemma credits_app a b : credits (a ++ b) = credits a + credits b.
  Proof. induction a as [|x a IH]; cbn [app credits]; lia. Qed.
  Lemma credits_set : forall l j f f1, nth_error l j = Some f -> credits (set_nth j f1 l) = credits l - ocredit f + ocredit f1.
  Proof.
    induction l as [|x l IH]; intros [|j] f f1 H; cbn [nth_error set_nth credits] in *; try discriminate.
    - injection H as ->. lia.
    - rewrite (IH _ _ f1 H). lia.
  Qed.
  Lemma credit_pos f : 0 <= credit f.
  Proof. unfold credit. destruct (rf_state f); lia. Qed.
  Lemma credits_pos l : 0 <= credits l.
  Proof. induction l as [|[f|] l IH]; cbn [credits ocredit]; [lia| |lia]. pose proof (credit_pos f). lia. Qed.

  Definition G (y : gsys) (n : nat) : Prop := E (g_b y) 0 (credits (g_futs y) - Z.of_nat n).
  Lemma step_G o y n : G y n -> forward_ops clock [o] -> G (gstep o y) (n + requests [o]).
  Proof.
    intros H Ho. unfold G in *. destruct o as [i|i r|i|i|j|j|g]; cbn [gstep requests]; rewrite ?Nat.add_0_r.
    - destruct (nth_error (g_insts y) i) as [[s|]|]; try exact H.
      pose proof (@ok_retry_ready s (g_b y) 0 (credits (g_futs y) - Z.of_nat n)) as K.
      rewrite !Z.add_0_r in K. specialize (K H). destruct (poll_ready rs s (g_b y)) as [b1 [[s1 a]| |]]; cbn [g_futs g_b];
        apply (E_weak K); unfold c0; lia.
    - destruct (nth_error (g_insts y) i) as [[s|]|]; try (apply (E_weak H); lia).
      pose proof (@ok_retry_call s r (g_b y) 0 (credits (g_futs y) - Z.of_nat n - 1)) as K.
      rewrite Z.add_0_r, Z.sub_add in K. specialize (K H).
      destruct (call rs s r (g_b y)) as [b1 [[s1 f]| |]]; cbn [g_futs g_b snd] in *; rewrite ?credits_app; cbn [credits ocredit];
        apply (E_weak K); unfold c0; lia.
    - destruct (nth_error (g_insts y) i) as [[s|]|]; try exact H.
      pose proof (@ok_retry_clone s (g_b y) 0 (credits (g_futs y) - Z.of_nat n)) as K.
      rewrite !Z.add_0_r in K. specialize (K H). destruct (clone rs s (g_b y)) as [b1 [s1| |]]; cbn [g_futs g_b];
        apply (E_weak K); unfold c0; lia.
    - destruct (nth_error (g_insts y) i) as [[s|]|]; try exact H.
      cbn [g_futs g_b]. exact (@E_w (g_b y) (drop_svc svc (snd s) (bw_w (g_b y))) _ _ H (fw_drop F (snd s) _)).
    - destruct (nth_error (g_futs y) j) as [[f|]|] eqn:Ef; try exact H.
      pose proof (@ok_retry_poll fuel f (g_b y) 0 (credits (g_futs y) - Z.of_nat n - credit f)) as K.
      rewrite Z.add_0_r, Z.sub_add in K. specialize (K H).
      cbn [poll_fut retry].
      destruct (retry_poll fuel f (g_b y)) as [b1 [[f1 p]| |]]; cbn [g_futs g_b fst] in *;
        rewrite (credits_set _ _ _ Ef); cbn [ocredit]; apply (E_weak K); unfold c0; lia.
    - destruct (nth_error (g_futs y) j) as [[f|]|] eqn:Ef; try exact H.
      cbn [g_futs g_b]. rewrite (credits_set _ _ _ Ef). cbn [ocredit drop_fut retry].
      pose proof (credit_pos f) as P.
      assert (K := @E_w (g_b y) (drop_svc svc (rf_svc f) (bw_w (g_b y))) _ _ H (fw_drop F (rf_svc f) _)).
      destruct (rf_state f) as [x|t|].
      + apply (@E_weak _ 0 (credits (g_futs y) - Z.of_nat n)); [|lia|lia].
        exact (@E_w _ (drop_fut svc x (drop_svc svc (rf_svc f) (bw_w (g_b y)))) _ _ K (fw_dropf F x _)).
      + apply (@E_weak _ 0 (credits (g_futs y) - Z.of_nat n)); [|lia|lia].
        exact (@E_w _ (tdrop T t (drop_svc svc (rf_svc f) (bw_w (g_b y)))) _ _ K (fw_waitdrop F t _)).
      + apply (@E_weak _ 0 (credits (g_futs y) - Z.of_nat n)); [|lia|lia].
        exact K.
    - cbn [g_futs g_b]. apply E_w; [exact H|]. inversion Ho as [|? ? Hg ?]; subst. exact (Hg _).
  Qed.
  Lemma requests_cons (o : @gop W Req) l : requests (o :: l) = (requests [o] + requests l)%nat.
  Proof. destruct o; reflexivity. Qed.
  Lemma run_G l : forall y n, G y n -> forward_ops clock l -> G (grun y l) (n + requests l).
  Proof.
    induction l as [|o l IH]; intros y n H Ho; [cbn; rewrite Nat.add_0_r; exact H|].
    inversion Ho as [|? ? H1 H2]; subst. rewrite requests_cons, Nat.add_assoc. cbn [grun fold_left].
    apply IH; [|exact H2]. apply step_G; [exact H|]. constructor; [exact H1|constructor].
  Qed.
End StormProof.

Section StormTop.
  Context {W Req Resp Err : Type}.
  Lemma storm (svc : Service W Req Resp Err) (clock : W -> Z) (cfg : tps_cfg) (again : result Resp Err -> bool)
    (T : Task W unit) (delay : result Resp Err -> M W (tst T)) (copy : Req -> M W (option Req)) (fuel : nat) s w l :
    forward_svc svc clock T delay copy -> forward_ops clock l -> sane cfg ->
    let b := g_b (grun (gsys0 svc clock cfg again T delay copy fuel s w) l) in
    let grants := wds (history (bw_ops b) (tps_run cfg (tps_start (clock w)) (bw_ops b))) in
    Z.of_nat (bw_att b) <= Z.of_nat (requests l) + grants /\
    (t_reserve cfg + t_deposit cfg * Z.of_nat (bw_good b) <= isize_max ->
     t_withdraw cfg * (Z.of_nat (bw_att b) - Z.of_nat (requests l)) <=
     ((clock (bw_w b) - clock w) / (5 * t_window cfg) + 1) * t_reserve cfg + 3 * t_deposit cfg * Z.of_nat (bw_good b)).
  Proof.
    intros F Fo S b grants.
    assert (H : G (clock w) (grun (gsys0 svc clock cfg again T delay copy fuel s w) l) (0 + requests l)).
    { apply run_G; [exact F| |exact Fo]. split; cbn; auto; try lia; intros ? ? []. }
    unfold G in H. fold b in H. destruct H as [A B C D X Y Z0]. unfold hist in *. fold grants in Y.
    match type of Y with credits ?l - _ <= _ => pose proof (credits_pos l) as P end.
    split; [lia|]. intros Fit.
    pose proof (sane_deposit S) as S3. pose proof (sane_withdraw S) as S4.
    assert (Ft : fits cfg (bw_ops b)) by (unfold fits; rewrite Z0; nia).
    pose proof (@budget_long_run cfg S (clock w) (clock (bw_w b)) (bw_ops b) B C D Ft) as K. cbv zeta in K. fold grants in K.
    nia.
  Qed.
End StormTop.
