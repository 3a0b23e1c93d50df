(** Proofs for C61. *)
From Verif Require Import Base Util Middleware Limits Hedge CallAll Make Load WakeSpec.
Set Implicit Arguments.

(** [pend K m]: if [m] answers [Pending], [K] holds afterwards. *)
Definition pend {W S A} (K : W -> Prop) (m : M W (S * poll A)) : Prop :=
  forall w w1 s1, m w = (w1, Val (s1, Pending)) -> K w1.

Lemma pend_ret W S A (K : W -> Prop) (s : S) (a : A) : pend K (ret (s, Ready a)).
Proof. intros w w1 s1 H. discriminate. Qed.
Lemma pend_panic W S A (K : W -> Prop) : pend K (panic : M W (S * poll A)).
Proof. intros w w1 s1 H. discriminate. Qed.
Lemma pend_diverge W S A (K : W -> Prop) : pend K (diverge : M W (S * poll A)).
Proof. intros w w1 s1 H. discriminate. Qed.
(** after something that is not a poll: only the rest counts *)
Lemma pend_bind W X S A (K : W -> Prop) (m : M W X) (k : X -> M W (S * poll A)) :
  (forall x, pend K (k x)) -> pend K (bind m k).
Proof.
  intros H w w1 s1. unfold bind. destruct (m w) as [w2 [x| |]]; try discriminate. apply H.
Qed.
(** after a poll: in the [Pending] branch its registration may be relied on *)
Lemma pend_poll W X B S A (K : W -> Prop) (m : M W (X * poll B)) (k : X * poll B -> M W (S * poll A)) :
  pend K m ->
  (forall x w, K w -> forall w1 s1, k (x, Pending) w = (w1, Val (s1, Pending)) -> K w1) ->
  (forall x b, pend K (k (x, Ready b))) ->
  pend K (bind m k).
Proof.
  intros Hm Hp Hr w w1 s1. unfold bind. destruct (m w) as [w2 [[x [|b]]| |]] eqn:E; try discriminate.
  - apply Hp. eapply Hm; eauto.
  - apply Hr.
Qed.
Lemma pend_here W S A (K : W -> Prop) (s : S) w :
  K w -> forall w1 s1, ret (s, @Pending A) w = (w1, Val (s1, Pending)) -> K w1.
Proof. intros H w1 s1 E. injection E as <- _. exact H. Qed.

Lemma pend_map W X B S A (K : W -> Prop) (m : M W (X * poll B)) (g : X -> S) (h : B -> A) :
  pend K m -> pend K ('(x, a) <- m ;; ret (g x, poll_map h a)).
Proof.
  intros H. apply pend_poll; auto.
  - intros x w Hk. apply pend_here, Hk.
  - intros x b. apply pend_ret.
Qed.
Lemma pend_same W X S A (K : W -> Prop) (m : M W (X * poll A)) (g : X -> S) :
  pend K m -> pend K ('(x, a) <- m ;; ret (g x, a)).
Proof.
  intros H. apply pend_poll; auto.
  - intros x w Hk. apply pend_here, Hk.
  - intros x b. apply pend_ret.
Qed.

Lemma pend_map_poll W A B F (K : W -> Prop) (fp : F -> M W (F * poll A)) fd (h : A -> M W B) f :
  (forall x, pend K (fp x)) -> pend K (map_poll fp fd h f).
Proof.
  intros H. destruct f as [f|]; [|apply pend_panic]. cbn. apply pend_poll; auto.
  - intros x w Hk. apply pend_here, Hk.
  - intros x b. apply pend_bind. intros _. apply pend_bind. intros y. apply pend_ret.
Qed.

Section Cases.
  Context {W : Type} (K : W -> Prop).
  Context {Req Resp Err : Type} (svc : Service W Req Resp Err).
  Hypothesis H : svc_wakes K svc.

  Lemma HR s : pend K (poll_ready svc s).
  Proof. intros w w1 s1 E. exact (proj1 H _ _ _ _ E). Qed.
  Lemma HF f : pend K (poll_fut svc f).
  Proof. intros w w1 s1 E. exact (proj2 H _ _ _ _ E). Qed.
End Cases.

Lemma svc_wakes_intro W (K : W -> Prop) Req Resp Err (svc : Service W Req Resp Err) :
  (forall s, pend K (poll_ready svc s)) -> (forall f, pend K (poll_fut svc f)) -> svc_wakes K svc.
Proof. intros H1 H2. split; [intros s w; apply H1 | intros f w; apply H2]. Qed.

Lemma pend_oneshot W (K : W -> Prop) Req Resp Err (svc : Service W Req Resp Err) :
  svc_wakes K svc -> forall o, pend K (@oneshot_poll _ _ _ _ svc o).
Proof.
  intros H.
  assert (Hc : forall f, pend K (oneshot_called svc f)).
  { intros f. apply pend_poll; [apply HF, H | |].
    - intros x w Hk. apply pend_here, Hk.
    - intros x [a|e]; [apply pend_bind; intros _; apply pend_ret | apply pend_ret]. }
  intros [s req|f|]; [|apply Hc|apply pend_panic]. cbn.
  apply pend_poll; [apply HR, H | |].
  - intros x w Hk. apply pend_here, Hk.
  - intros x [a|e]; [|apply pend_ret]. destruct req as [r|]; [|apply pend_panic].
    apply pend_bind. intros [s2 f]. apply pend_bind. intros _. apply Hc.
Qed.
Lemma pend_ready_oneshot W (K : W -> Prop) Req Resp Err (svc : Service W Req Resp Err) :
  svc_wakes K svc -> forall o, pend K (@ready_oneshot_poll _ _ _ _ svc o).
Proof.
  intros H [s|]; [|apply pend_panic]. cbn. apply pend_poll; [apply HR, H | |].
  - intros x w Hk. apply pend_here, Hk.
  - intros x [a|e]; apply pend_ret.
Qed.

(** A loop iteration: [inl] goes around again. *)
Definition pend_iter {W S A} (K : W -> Prop) (m : M W (S + S * poll A)) : Prop :=
  forall w w1 s1, m w = (w1, Val (inr (s1, Pending))) -> K w1.
Lemma pi_ret W S A (K : W -> Prop) (x : S) : pend_iter (A := A) K (ret (inl x)).
Proof. intros w w1 s1 H. discriminate. Qed.
Lemma pi_ready W S A (K : W -> Prop) (x : S) (a : A) : pend_iter K (ret (inr (x, Ready a))).
Proof. intros w w1 s1 H. discriminate. Qed.
Lemma pi_panic W S A (K : W -> Prop) : pend_iter K (panic : M W (S + S * poll A)).
Proof. intros w w1 s1 H. discriminate. Qed.
Lemma pi_bind W X S A (K : W -> Prop) (m : M W X) (k : X -> M W (S + S * poll A)) :
  (forall x, pend_iter K (k x)) -> pend_iter K (bind m k).
Proof.
  intros H w w1 s1. unfold bind. destruct (m w) as [w2 [x| |]]; try discriminate. apply H.
Qed.
Lemma pi_poll W X B S A (K : W -> Prop) (m : M W (X * poll B)) (k : X * poll B -> M W (S + S * poll A)) :
  pend K m ->
  (forall x w, K w -> forall w1 s1, k (x, Pending) w = (w1, Val (inr (s1, Pending))) -> K w1) ->
  (forall x b, pend_iter K (k (x, Ready b))) ->
  pend_iter K (bind m k).
Proof.
  intros Hm Hp Hr w w1 s1. unfold bind. destruct (m w) as [w2 [[x [|b]]| |]] eqn:E; try discriminate.
  - apply Hp. eapply Hm; eauto.
  - apply Hr.
Qed.
Lemma pi_here W S A (K : W -> Prop) (s : S) w :
  K w -> forall w1 s1, ret (inr (A := S) (s, @Pending A)) w = (w1, Val (inr (s1, Pending))) -> K w1.
Proof. intros H w1 s1 E. injection E as <- _. exact H. Qed.

Lemma pend_loop W S A (K : W -> Prop) (it : S -> M W (S + S * poll A)) (loop : nat -> S -> M W (S * poll A)) :
  (forall s, loop 0 s = diverge) ->
  (forall n s, loop (Datatypes.S n) s = (x <- it s ;; match x with inl s1 => loop n s1 | inr r => ret r end)) ->
  (forall s, pend_iter K (it s)) -> forall n s, pend K (loop n s).
Proof.
  intros H0 HS Hi n. induction n as [|n IH]; intros s.
  - rewrite H0. apply pend_diverge.
  - rewrite HS. intros w w1 s1. unfold bind. destruct (it s w) as [w2 [[s2|[s2 a]]| |]] eqn:E; try discriminate.
    + apply IH.
    + intros E'. injection E' as -> -> ->. eapply Hi; eauto.
Qed.

Lemma pend_sleep W S A (K : W -> Prop) (rt : Rt W) d (k : bool -> M W (S * poll A)) :
  timer_wakes K rt -> pend K (k true) ->
  (forall w, K w -> forall w1 s1, k false w = (w1, Val (s1, Pending)) -> K w1) ->
  pend K (b <- sleep_poll rt d ;; k b).
Proof.
  intros Ht Hy Hn w w1 s1. change ((b <- sleep_poll rt d ;; k b) w) with (k (fired rt w d) (nap rt d w)).
  destruct (fired rt w d) eqn:E; [apply Hy | apply Hn, Ht, E].
Qed.

Lemma pend_steer W (K : W -> Prop) Req Resp Err (svc : Service W Req Resp Err) :
  svc_wakes K svc -> forall nr l, pend K (steer_poll svc l nr).
Proof.
  intros H nr. induction nr as [|i nr IH]; intros l; [apply pend_ret|]. cbn [steer_poll].
  destruct (nth_error l i) as [s|]; [|apply pend_panic].
  apply pend_poll; [apply HR, H | |].
  - intros x w Hk. apply pend_here, Hk.
  - intros x [u|e]; [apply IH | apply pend_ret].
Qed.

Lemma pend_lift_snd W (K : W -> Prop) (K' : sem * W -> Prop) S A (m : M W (S * poll A)) :
  (forall c w, K w -> K' (c, w)) -> pend K m -> pend K' (lift_snd m).
Proof.
  intros Hk Hm [c w] w1 s1. unfold lift_snd. cbn. destruct (m w) as [w2 o] eqn:E.
  intros E'. injection E' as <- ->. apply Hk. eapply Hm; eauto.
Qed.
Lemma pend_lift_w W (K : W -> Prop) C S A (m : M W (S * poll A)) :
  pend K m -> pend (fun x => K (snd x)) (lift_w (C := C) m).
Proof.
  intros Hm [c w] w1 s1. unfold lift_w. cbn. destruct (m w) as [w2 o] eqn:E.
  intros E'. injection E' as <- ->. cbn. eapply Hm; eauto.
Qed.

(** ** Hedge *)
Section HedgeWake.
  Context {W : Type} (K : W -> Prop) {Req Resp Err : Type} (svc : Service W Req Resp Err) (rt : Rt W).
  Context (record : Z -> M W unit) (can_retry : Req -> bool) (delay_of : Req -> M W Z) (cr : Req -> M W (option Req)).
  Hypothesis H : svc_wakes K svc.
  Hypothesis Ht : timer_wakes K rt.
  Hypothesis Hk : keeps K rt svc.
  Let la := latency rt svc record.
  Let fl := async_filter la policy_task (policy_check can_retry) (fun p => ret p).
  Let dl := delay rt fl delay_of.

  Lemma latency_wakes : svc_wakes K la.
  Proof.
    apply svc_wakes_intro.
    - intros s. exact (HR H s).
    - intros f. cbn. apply pend_poll; [apply HF, H | |].
      + intros x w Hx. apply pend_here, Hx.
      + intros x [v|e]; repeat (apply pend_bind; intros ?); apply pend_ret.
  Qed.

  (** Whatever the original registered survives a poll of the duplicate that
      stays pending; and the duplicate's own [Pending] registers something, or
      changes nothing that matters. *)
  Lemma filter_ready_keeps s w : K w -> K (fst (poll_ready fl s w)).
  Proof.
    intros Hw. destruct s as [s p]. pose proof (kp_ready Hk s Hw) as H1.
    assert (E : poll_ready fl (s, p) w = ('(s1, a) <- poll_ready svc s ;;
      ret ((s1, p), poll_map (map_er (E' := Err + Empty_set) inl) a)) w) by reflexivity.
    rewrite E. clear E. unfold bind.
    destruct (poll_ready svc s w) as [w1 [[s1 a]| |]]; exact H1.
  Qed.

  (** polling the filtered duplicate *)
  Lemma filter_poll f w : K w ->
    forall w1 f1, poll_fut fl f w = (w1, Val (f1, Pending)) -> K w1.
  Proof.
    intros Hw w1 f1. cbn. destruct f as [[c|x] sv]; cbn.
    - destruct c as [[r|]|u].
      + unfold bind at 1, ret at 1.
        match goal with |- ?m w = _ -> _ => assert (HP : pend K m) end.
        { apply pend_bind. intros [s1 x]. apply pend_bind. intros _.
          apply pend_poll; [apply (HF latency_wakes) | |].
          - intros y z Hz. apply pend_here, Hz.
          - intros y b. apply pend_ret. }
        apply HP.
      + discriminate.
      + unfold bind, ret. cbn. intros E. injection E as <- _. exact Hw.
    - match goal with |- ?m w = _ -> _ => assert (HP : pend K m) end.
      { apply pend_poll; [apply (HF latency_wakes) | |].
        - intros y z Hz. apply pend_here, Hz.
        - intros y b. apply pend_ret. }
      apply HP.
  Qed.

  Lemma called_poll f w : K w ->
    forall w1 o1, oneshot_called fl f w = (w1, Val (o1, Pending)) -> K w1.
  Proof.
    intros Hw w1 o1. unfold oneshot_called, bind.
    destruct (poll_fut fl f w) as [w2 [[f2 [|[v|e]]]| |]] eqn:E; try discriminate.
    unfold ret. intros E'. injection E' as <- _. eapply filter_poll; eauto.
  Qed.

  Lemma filter_call_keeps s r w : K w -> K (fst (call fl s r w)).
  Proof.
    intros Hw. destruct s as [s p]. pose proof (kp_clone Hk s Hw) as H1.
    cbn in *. unfold bind. destruct (clone svc s w) as [w1 [s1| |]]; exact H1.
  Qed.

  Lemma dup_poll o w : K w ->
    forall w1 o1, @oneshot_poll _ _ _ _ fl o w = (w1, Val (o1, Pending)) -> K w1.
  Proof.
    intros Hw w1 o1. destruct o as [s req|f|]; [|apply called_poll, Hw|discriminate].
    cbn [oneshot_poll]. unfold bind at 1.
    pose proof (filter_ready_keeps s Hw) as Hr.
    destruct (poll_ready fl s w) as [w2 [[s2 [|[u|e]]]| |]]; try discriminate; cbn in Hr.
    - unfold ret. intros E. injection E as <- _. exact Hr.
    - destruct req as [r|]; [|discriminate].
      unfold bind at 1. pose proof (filter_call_keeps s2 r Hr) as Hc.
      destruct (call fl s2 r w2) as [w3 [[s3 f]| |]]; try discriminate. cbn in Hc.
      unfold bind at 1, modify. apply called_poll. apply (kp_drop Hk), Hc.
  Qed.

  Lemma delay_poll f w : K w ->
    forall w1 f1, poll_fut dl f w = (w1, Val (f1, Pending)) -> K w1.
  Proof.
    intros Hw w1 f1. destruct f as [sv [d req|o]].
    - assert (E : poll_fut dl (DelayFut sv (DDelaying fl d req)) w =
                  (if fired rt w d
                   then match req, sv with
                        | Some r, Some s => '(o1, p) <- oneshot_poll (oneshot_new fl s r) ;;
                                            ret (DelayFut None (DCalled o1), p)
                        | _, _ => panic
                        end
                   else ret (DelayFut sv (DDelaying fl d req), Pending)) (nap rt d w))
        by (cbn; unfold bind at 1, sleep_poll, bind at 1, get, bind at 1, modify, ret at 1; destruct (fired rt w d), req, sv; reflexivity).
      rewrite E. pose proof (kp_nap Hk d Hw) as Hn.
      destruct (fired rt w d).
      + destruct req as [r|], sv as [s|]; try discriminate.
        unfold bind. destruct (oneshot_poll _ (nap rt d w)) as [w2 [[o1 p]| |]] eqn:Eo; try discriminate.
        unfold ret. intros E'. injection E' as <- _ ->. eapply dup_poll; eauto.
      + unfold ret. intros E'. injection E' as <- _. exact Hn.
    - assert (E : poll_fut dl (DelayFut sv (DCalled o)) w =
        ('(o1, p) <- oneshot_poll o ;; ret (DelayFut sv (DCalled o1), p)) w) by reflexivity.
      rewrite E. unfold bind. destruct (oneshot_poll o w) as [w2 [[o1 p]| |]] eqn:Eo; try discriminate.
      unfold ret. intros E'. injection E' as <- _ ->. eapply dup_poll; eauto.
  Qed.

  Lemma hedge_wakes : svc_wakes K (select la dl cr).
  Proof.
    apply svc_wakes_intro.
    - intros [sa sb] w w1 s1. cbn. unfold bind, ret.
      destruct (poll_ready svc sa w) as [w2 [[s2 [|[u|e]]]| |]] eqn:E; try discriminate.
      intros E'. injection E' as <- _. exact (proj1 H _ _ _ _ E).
    - intros [fa fb]. cbn [poll_fut select sel_a sel_b]. apply pend_poll; [apply (HF latency_wakes) | |].
      + intros x w Hw w1 f1. destruct fb as [fb|]; [|apply pend_here, Hw].
        unfold bind. destruct (poll_fut dl fb w) as [w2 [[f2 [|b]]| |]] eqn:E; try discriminate.
        unfold ret. cbn. intros E'. injection E' as <- _. eapply delay_poll; eauto.
      + intros x b. apply pend_ret.
  Qed.
End HedgeWake.

(** ** All of them *)
Ltac here := intros ? ? ?Hk; first [apply pend_here, Hk | apply pi_here, Hk].
Ltac byk IH := first [apply (HR IH) | apply (HF IH)].

Theorem assembled_wakes W (K : W -> Prop) Req Resp Err (svc : Service W Req Resp Err) :
  assembled K svc -> svc_wakes K svc.
Proof.
  induction 1 as
    [ | | W K Req Resp Err svc Hs IH | W K Req Req' Resp Err svc f Hs IH | W K Req Resp Resp' Err svc f Hs IH
    | W K Req Resp Err Err' svc f Hs IH | W K Req Resp Err Resp' Err' svc into f Hs IH
    | W K Req Resp Err Resp' Err' svc into T f Hs IH HT | W K Req Resp Err Resp' Err' svc into T f Hs IH HT
    | W K Req Resp Err Resp' Err' svc into T f Hs IH HT | W K Req Resp Err a b Ha IHa Hb IHb
    | W K Req Resp Err svc Hs IH | W K Req Resp Err svc T tclone Hs IH HT
    | W K Req Resp Err svc rt dur Hs IH Ht | W K Req Resp Err svc Hs IH
    | W K Req Req' Resp Err P PErr svc check pclone Hs IH | W K Req Req' Resp Err P PErr svc T check pclone Hs IH HT
    | W K Req Resp Err svc pol fuel Hs IH HT | W K Req Resp Err P svc pick pclone Hs IH
    | W K Tgt Req Resp Err MErr svc mk target fuel Hs IH Hm IHm | W K Req Resp Err svc rt rate Hs IH Ht
    | W K K' Req Resp Err svc closed debug Hs IH Hk Hsem
    | W K Req Resp Err svc rt cr can mdp q gh sh Hs IH Ht Hkp
    | | W K Req Resp Err svc Hs IH | W K Req Resp Err M' svc Hs IH
    | W K Req Resp Err C T svc start finish keep Hs IH ].
  - assumption.
  - apply svc_wakes_intro; [intros s; apply pend_ret | intros f0 w; apply H].
  - apply svc_wakes_intro; intros x; byk IH.
  - apply svc_wakes_intro; intros x; byk IH.
  - apply svc_wakes_intro; intros x; [byk IH | apply pend_map_poll; intros; byk IH].
  - apply svc_wakes_intro; intros x; [|apply pend_map_poll; intros; byk IH].
    cbn. apply pend_poll; [byk IH | here |].
    intros y [u|e]; [|apply pend_bind; intros ?]; apply pend_ret.
  - apply svc_wakes_intro; intros x; [apply pend_map; byk IH | apply pend_map_poll; intros; byk IH].
  - apply svc_wakes_intro; intros x; [apply pend_map; byk IH | intros w; apply HT].
  - assert (Hs2 : forall t, pend K (x <- tpoll T t ;;
              match x with
              | (t1, Pending) => ret (Second t1, Pending)
              | (t1, Ready v) => modify (tdrop T t1) ;;; ret (Empty (F := fut svc), Ready v)
              end)).
    { intros t. apply pend_poll; [intros w; apply HT | here |]. intros y v. apply pend_bind. intros _. apply pend_ret. }
    apply svc_wakes_intro; intros x; [apply pend_map; byk IH|].
    destruct x as [x|t|]; [| apply Hs2 | apply pend_panic].
    cbn. apply pend_poll; [byk IH | here |]. intros y v. apply pend_bind. intros _.
    apply pend_bind. intros t. apply Hs2.
  - assert (Hs2 : forall t, pend K (x <- tpoll T t ;;
              match x with
              | (t1, Pending) => ret (Second t1, Pending)
              | (t1, Ready v) => modify (tdrop T t1) ;;; ret (Empty (F := fut svc), Ready v)
              end)).
    { intros t. apply pend_poll; [intros w; apply HT | here |]. intros y v. apply pend_bind. intros _. apply pend_ret. }
    apply svc_wakes_intro; intros x; [apply pend_map; byk IH|].
    destruct x as [x|t|]; [| apply Hs2 | apply pend_panic].
    cbn. apply pend_poll; [byk IH | here |]. intros y [v|e]; apply pend_bind; intros _; [|apply pend_ret].
    apply pend_bind. intros t. apply Hs2.
  - apply svc_wakes_intro; intros [x|x]; apply pend_same; first [byk IHa | byk IHb].
  - apply svc_wakes_intro; (intros [x|]; [apply pend_map; byk IH | apply pend_ret]).
  - apply svc_wakes_intro; intros x; [|byk IH]. destruct x as [t|s]; [|apply pend_same; byk IH].
    cbn. apply pend_poll; [intros w; apply HT | here |].
    intros y [s|e]; [|apply pend_ret]. apply pend_bind. intros _. apply pend_same. byk IH.
  - apply svc_wakes_intro; intros x; [apply pend_map; byk IH|].
    cbn. apply pend_bind. intros [f1 [|v]]; [|apply pend_ret].
    apply pend_sleep; [exact Ht | apply pend_ret|]. intros w Hw. apply pend_here, Hw.
  - apply svc_wakes_intro; intros x.
    + cbn. apply pend_bind. intros [s1 [|[u|e]]]; apply pend_ret.
    + destruct x as [x|]; [apply pend_map; byk IH | apply pend_ret].
  - apply svc_wakes_intro; intros x; [apply pend_map; byk IH|].
    destruct x as [[e|]|x]; [apply pend_ret | apply pend_panic |].
    apply pend_same. apply pend_map_poll. intros; byk IH.
  - assert (Hw : forall x s, pend K ('(x1, p) <- poll_fut svc x ;;
        ret (AfFut (AfWait (C := tst T) x1) s, poll_map (map_er (E' := Err + PErr) inl) p))).
    { intros x s. apply pend_map. byk IH. }
    apply svc_wakes_intro; intros x; [apply pend_map; byk IH|].
    destruct x as [[c|x] s]; [|apply Hw]. cbn. apply pend_poll; [intros w; apply HT | here |].
    intros y [r|e]; [|apply pend_ret]. apply pend_bind. intros [s1 z]. apply pend_bind. intros _. apply Hw.
  - apply svc_wakes_intro; intros x; [apply pend_same; byk IH|]. cbn [poll_fut retry].
    apply pend_loop with (it := retry_iter (svc := svc) (pol := pol)); [reflexivity | reflexivity |].
    intros [req p s [y|t|]]; unfold retry_iter; cbn [rf_state].
    + apply pi_poll; [byk IH | here |]. intros z res. cbn [rf_req]. destruct req as [q|]; [|apply pi_ready].
      apply pi_bind. intros [[[p1 q1] res1] [t|]]; [apply pi_bind; intros _; apply pi_ret | apply pi_ready].
    + apply pi_poll; [intros w; apply HT | here |]. intros z u. apply pi_bind. intros _. apply pi_ret.
    + apply pi_poll; [byk IH | here |]. intros z [u|e]; [|apply pi_ready]. cbn [rf_req].
      destruct req as [q|]; [|apply pi_panic]. apply pi_bind. intros [p1 saved]. apply pi_bind. intros [s2 y]. apply pi_ret.
  - apply svc_wakes_intro; intros x; [|byk IH]. cbn.
    apply pend_poll with (m := steer_poll svc (sr_services x) (sr_not_ready x)); [apply pend_steer, IH | |].
    + intros [l nr] w Hw. apply pend_here, Hw.
    + intros [l nr] b. apply pend_ret.
  - apply svc_wakes_intro; intros x.
    + cbn [poll_ready reconnect].
      apply pend_loop with (it := reconnect_iter (svc := svc) (mk := mk) target); [reflexivity | reflexivity |].
      intros [m [|f|c] er]; unfold reconnect_iter; cbn [rc_st rc_mk rc_err].
      * apply pi_poll; [byk IHm | here |]. intros z [u|e]; [|apply pi_ready].
        apply pi_bind. intros [m2 f]. apply pi_ret.
      * apply pi_poll; [byk IHm | here |]. intros z [c|e]; apply pi_bind; intros _; [apply pi_ret | apply pi_ready].
      * apply pi_poll; [byk IH | here |]. intros z [u|e]; [apply pi_ready |]. apply pi_bind. intros _. apply pi_ret.
    + destruct x as [x|[e|]]; [apply pend_map; byk IH | apply pend_ret | apply pend_panic].
  - apply svc_wakes_intro; intros x; [|byk IH]. cbn. destruct (rl_st x) as [|u n].
    + apply pend_sleep; [exact Ht | |intros w Hw; apply pend_here, Hw].
      apply pend_bind. intros t. apply pend_same. byk IH.
    + apply pend_same. byk IH.
  - assert (Hpi : forall s g, pend K' ('(s1, a) <- lift_snd (poll_ready svc s) ;; ret (g s1 : conc_st svc, a))).
    { intros s g. apply pend_same. apply pend_lift_snd with (K := K); [exact Hk | byk IH]. }
    apply svc_wakes_intro; intros x; [|apply pend_lift_snd with (K := K); [exact Hk | byk IH]].
    cbn. destruct (cl_permit x); [apply Hpi with (g := fun s1 => ConcSt _ s1 (cl_wait x) true)|].
    apply pend_bind. intros [|].
    { destruct debug; [apply pend_panic | apply Hpi with (g := fun s1 => ConcSt _ s1 None false)]. }
    apply pend_bind. intros m. destruct (sem_poll (cl_wait x) m) as [[m1 wait1] got] eqn:E.
    destruct got.
    + apply pend_bind. intros _. apply Hpi with (g := fun s1 => ConcSt _ s1 wait1 true).
    + intros w w1 s1 E'. unfold bind, modify, ret in E'. injection E' as <- _. eapply Hsem; eauto.
  - apply hedge_wakes; assumption.
  - apply svc_wakes_intro; intros x; [apply pend_ret|]. destruct x; [apply pend_ret | apply pend_panic].
  - apply svc_wakes_intro; intros x; byk IH.
  - apply svc_wakes_intro; intros x; [apply pend_same; byk IH | byk IH].
  - apply svc_wakes_intro; intros x; [apply pend_lift_w; byk IH|].
    cbn. unfold tc_poll. apply pend_poll; [apply pend_lift_w; byk IH | |].
    + intros y w Hw. apply pend_here, Hw.
    + intros y [v|e]; [|apply pend_ret]. destruct (tc_handle x); [|apply pend_panic].
      apply pend_bind. intros [|]; [apply pend_ret | apply pend_bind; intros _; apply pend_ret].
Qed.

(** ** CallAll *)
Theorem call_all_wakes W (K : W -> Prop) Req Resp Err (svc : Service W Req Resp Err) (S : Stream W Req)
  (Q : Drive W (fut svc) (result Resp Err)) fuel :
  svc_wakes K svc -> stream_wakes K S -> drive_wakes K Q ->
  forall c w w1 c1, ca_next (svc := svc) (S := S) (Q := Q) fuel c w = (w1, Val (c1, Pending)) -> K w1.
Proof.
  intros H HS [HQ1 HQ2]. change (forall c, pend K (ca_next (svc := svc) (S := S) (Q := Q) fuel c)).
  induction fuel as [|n IH]; intros c; [apply pend_diverge|]. cbn [ca_next].
  intros w w1 c1. unfold bind at 1. destruct (q_poll Q (ca_queue c) w) as [w2 [[q a]| |]] eqn:E; try discriminate.
  destruct a as [|[r|]]; [|discriminate|].
  - destruct (ca_eof c).
    { unfold ret. destruct (q_empty Q q); [discriminate|]. intros E'. injection E' as <- _. eapply HQ1; eauto. }
    match goal with |- ?m w2 = _ -> _ => assert (HP : pend K m) end; [|apply HP].
    destruct (ca_req c) as [r|].
    + destruct (ca_svc c) as [s|]; [|apply pend_panic]. apply pend_poll; [byk H | here |].
      intros y [u|e]; [|apply pend_ret]. apply pend_bind. intros [s2 f]. apply IH.
    + apply pend_poll; [intros z; apply HS | here |]. intros t [r|]; [|apply IH].
      destruct (ca_svc c) as [s|]; [|apply pend_panic]. apply pend_poll; [byk H | here |].
      intros y [u|e]; [|apply pend_ret]. apply pend_bind. intros [s2 f]. apply IH.
  - destruct (ca_eof c).
    { unfold ret. rewrite (HQ2 _ _ _ _ E). discriminate. }
    match goal with |- ?m w2 = _ -> _ => assert (HP : pend K m) end; [|apply HP].
    destruct (ca_req c) as [r|].
    + destruct (ca_svc c) as [s|]; [|apply pend_panic]. apply pend_poll; [byk H | here |].
      intros y [u|e]; [|apply pend_ret]. apply pend_bind. intros [s2 f]. apply IH.
    + apply pend_poll; [intros z; apply HS | here |]. intros t [r|]; [|apply IH].
      destruct (ca_svc c) as [s|]; [|apply pend_panic]. apply pend_poll; [byk H | here |].
      intros y [u|e]; [|apply pend_ret]. apply pend_bind. intros [s2 f]. apply IH.
Qed.
