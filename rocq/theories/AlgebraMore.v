(** Proofs for C95: the remaining layers. *)
From Verif Require Import Base Util ReadyCache SpawnReady Load Make Middleware Limits Hedge MeterSpec AlgebraSpec AlgebraProof AlgebraLaws AlgebraCong.
Set Implicit Arguments.

Lemma alike_Ts W Req Resp Err (a : Service W Req Resp Err) sa (b : Service W Req Resp Err) sb :
  alike a sa b sb -> @Ts _ _ _ _ a b sa sb.
Proof.
  intros H w. exists (ustart a w [sa]), (ustart b w [sb]), 0. split; [|split; reflexivity].
  split; [reflexivity|]. split; [reflexivity|]. intros c. apply H.
Qed.

Section More.
  Context {W Req Resp Err : Type} (a b : Service W Req Resp Err).

  Ltac go T := intros; unrel; first
    [ solve [leaf T] | solve [eapply (tw_drop_svc T); eassumption] | solve [eapply (tw_drop_fut T); eassumption]
    | solve [eapply map_poll_agree; [apply (tw_poll T)|apply (tw_drop_fut T)|assumption]]
    | solve [eapply map_drop_agree; [apply (tw_drop_fut T)|assumption]]
    | solve [bnd T; intros [? ?] [? ?] ?; unrel; ends] | idtac ].

  Lemma cong_constant Met sa sb (m : Met) :
    bisim a sa b sb -> alike (constant (M' := Met) a) (sa, m) (constant (M' := Met) b) (sb, m).
  Proof.
    open_ T. exists (fun (x : st a * Met) (y : st b * Met) => Rs (fst x) (fst y) /\ snd x = snd y), Rf.
    split; [|split; [exact HS|reflexivity]]. constructor; cbn.
    - intros [s q] [t q'] [H1 H2]; cbn in *; subst. bnd T. intros [? ?] [? ?] ?; unrel. ends.
    - intros [s q] [t q'] r [H1 H2]; cbn in *; subst. bnd T. intros [? ?] [? ?] ?; unrel. ends.
    - apply (tw_poll T).
    - intros; apply agree_panic.
    - intros [s q] [t q'] w [H1 H2]; cbn in *; subst. apply (tw_drop_svc T). assumption.
    - apply (tw_drop_fut T).
  Qed.

  (** SpawnReady *)
  Definition tasks (Rs : st a -> st b -> Prop) (x : rtask a) (y : rtask b) : Prop :=
    match x, y with
    | TRun s, TRun t => Rs s t
    | TDone (Ok s), TDone (Ok t) => Rs s t
    | TDone (Er e), TDone (Er e') => e = e'
    | TLost, TLost => True
    | TTaken, TTaken => True
    | _, _ => False
    end.
  Definition srs Rs (x : sr_st a) (y : sr_st b) : Prop :=
    match x, y with SrSvc s, SrSvc t => Rs s t | SrFut s, SrFut t => tasks Rs s t | _, _ => False end.
  Lemma task_poll_agree Rs Rf (T : twins a b Rs Rf) x y : tasks Rs x y -> agree (tasks Rs) (task_poll x) (task_poll y).
  Proof.
    intros H w. unfold task_poll.
    destruct x as [s|[s|e]| |], y as [t|[t|e']| |]; cbn in H; try contradiction; try (split; [reflexivity|exact H]).
    destruct (tw_ready T _ _ H w) as [E1 E2].
    destruct (poll_ready a s w) as [w1 [[s1 p]| |]], (poll_ready b t w) as [w2 [[t1 q]| |]]; cbn in E1, E2; subst; try contradiction; cbn.
    - destruct E2 as [E2 E3]; cbn in E2, E3; subst. destruct q as [|[u|e]]; cbn; try (split; [reflexivity|assumption]).
      split; [apply (tw_drop_svc T); assumption|reflexivity].
    - split; [apply (tw_drop_svc T); assumption|exact I].
    - split; [reflexivity|exact I].
  Qed.
  Lemma task_polls_agree Rs Rf (T : twins a b Rs Rf) n : forall x y, tasks Rs x y -> agree (tasks Rs) (task_polls n x) (task_polls n y).
  Proof.
    induction n as [|n IH]; intros x y H; cbn; [apply agree_ret; exact H|].
    eapply agree_bind; [apply (task_poll_agree T); exact H|]. intros x1 y1 H1. apply IH. exact H1.
  Qed.
  Lemma sr_ready_agree Rs Rf (T : twins a b Rs Rf) bg n : forall x y, srs Rs x y -> agree (goes (srs Rs)) (sr_ready bg n x) (sr_ready bg n y).
  Proof.
    induction n as [|n IH]; intros x y H; [apply agree_diverge|]. cbn [sr_ready].
    destruct x as [s|s], y as [t|t]; cbn in H; try contradiction.
    - bnd T. intros [s1 p] [t1 q] HH; unrel. destruct q as [|r]; [apply IH; assumption|ends].
    - bnd T. intros k _ <-. eapply agree_bind; [apply (task_polls_agree T); exact H|]. intros x y HH.
      destruct x as [s1|[s1|e]| |], y as [t1|[t1|e']| |]; cbn in HH; try contradiction; subst;
        try solve [ends]; [apply IH; exact HH|apply agree_panic].
  Qed.
  Lemma cong_spawn_ready bg fuel sa sb :
    bisim a sa b sb -> alike (spawn_ready a bg fuel) (spawn_ready_new a sa) (spawn_ready b bg fuel) (spawn_ready_new b sb).
  Proof.
    open_ T. exists (srs Rs), (opt Rf). split; [|exact HS]. constructor; cbn.
    - intros s t H. apply (sr_ready_agree T). exact H.
    - intros [s|s] [t|t] r H; cbn in H; try contradiction; cbn.
      + intros w. unfold bind. destruct (tw_call T _ _ r H w) as [E1 E2].
        destruct (call a s r w) as [w1 [[s1 p]| |]], (call b t r w) as [w2 [[t1 q]| |]]; cbn in E1, E2; subst; try contradiction; cbn;
          (split; [reflexivity|]); try exact I. unrel. split; cbn; assumption.
      + apply agree_panic.
    - intros f g H. eapply map_poll_agree; [apply (tw_poll T)|apply (tw_drop_fut T)|exact H].
    - intros; apply agree_panic.
    - intros [s|[s|[s|e]| |]] [t|[t|[t|e']| |]] w H; cbn in H; try contradiction; cbn; try reflexivity; apply (tw_drop_svc T); exact H.
    - intros f g w H. eapply map_drop_agree; [apply (tw_drop_fut T)|exact H].
  Qed.

  (** load measurement *)
  Lemma agree_lift_w C A B (R : A -> B -> Prop) (m1 : M W A) (m2 : M W B) : agree R m1 m2 -> agree R (lift_w (C := C) m1) (lift_w (C := C) m2).
  Proof.
    intros H [m w]. specialize (H w). unfold lift_w. cbn. destruct (m1 w), (m2 w). cbn in *. destruct H as [-> H]. split; [reflexivity|exact H].
  Qed.
  Lemma cong_tracked_load C Tm (start : M W Tm) (finish : Tm -> C -> W -> C * W) keep sa sb :
    bisim a sa b sb -> alike (tracked_load a start finish keep) sa (tracked_load b start finish keep) sb.
  Proof.
    open_ T. exists Rs, (fun (x : tc_fut a) (y : tc_fut b) => Rf (tc_inner x) (tc_inner y) /\ tc_handle x = tc_handle (svc := b) (T := Tm) y).
    split; [|exact HS]. constructor; cbn.
    - intros s t H. apply agree_lift_w. apply (tw_ready T). exact H.
    - intros s t r H. unfold tl_call. eapply agree_bind; [apply agree_self|]. intros h _ <-. intros [m w]; cbn.
      destruct (tw_call T _ _ r H w) as [E1 E2].
      destruct (call a s r w) as [w1 [[s1 p]| |]], (call b t r w) as [w2 [[t1 q]| |]]; cbn in E1, E2; subst; try contradiction; cbn;
        (split; [reflexivity|]); try exact I. unrel. split; cbn; [assumption|split; [assumption|reflexivity]].
    - intros [f h] [g h'] [H1 H2]; cbn in *; subst. unfold tc_poll; cbn.
      eapply agree_bind; [apply agree_lift_w; apply (tw_poll T); exact H1|]. intros [f1 p] [g1 q] HH; unrel.
      destruct q as [|[v|e]]; try solve [ends]. destruct h' as [h|]; [|apply agree_panic].
      eapply agree_bind; [apply agree_self|]. intros k _ <-. destruct k; [ends|].
      eapply agree_bind; [apply agree_modify; reflexivity|]. intros _ _ _. ends.
    - intros; apply agree_panic.
    - intros s t [m w] H. cbn. rewrite (tw_drop_svc T _ _ w H). reflexivity.
    - intros [f h] [g h'] [m w] [H1 H2]; cbn in *; subst. unfold tc_drop; cbn. rewrite (tw_drop_fut T _ _ w H1). reflexivity.
  Qed.

  (** Hedge, leg by leg *)
  Lemma cong_latency (rt : Rt W) record sa sb : bisim a sa b sb -> alike (latency rt a record) sa (latency rt b record) sb.
  Proof.
    open_ T. exists Rs, (fun (x : latency_fut a) (y : latency_fut b) => lf_start x = lf_start y /\ Rf (lf_inner x) (lf_inner y)).
    split; [|exact HS]. constructor; cbn; go T.
    - bnd T. intros t0 _ <-. bnd T. intros [? ?] [? ?] ?; unrel. ends.
    - destruct f as [f d], g as [g e]; cbn in *; subst. bnd T. intros [f1 p] [g1 q] HH. unrel. destruct q as [|[v|er]]; try solve [ends].
      bnd T. intros c _ <-. bnd T. intros _ _ _. ends.
  Qed.

  Definition ones (Rs : st a -> st b -> Prop) (Rf : fut a -> fut b -> Prop) (x : oneshot_st a) (y : oneshot_st b) : Prop :=
    match x, y with
    | OsNotReady _ s r, OsNotReady _ t r' => Rs s t /\ r = r'
    | OsCalled _ f, OsCalled _ g => Rf f g
    | OsDone _, OsDone _ => True
    | _, _ => False
    end.
  Lemma oneshot_called_agree Rs Rf (T : twins a b Rs Rf) f g : Rf f g -> agree (goes (ones Rs Rf)) (oneshot_called a f) (oneshot_called b g).
  Proof.
    intros H. unfold oneshot_called. bnd T. intros [f1 p] [g1 q] HH; unrel. destruct q as [|[v|e]]; try solve [ends].
    bnd T. intros _ _ _. ends.
  Qed.
  Lemma oneshot_agree Rs Rf (T : twins a b Rs Rf) x y : ones Rs Rf x y -> agree (goes (ones Rs Rf)) (oneshot_poll x) (oneshot_poll y).
  Proof.
    destruct x as [s r|f|], y as [t r'|g|]; cbn; intros H; try contradiction.
    - destruct H as [H <-]. bnd T. intros [s1 p] [t1 q] HH; unrel. destruct q as [|[v|e]]; try solve [ends].
      destruct r as [r|]; [|apply agree_panic]. bnd T. intros [? ?] [? ?] ?; unrel.
      bnd T. intros _ _ _. apply (oneshot_called_agree T). assumption.
    - apply (oneshot_called_agree T). exact H.
    - apply agree_panic.
  Qed.
  Lemma oneshot_drop_agree Rs Rf (T : twins a b Rs Rf) x y w : ones Rs Rf x y -> oneshot_drop x w = oneshot_drop y w.
  Proof.
    destruct x as [s r|f|], y as [t r'|g|]; cbn; intros H; try contradiction; try reflexivity.
    - apply (tw_drop_svc T). apply H.
    - apply (tw_drop_fut T). exact H.
  Qed.
  Local Opaque oneshot_poll oneshot_drop.
  Lemma cong_delay (rt : Rt W) delay_of sa sb : bisim a sa b sb -> alike (delay rt a delay_of) sa (delay rt b delay_of) sb.
  Proof.
    open_ T. exists Rs, (fun (x : delay_fut a) (y : delay_fut b) => opt Rs (df_svc x) (df_svc y) /\
      match df_state x, df_state y with
      | DDelaying _ d r, DDelaying _ d' r' => d = d' /\ r = r'
      | DCalled o, DCalled o' => ones Rs Rf o o'
      | _, _ => False
      end).
    split; [|exact HS]. constructor; cbn.
    - intros s t H. ends.
    - intros s t r H. bnd T. intros d _ <-. bnd T. intros ? ? ?. bnd T. intros t0 _ <-. ends.
    - intros [s [d r|o]] [t [d' r'|o']] [H1 H2]; cbn in *; try contradiction.
      + destruct H2 as [<- <-]. bnd T. intros c _ <-. destruct c; [|ends].
        destruct r as [r|]; [|apply agree_panic]. destruct s as [s|], t as [t|]; cbn in H1; try contradiction; [|apply agree_panic].
        assert (HO : ones Rs Rf (oneshot_new a s r) (oneshot_new b t r)) by (split; [exact H1|reflexivity]).
        eapply agree_bind; [apply (oneshot_agree T _ _ HO)|].
        intros [? ?] [? ?] ?; unrel. ends.
      + eapply agree_bind; [apply (oneshot_agree T); exact H2|]. intros [? ?] [? ?] ?; unrel. ends.
    - intros; apply agree_panic.
    - apply (tw_drop_svc T).
    - intros [s [d r|o]] [t [d' r'|o']] w [H1 H2]; cbn in *; try contradiction.
      + destruct s as [s|], t as [t|]; cbn in H1; try contradiction; [apply (tw_drop_svc T); exact H1|reflexivity].
      + rewrite (oneshot_drop_agree T _ _ _ H2). f_equal.
        destruct s as [s|], t as [t|]; cbn in H1; try contradiction; [apply (tw_drop_svc T); exact H1|reflexivity].
  Qed.
End More.

Lemma cong_select W Req Resp EA EB (a a' : Service W Req Resp EA) (b b' : Service W Req Resp EB) clone_req sa sa' sb sb' :
  bisim a sa a' sa' -> bisim b sb b' sb' -> alike (select a b clone_req) (sa, sb) (select a' b' clone_req) (sa', sb').
Proof.
  intros (Ra & Fa & TA & HA) (Rb & Fb & TB & HB). apply bisim_alike.
  exists (both Ra Rb), (fun (x : select_fut a b) (y : select_fut a' b') => Fa (sel_a x) (sel_a y) /\ opt Fb (sel_b x) (sel_b y)).
  split; [|split; assumption]. constructor; cbn.
  - intros [s t] [s' t'] [H1 H2]; cbn in *. bnd TA. intros [? ?] [? ?] ?; unrel. bnd TB. intros [? ?] [? ?] ?; unrel. ends.
  - intros [s t] [s' t'] r [H1 H2]; cbn in *. bnd TA. intros [r1|] _ <-.
    + bnd TB. intros [? ?] [? ?] ?; unrel. bnd TA. intros [? ?] [? ?] ?; unrel. ends.
    + bnd TA. intros [? ?] [? ?] ?; unrel. ends.
  - intros [f g] [f' g'] [H1 H2]; cbn in *. bnd TA. intros [? p] [? q] ?; unrel. destruct q as [|v]; [|ends].
    destruct g as [g|], g' as [g'|]; cbn in H2; try contradiction; [|ends].
    bnd TB. intros [? ?] [? ?] ?; unrel. ends.
  - intros; apply agree_panic.
  - intros [s t] [s' t'] w [H1 H2]; cbn in *. rewrite (tw_drop_svc TA _ _ w H1). apply (tw_drop_svc TB). exact H2.
  - intros [f g] [f' g'] w [H1 H2]; cbn in *. rewrite (tw_drop_fut TA _ _ w H1).
    destruct g as [g|], g' as [g'|]; cbn in H2; try contradiction; [|reflexivity]. apply (tw_drop_fut TB). exact H2.
Qed.

Lemma cong_hedge W Req Resp Err (a b : Service W Req Resp Err) (rt : Rt W) clone_request can_retry mdp quantile getH setH sa sa2 sb sb2 :
  alike a sa b sb -> alike a sa2 b sb2 ->
  alike (hedge rt a clone_request can_retry mdp quantile getH setH) (sa, (sa2, tt))
        (hedge rt b clone_request can_retry mdp quantile getH setH) (sb, (sb2, tt)).
Proof.
  intros H1 H2. unfold hedge.
  pose proof (cong_latency rt (hedge_record rt getH setH) (alike_bisim H1)) as L1.
  pose proof (cong_latency rt (hedge_record rt getH setH) (alike_bisim H2)) as L2.
  pose proof (cong_async_filter (policy_task (W := W) (Req := Req)) (policy_check (W := W) can_retry) (fun p => ret p) tt (alike_bisim L2)) as L3.
  pose proof (cong_delay rt (hedge_delay (Req := Req) rt quantile getH setH) (alike_bisim L3)) as L4.
  exact (cong_select (hedge_clone rt clone_request mdp getH setH) (alike_bisim L1) (alike_bisim L4)).
Qed.

(** Steer *)
Section Steered.
  Context {W Req Resp Err P : Type} (a b : Service W Req Resp Err).
  Context {Rs : st a -> st b -> Prop} {Rf : fut a -> fut b -> Prop} (T : twins a b Rs Rf).

  Definition steers (x : list (st a) * list nat * poll (result unit Err)) (y : list (st b) * list nat * poll (result unit Err)) : Prop :=
    Forall2 Rs (fst (fst x)) (fst (fst y)) /\ snd (fst x) = snd (fst y) /\ snd x = snd y.
  Lemma nth_rel A B (R : A -> B -> Prop) (l : list A) (l' : list B) i : Forall2 R l l' -> opt R (nth_error l i) (nth_error l' i).
  Proof. intros H. revert i. induction H as [|x y l l' HR _ IH]; intros [|i]; cbn; auto. Qed.
  Lemma steer_poll_agree nr : forall l l', Forall2 Rs l l' -> agree steers (steer_poll a l nr) (steer_poll b l' nr).
  Proof.
    induction nr as [|i nr IH]; intros l l' H; cbn; [ends|].
    pose proof (nth_rel i H) as HN. destruct (nth_error l i) as [s|], (nth_error l' i) as [t|]; cbn in HN; try contradiction; [|apply agree_panic].
    bnd T. intros [s1 p] [t1 q] HH; unrel. destruct q as [|[u|e]].
    - ends. apply set_rel; assumption.
    - apply IH. apply set_rel; assumption.
    - ends. apply set_rel; assumption.
  Qed.
  Lemma clone_all_agree l l' : Forall2 Rs l l' -> agree (Forall2 Rs) (clone_all a l) (clone_all b l').
  Proof.
    induction 1 as [|x y l l' HR _ IH]; cbn; [apply agree_ret; constructor|].
    bnd T. intros ? ? ?. eapply agree_bind; [exact IH|]. intros ? ? ?. apply agree_ret. constructor; assumption.
  Qed.
  Lemma drop_all_agree l l' : Forall2 Rs l l' -> forall w,
    fold_left (fun w x => drop_svc a x w) l w = fold_left (fun w x => drop_svc b x w) l' w.
  Proof.
    induction 1 as [|x y l l' HR _ IH]; intros w; cbn; [reflexivity|]. rewrite (tw_drop_svc T _ _ w HR). apply IH.
  Qed.
End Steered.
Lemma rel_length A B (R : A -> B -> Prop) l l' : Forall2 R l l' -> length l = length l'.
Proof. induction 1; cbn; congruence. Qed.
Lemma cong_steer W Req Resp Err P (a b : Service W Req Resp Err) (pick : P -> Req -> nat -> M W (P * nat)) pclone l l' p :
  Forall2 (fun sa sb => alike a sa b sb) l l' ->
  alike (steer a (fun p r x => pick p r (length x)) pclone) (steer_new a l p)
        (steer b (fun p r x => pick p r (length x)) pclone) (steer_new b l' p).
Proof.
  intros H. pose proof (complete a b) as T.
  assert (HL : Forall2 (@Ts _ _ _ _ a b) l l') by (induction H; constructor; [apply alike_Ts; assumption|assumption]).
  revert T HL. generalize (@Ts _ _ _ _ a b) as Rs, (@Tf _ _ _ _ a b) as Rf. intros Rs Rf T HL. clear H.
  apply bisim_alike.
  exists (fun (x : steer_st a P) (y : steer_st b P) => sr_router x = sr_router y /\ Forall2 Rs (sr_services x) (sr_services y) /\
    sr_not_ready x = sr_not_ready y), Rf.
  split.
  - constructor; cbn.
    + intros [q s nr] [q' t nr'] (H1 & H2 & H3); cbn in *; subst. eapply agree_bind; [apply (steer_poll_agree T); exact H2|].
      intros [[x1 x2] x3] [[y1 y2] y3] (H3 & H4 & H5); cbn in *; subst. ends.
    + intros [q s nr] [q' t nr'] r (H1 & H2 & H3); cbn in *; subst. destruct nr' as [|i nr']; [|apply agree_panic].
      rewrite (rel_length H2). bnd T. intros [p1 i] _ <-. pose proof (nth_rel i H2) as HN.
      destruct (nth_error s i) as [s1|], (nth_error t i) as [t1|]; cbn in HN; try contradiction; [|apply agree_panic].
      bnd T. intros [? ?] [? ?] ?; unrel. ends. apply set_rel; assumption.
    + apply (tw_poll T).
    + intros [q s nr] [q' t nr'] (H1 & H2 & H3); cbn in *; subst. bnd T. intros ? _ <-.
      eapply agree_bind; [apply (clone_all_agree T); exact H2|]. intros ? ? ?. ends.
    + intros [q s nr] [q' t nr'] w (H1 & H2 & H3); cbn in *; subst. apply (drop_all_agree T). exact H2.
    + apply (tw_drop_fut T).
  - cbn. split; [reflexivity|]. split; [exact HL|]. rewrite (rel_length HL). reflexivity.
Qed.

Lemma under_more : forall W Req Resp Err (a b : Service W Req Resp Err) sa sb, alike a sa b sb ->
  (forall Met (m : Met), alike (constant (M' := Met) a) (sa, m) (constant (M' := Met) b) (sb, m)) /\
  (forall bg fuel, alike (spawn_ready a bg fuel) (spawn_ready_new a sa) (spawn_ready b bg fuel) (spawn_ready_new b sb)) /\
  (forall C T (start : M W T) (finish : T -> C -> W -> C * W) keep,
     alike (tracked_load a start finish keep) sa (tracked_load b start finish keep) sb) /\
  (forall rt clone_request can_retry mdp quantile getH setH sa2 sb2, alike a sa2 b sb2 ->
     alike (hedge rt a clone_request can_retry mdp quantile getH setH) (sa, (sa2, tt))
           (hedge rt b clone_request can_retry mdp quantile getH setH) (sb, (sb2, tt))).
Proof.
  intros W Req Resp Err a b sa sb H. pose proof (alike_bisim H) as B.
  split; [intros; apply cong_constant; exact B|].
  split; [intros; apply cong_spawn_ready; exact B|].
  split; [intros; apply cong_tracked_load; exact B|].
  intros rt0 cr ca mdp q gH sH sa2 sb2 H2. apply cong_hedge; assumption.
Qed.
