(** Proofs for C95: what is alike stays alike under a layer. *)
From Verif Require Import Base Util ReadyCache SpawnReady Load Make Middleware Limits Hedge MeterSpec AlgebraSpec AlgebraProof AlgebraLaws.
Set Implicit Arguments.

Ltac unrel := repeat match goal with
  | H : goes _ (_, _) (_, _) |- _ => let a := fresh in let b := fresh in destruct H as [a b]; cbn in a, b; subst
  | H : both _ _ (_, _) (_, _) |- _ => let a := fresh in let b := fresh in destruct H as [a b]; cbn in a, b; subst
  | H : _ /\ _ |- _ => destruct H; cbn in *; subst
  end.
Ltac leaf T := first
  [ eapply (tw_ready T); eassumption | eapply (tw_call T); eassumption | eapply (tw_poll T); eassumption
  | eapply (tw_clone T); eassumption | apply agree_modify; intros; first [apply (tw_drop_fut T)|apply (tw_drop_svc T)]; assumption | apply agree_self ].
Ltac bnd T := eapply agree_bind; [leaf T |].
Ltac ends := apply agree_ret; repeat split; cbn; repeat split; try assumption; try reflexivity.
Ltac open_ T := intros (Rs & Rf & T & HS); apply bisim_alike.

Section Cong.
  Context {W Req Resp Err : Type} (a b : Service W Req Resp Err).

  Lemma map_poll_agree A B F G (Rf : F -> G -> Prop) (pf : F -> M W (F * poll A)) (pg : G -> M W (G * poll A)) df dg (h : A -> M W B) x y :
    (forall f g, Rf f g -> agree (goes Rf) (pf f) (pg g)) -> (forall f g w, Rf f g -> df f w = dg g w) ->
    opt Rf x y -> agree (goes (opt Rf)) (map_poll pf df h x) (map_poll pg dg h y).
  Proof.
    intros HP HD H. destruct x as [f|], y as [g|]; cbn in H; try contradiction; cbn; [|apply agree_panic].
    eapply agree_bind; [apply HP; exact H|]. intros [f1 p] [g1 q] HH. unrel. destruct q as [|v].
    - ends.
    - eapply agree_bind; [apply agree_modify; intros; apply HD; assumption|]. intros _ _ _.
      eapply agree_bind; [apply agree_self|]. intros c _ <-. ends.
  Qed.
  Lemma map_drop_agree F G (Rf : F -> G -> Prop) (df : F -> W -> W) dg x y w :
    (forall f g w, Rf f g -> df f w = dg g w) -> opt Rf x y -> map_drop df x w = map_drop dg y w.
  Proof. intros HD H. destruct x, y; cbn in H; try contradiction; cbn; auto. Qed.

  Ltac go T := intros; unrel; first
    [ solve [leaf T] | solve [eapply (tw_drop_svc T); eassumption] | solve [eapply (tw_drop_fut T); eassumption]
    | solve [eapply map_poll_agree; [apply (tw_poll T)|apply (tw_drop_fut T)|assumption]]
    | solve [eapply map_drop_agree; [apply (tw_drop_fut T)|assumption]]
    | solve [bnd T; intros [? ?] [? ?] ?; unrel; ends] | idtac ].

  Lemma cong_map_request Req' (f : Req' -> M W Req) sa sb :
    bisim a sa b sb -> alike (map_request f a) sa (map_request f b) sb.
  Proof.
    open_ T. exists Rs, Rf. split; [|exact HS]. constructor; cbn; go T.
    bnd T. intros r1 _ <-. leaf T.
  Qed.
  Lemma cong_map_response Resp' (f : Resp -> M W Resp') sa sb :
    bisim a sa b sb -> alike (map_response f a) sa (map_response f b) sb.
  Proof. open_ T. exists Rs, (opt Rf). split; [|exact HS]. constructor; cbn; go T. Qed.
  Lemma cong_map_err Err' (f : Err -> M W Err') sa sb :
    bisim a sa b sb -> alike (map_err f a) sa (map_err f b) sb.
  Proof.
    open_ T. exists Rs, (opt Rf). split; [|exact HS]. constructor; cbn; go T.
    bnd T. intros [? ?] [? [|[]]] ?; unrel; try solve [ends]. bnd T. intros ? ? <-. ends.
  Qed.
  Lemma cong_map_result Resp' Err' (into : Err -> Err') (f : result Resp Err -> M W (result Resp' Err')) sa sb :
    bisim a sa b sb -> alike (map_result into f a) sa (map_result into f b) sb.
  Proof. open_ T. exists Rs, (opt Rf). split; [|exact HS]. constructor; cbn; go T. Qed.

  Definition chains {F F' G} (R : F -> F' -> Prop) (x : chain F G) (y : chain F' G) : Prop :=
    match x, y with First f, First g => R f g | Second t, Second u => t = u | Empty, Empty => True | _, _ => False end.
  Lemma second_agree F F' A (R : F -> F' -> Prop) (T : Task W A) t :
    agree (goes (chains R))
      (x <- tpoll T t ;; match x with (t1, Pending) => ret (@Second F _ t1, Pending) | (t1, Ready v) => modify (tdrop T t1) ;;; ret (Empty, Ready v) end)
      (x <- tpoll T t ;; match x with (t1, Pending) => ret (@Second F' _ t1, Pending) | (t1, Ready v) => modify (tdrop T t1) ;;; ret (Empty, Ready v) end).
  Proof.
    eapply agree_bind; [apply agree_self|]. intros [t1 p] _ <-. destruct p as [|v]; [ends|].
    eapply agree_bind; [apply agree_modify; reflexivity|]. intros _ _ _. ends.
  Qed.
  Lemma cong_then Resp' Err' (into : Err -> Err') (K : Task W (result Resp' Err')) (f : result Resp Err -> M W (tst K)) sa sb :
    bisim a sa b sb -> alike (then_ into K f a) sa (then_ into K f b) sb.
  Proof.
    open_ T. exists Rs, (chains (G := tst K) Rf). split; [|exact HS]. constructor; cbn; go T.
    - destruct f0 as [x|x|], g as [y|y|]; cbn in H; try contradiction; [|subst; apply second_agree|apply agree_panic].
      bnd T. intros [f1 p] [g1 q] HH. unrel. destruct q as [|v]; [ends|].
      bnd T. intros _ _ _. bnd T. intros t _ <-. apply second_agree.
    - destruct f0 as [x|x|], g as [y|y|]; cbn in H; try contradiction; subst; try reflexivity. apply (tw_drop_fut T). exact H.
  Qed.
  Lemma cong_and_then Resp' Err' (into : Err -> Err') (K : Task W (result Resp' Err')) (f : Resp -> M W (tst K)) sa sb :
    bisim a sa b sb -> alike (and_then into K f a) sa (and_then into K f b) sb.
  Proof.
    open_ T. exists Rs, (chains (G := tst K) Rf). split; [|exact HS]. constructor; cbn; go T.
    - destruct f0 as [x|x|], g as [y|y|]; cbn in H; try contradiction; [|subst; apply second_agree|apply agree_panic].
      bnd T. intros [f1 p] [g1 q] HH. unrel. destruct q as [|[v|e]]; [ends| |].
      + bnd T. intros _ _ _. bnd T. intros t _ <-. apply second_agree.
      + bnd T. intros _ _ _. ends.
    - destruct f0 as [x|x|], g as [y|y|]; cbn in H; try contradiction; subst; try reflexivity. apply (tw_drop_fut T). exact H.
  Qed.
  Lemma cong_optional sa sb :
    bisim a sa b sb -> alike (optional a) (Some sa) (optional b) (Some sb).
  Proof.
    open_ T. exists (opt Rs), (opt Rf). split; [|exact HS].
    constructor; cbn; intros x y; destruct x as [x|], y as [y|]; cbn; intros; try contradiction; try reflexivity; go T;
      first [solve [ends] | bnd T; intros ? ? ?; ends | idtac].
  Qed.
  Lemma cong_timeout (rt : Rt W) dur sa sb :
    bisim a sa b sb -> alike (timeout rt dur a) sa (timeout rt dur b) sb.
  Proof.
    open_ T. exists Rs, (fun (x : timeout_fut a) (y : timeout_fut b) => Rf (to_inner x) (to_inner y) /\ to_deadline x = to_deadline y).
    split; [|exact HS]. constructor; cbn; go T.
    - bnd T. intros [? ?] [? ?] ?; unrel. bnd T. intros ? _ <-. ends.
    - destruct f as [f d], g as [g e]; cbn in *; subst. bnd T. intros [f1 p] [g1 q] HH. unrel. destruct q as [|v]; [|ends].
      bnd T. intros c _ <-. destruct c; ends.
  Qed.
  Lemma cong_load_shed sa sb :
    bisim a sa b sb -> alike (load_shed a) (load_shed_new a sa) (load_shed b) (load_shed_new b sb).
  Proof.
    open_ T. exists (fun (x : load_shed_st a) (y : load_shed_st b) => Rs (ls_inner x) (ls_inner y) /\ ls_ready x = ls_ready y), (opt Rf).
    split; [|split; [exact HS|reflexivity]]. constructor; cbn; go T.
    - destruct s as [s c], t as [t d]; cbn in *; subst. bnd T. intros [? ?] [? [|[]]] ?; unrel; ends.
    - destruct s as [s c], t as [t d]; cbn in *; subst. destruct d; [|ends]. bnd T. intros [? ?] [? ?] ?; unrel; ends.
    - destruct f as [f|], g as [g|]; cbn in H; try contradiction; [|ends]. bnd T. intros [? ?] [? ?] ?; unrel; ends.
    - bnd T. intros ? ? ?. ends.
  Qed.
  Lemma cong_filter P PErr Req' (check : P -> Req' -> M W (P * result Req PErr)) pclone sa sb p :
    bisim a sa b sb -> alike (filter a check pclone) (sa, p) (filter b check pclone) (sb, p).
  Proof.
    open_ T. exists (goes Rs), (fun (x : option PErr + option (fut a)) (y : option PErr + option (fut b)) =>
      match x, y with inl e, inl e' => e = e' | inr f, inr g => opt Rf f g | _, _ => False end).
    split; [|split; [exact HS|reflexivity]].
    constructor; cbn.
    - intros [s q] [t q'] [H1 H2]; cbn in *; subst. bnd T. intros [? ?] [? ?] ?; unrel. ends.
    - intros [s q] [t q'] r [H1 H2]; cbn in *; subst. bnd T. intros [p1 v] _ <-. destruct v as [r1|e]; [|ends].
      bnd T. intros [? ?] [? ?] ?; unrel. ends.
    - intros [[e|]|f] [[e'|]|g] HH; try contradiction; try discriminate; [injection HH as ->; ends|apply agree_panic|].
      eapply agree_bind; [eapply map_poll_agree; [apply (tw_poll T)|apply (tw_drop_fut T)|exact HH]|].
      intros [? ?] [? ?] ?; unrel. ends.
    - intros [s q] [t q'] [H1 H2]; cbn in *; subst. bnd T. intros ? ? ?. bnd T. intros ? _ <-. ends.
    - intros [s q] [t q'] w [H1 H2]; cbn in *; subst. apply (tw_drop_svc T). assumption.
    - intros [e|f] [e'|g] w HH; try contradiction; [reflexivity|].
      eapply map_drop_agree; [apply (tw_drop_fut T)|exact HH].
  Qed.

  Lemma cong_async_filter P PErr Req' (K : Task W (result Req PErr)) (check : P -> Req' -> M W (P * tst K)) pclone sa sb p :
    bisim a sa b sb -> alike (async_filter a K check pclone) (sa, p) (async_filter b K check pclone) (sb, p).
  Proof.
    open_ T. exists (goes Rs), (fun (x : afilter_fut a (tst K)) (y : afilter_fut b (tst K)) =>
      Rs (af_svc x) (af_svc y) /\
      match af_state x, af_state y with AfCheck c, AfCheck d => c = d | AfWait f, AfWait g => Rf f g | _, _ => False end).
    split; [|split; [exact HS|reflexivity]].
    constructor; cbn.
    - intros [s q] [t q'] [H1 H2]; cbn in *; subst. bnd T. intros [? ?] [? ?] ?; unrel. ends.
    - intros [s q] [t q'] r [H1 H2]; cbn in *; subst. bnd T. intros ? ? ?. bnd T. intros [p1 c] _ <-. ends.
    - intros [[c|f] s] [[d|g] t] [H1 H2]; cbn in *; try contradiction; subst.
      + bnd T. intros [c1 v] _ <-. destruct v as [|[r|e]]; try solve [ends].
        bnd T. intros [? ?] [? ?] ?; unrel. eapply agree_bind; [apply agree_modify; reflexivity|]. intros _ _ _.
        bnd T. intros [? ?] [? ?] ?; unrel. ends.
      + bnd T. intros [? ?] [? ?] ?; unrel. ends.
    - intros [s q] [t q'] [H1 H2]; cbn in *; subst. bnd T. intros ? ? ?. bnd T. intros ? _ <-. ends.
    - intros [s q] [t q'] w [H1 H2]; cbn in *; subst. apply (tw_drop_svc T). assumption.
    - intros [[c|f] s] [[d|g] t] w [H1 H2]; cbn in *; try contradiction; subst.
      + apply (tw_drop_svc T). assumption.
      + rewrite (tw_drop_fut T _ _ w H2). apply (tw_drop_svc T). assumption.
  Qed.

  Definition retries (pol : Policy W Req Resp Err) (Rs : st a -> st b -> Prop) (Rf : fut a -> fut b -> Prop)
    (x : retry_fut pol a) (y : retry_fut pol b) : Prop :=
    rf_req x = rf_req y /\ rf_pol x = rf_pol y /\ Rs (rf_svc x) (rf_svc y) /\
    match rf_state x, rf_state y with
    | RCalled f, RCalled g => Rf f g
    | RWaiting t, RWaiting u => t = u
    | RRetrying, RRetrying => True
    | _, _ => False
    end.
  Lemma retry_iter_agree (pol : Policy W Req Resp Err) Rs Rf (T : twins a b Rs Rf) x y : @retries pol Rs Rf x y ->
    agree (fun u v => match u, v with
                      | inl f, inl g => @retries pol Rs Rf f g
                      | inr p, inr q => goes (@retries pol Rs Rf) p q
                      | _, _ => False
                      end) (retry_iter x) (retry_iter y).
  Proof.
    destruct x as [rq p s [f|t|]], y as [rq' p' s' [g|u|]]; intros (H1 & H2 & H3 & H4); cbn in *; try contradiction; subst; unfold retry_iter; cbn.
    - bnd T. intros [f1 v] [g1 v'] HH; unrel. destruct v' as [|v]; [ends|]. destruct rq' as [rq|]; [|ends].
      bnd T. intros [[[p1 r1] v1] [t|]] _ <-; [|ends]. bnd T. intros _ _ _. ends.
    - bnd T. intros [t1 v] _ <-. destruct v as [|v]; [ends|]. eapply agree_bind; [apply agree_modify; reflexivity|]. intros _ _ _. ends.
    - bnd T. intros [? ?] [? [|[]]] ?; unrel; try solve [ends]. destruct rq' as [rq|]; [|apply agree_panic].
      bnd T. intros [p1 sv] _ <-. bnd T. intros [? ?] [? ?] ?; unrel. ends.
  Qed.
  Lemma retry_poll_agree (pol : Policy W Req Resp Err) Rs Rf (T : twins a b Rs Rf) n : forall x y, @retries pol Rs Rf x y ->
    agree (goes (@retries pol Rs Rf)) (retry_poll n x) (retry_poll n y).
  Proof.
    induction n as [|n IH]; intros x y H; cbn; [apply agree_diverge|].
    eapply agree_bind; [apply (retry_iter_agree T); exact H|]. intros [f|p] [g|q] HH; try contradiction; [apply IH; exact HH|].
    apply agree_ret. exact HH.
  Qed.
  Lemma cong_retry (pol : Policy W Req Resp Err) fuel sa sb p :
    bisim a sa b sb -> alike (retry pol a fuel) (p, sa) (retry pol b fuel) (p, sb).
  Proof.
    open_ T. exists (fun x y : _ => fst x = fst y /\ Rs (snd x) (snd y)), (@retries pol Rs Rf).
    split; [|split; [reflexivity|exact HS]].
    constructor; cbn.
    - intros [q s] [q' t] [H1 H2]; cbn in *; subst. bnd T. intros [? ?] [? ?] ?; unrel. ends.
    - intros [q s] [q' t] r [H1 H2]; cbn in *; subst. bnd T. intros [p1 sv] _ <-. bnd T. intros [? ?] [? ?] ?; unrel.
      bnd T. intros p2 _ <-. bnd T. intros ? ? ?. ends.
    - intros f g H. apply (retry_poll_agree T). exact H.
    - intros [q s] [q' t] [H1 H2]; cbn in *; subst. bnd T. intros ? _ <-. bnd T. intros ? ? ?. ends.
    - intros [q s] [q' t] w [H1 H2]; cbn in *; subst. apply (tw_drop_svc T). assumption.
    - intros [rq p0 s [f|t|]] [rq' p' s' [g|u|]] w (H1 & H2 & H3 & H4); cbn in *; try contradiction; subst;
        rewrite (tw_drop_svc T _ _ w H3); try reflexivity. apply (tw_drop_fut T). exact H4.
  Qed.

  Lemma cong_rate_limit (rt : Rt W) rate sa sb r z :
    bisim a sa b sb -> alike (rate_limit rt rate a) (RlSt a sa r z) (rate_limit rt rate b) (RlSt b sb r z).
  Proof.
    open_ T. exists (fun (x : rate_limit_st a) (y : rate_limit_st b) => Rs (rl_inner x) (rl_inner y) /\ rl_st x = rl_st y /\ rl_sleep x = rl_sleep y), Rf.
    split; [|repeat split; exact HS].
    constructor; cbn; try solve [go T].
    - intros [s q z1] [t q' z2] (H1 & H2 & H3); cbn in *; subst. destruct q' as [|u rm].
      + bnd T. intros c _ <-. destruct c; [|ends]. bnd T. intros t1 _ <-. bnd T. intros [? ?] [? ?] ?; unrel. ends.
      + bnd T. intros [? ?] [? ?] ?; unrel. ends.
    - intros [s q z1] [t q' z2] rq (H1 & H2 & H3); cbn in *; subst. destruct q' as [|u rm]; [apply agree_panic|].
      bnd T. intros t1 _ <-. destruct (if (1 <? _)%N then _ else _) as [? ?].
      bnd T. intros [? ?] [? ?] ?; unrel. ends.
    - intros; apply agree_panic.
  Qed.

  Lemma agree_lift A B (R : A -> B -> Prop) (m1 : M W A) (m2 : M W B) : agree R m1 m2 -> agree R (lift_snd m1) (lift_snd m2).
  Proof.
    intros H [m w]. specialize (H w). unfold lift_snd. cbn. destruct (m1 w), (m2 w). cbn in *. destruct H as [-> H]. split; [reflexivity|exact H].
  Qed.
  Lemma cong_conc_limit closed debug sa sb :
    bisim a sa b sb -> alike (conc_limit a closed debug) (conc_new a sa) (conc_limit b closed debug) (conc_new b sb).
  Proof.
    open_ T. exists (fun (x : conc_st a) (y : conc_st b) => Rs (cl_inner x) (cl_inner y) /\ cl_wait x = cl_wait y /\ cl_permit x = cl_permit y), Rf.
    split; [|repeat split; exact HS].
    assert (RD : forall s t (w : option nat) p, Rs s t ->
      agree (goes (fun (x : conc_st a) (y : conc_st b) => Rs (cl_inner x) (cl_inner y) /\ cl_wait x = cl_wait y /\ cl_permit x = cl_permit y))
        ('(s1, v) <- lift_snd (poll_ready a s) ;; ret (ConcSt a s1 w p, v))
        ('(s1, v) <- lift_snd (poll_ready b t) ;; ret (ConcSt b s1 w p, v))).
    { intros. eapply agree_bind; [apply agree_lift; eapply (tw_ready T); assumption|]. intros [? ?] [? ?] ?; unrel. ends. }
    constructor; cbn.
    - intros [s q p1] [t q' p2] (H1 & H2 & H3); cbn in *; subst. destruct p2; [apply RD; exact H1|].
      eapply agree_bind; [apply agree_self|]. intros c _ <-. destruct c; [destruct debug; [apply agree_panic|apply RD; exact H1]|].
      eapply agree_bind; [apply agree_self|]. intros m _ <-. destruct (sem_poll q' m) as [[m1 w1] got].
      eapply agree_bind; [apply agree_self|]. intros _ _ _. destruct got; [apply RD; exact H1|ends].
    - intros [s q p1] [t q' p2] r (H1 & H2 & H3); cbn in *; subst. destruct p2; [|apply agree_panic].
      eapply agree_bind; [apply agree_lift; eapply (tw_call T); eassumption|]. intros [? ?] [? ?] ?; unrel. ends.
    - intros f g H. apply agree_lift. apply (tw_poll T). exact H.
    - intros [s q p1] [t q' p2] (H1 & H2 & H3); cbn in *; subst.
      eapply agree_bind; [apply agree_lift; eapply (tw_clone T); eassumption|]. intros ? ? ?. ends.
    - intros [s q p1] [t q' p2] [m w] (H1 & H2 & H3); cbn in *; subst. rewrite (tw_drop_svc T _ _ w H1). reflexivity.
    - intros f g [m w] H. cbn. rewrite (tw_drop_fut T _ _ w H). reflexivity.
  Qed.
End Cong.

(** Either of two. *)
Lemma cong_either_left W Req Resp Err (a b d : Service W Req Resp Err) sa sb :
  alike a sa b sb -> alike (either a d) (inl sa) (either b d) (inl sb).
Proof.
  intros H. eapply alike_trans; [apply law_either_left|]. eapply alike_trans; [exact H|]. apply alike_sym. apply law_either_left.
Qed.
Lemma cong_either_right W Req Resp Err (a b d : Service W Req Resp Err) sa sb :
  alike a sa b sb -> alike (either d a) (inr sa) (either d b) (inr sb).
Proof.
  intros H. eapply alike_trans; [apply law_either_right|]. eapply alike_trans; [exact H|]. apply alike_sym. apply law_either_right.
Qed.
Lemma cong_boxed W Req Resp Err (a b : Service W Req Resp Err) sa sb :
  alike a sa b sb -> alike (boxed a) sa (boxed b) sb.
Proof.
  intros H. eapply alike_trans; [apply law_boxed|]. eapply alike_trans; [exact H|]. apply alike_sym. apply law_boxed.
Qed.

Lemma law_filter' W Req Resp Err (svc : Service W Req Resp Err) P PErr Req1
  (check : P -> Req1 -> M W (P * result Req PErr)) pclone (f : Req1 -> M W Req) :
  (forall p r, same_do (check p r) (x <- f r ;; ret (p, Ok x))) -> (forall p, same_do (pclone p) (ret p)) ->
  forall s p, alike (filter svc check pclone) (s, p) (map_err (fun e => ret (inl e)) (map_request f svc)) s.
Proof.
  intros H1 H2 s p. apply law_filter.
  - intros q r w. rewrite H1. unfold bind, ret. destruct (f r w) as [w1 [x| |]]; reflexivity.
  - intros q w. apply H2.
Qed.

Lemma under_util W Req Resp Err (a b : Service W Req Resp Err) sa sb : alike a sa b sb ->
  alike (boxed a) sa (boxed b) sb /\
  (forall Req' (f : Req' -> M W Req), alike (map_request f a) sa (map_request f b) sb) /\
  (forall Resp' (f : Resp -> M W Resp'), alike (map_response f a) sa (map_response f b) sb) /\
  (forall Err' (f : Err -> M W Err'), alike (map_err f a) sa (map_err f b) sb) /\
  (forall Resp' Err' (into : Err -> Err') (f : result Resp Err -> M W (result Resp' Err')),
     alike (map_result into f a) sa (map_result into f b) sb) /\
  (forall Resp' Err' (into : Err -> Err') (T : Task W (result Resp' Err')) (f : result Resp Err -> M W (tst T)),
     alike (then_ into T f a) sa (then_ into T f b) sb) /\
  (forall Resp' Err' (into : Err -> Err') (T : Task W (result Resp' Err')) (f : Resp -> M W (tst T)),
     alike (and_then into T f a) sa (and_then into T f b) sb) /\
  alike (optional a) (Some sa) (optional b) (Some sb) /\
  (forall d, alike (either a d) (inl sa) (either b d) (inl sb)) /\
  (forall d, alike (either d a) (inr sa) (either d b) (inr sb)).
Proof.
  intros H. pose proof (alike_bisim H) as B.
  split; [apply cong_boxed; exact H|].
  split; [intros; apply cong_map_request; exact B|].
  split; [intros; apply cong_map_response; exact B|].
  split; [intros; apply cong_map_err; exact B|].
  split; [intros; apply cong_map_result; exact B|].
  split; [intros; apply cong_then; exact B|].
  split; [intros; apply cong_and_then; exact B|].
  split; [apply cong_optional; exact B|].
  split; [intros; apply cong_either_left; exact H|intros; apply cong_either_right; exact H].
Qed.

Lemma under_middleware W Req Resp Err (a b : Service W Req Resp Err) sa sb : alike a sa b sb ->
  (forall rt dur, alike (timeout rt dur a) sa (timeout rt dur b) sb) /\
  alike (load_shed a) (load_shed_new a sa) (load_shed b) (load_shed_new b sb) /\
  (forall P PErr Req' (check : P -> Req' -> M W (P * result Req PErr)) pclone p,
     alike (filter a check pclone) (sa, p) (filter b check pclone) (sb, p)) /\
  (forall P PErr Req' (T : Task W (result Req PErr)) (check : P -> Req' -> M W (P * tst T)) pclone p,
     alike (async_filter a T check pclone) (sa, p) (async_filter b T check pclone) (sb, p)) /\
  (forall (pol : Policy W Req Resp Err) fuel p, alike (retry pol a fuel) (p, sa) (retry pol b fuel) (p, sb)) /\
  (forall rt rate r z, alike (rate_limit rt rate a) (RlSt a sa r z) (rate_limit rt rate b) (RlSt b sb r z)) /\
  (forall closed debug,
     alike (conc_limit a closed debug) (conc_new a sa) (conc_limit b closed debug) (conc_new b sb)).
Proof.
  intros H. pose proof (alike_bisim H) as B.
  split; [intros; apply cong_timeout; exact B|].
  split; [apply cong_load_shed; exact B|].
  split; [intros; apply cong_filter; exact B|].
  split; [intros; apply cong_async_filter; exact B|].
  split; [intros; apply cong_retry; exact B|].
  split; [intros; apply cong_rate_limit; exact B|].
  intros; apply cong_conc_limit; exact B.
Qed.
