(** Every combinator of Util.v and Middleware.v keeps its side of the contract
    when its caller does. *)
From Verif Require Import Base ContractSpec StackSpec Safe Util Middleware.
Set Implicit Arguments.

Ltac leaf :=
  first [ eapply sf_ready; solve [eauto]
        | eapply sf_call; solve [eauto]
        | eapply sf_poll; solve [eauto]
        | eapply sf_clone; solve [eauto]
        | eapply okm_quiet; solve [eauto]
        | eapply okm_gives; solve [eauto] ].

Ltac okdone := cbn in *; intuition (try congruence; eauto).

Ltac walk :=
  repeat (cbn in *;
    match goal with
    | |- okm _ (ret _) _ => apply okm_ret
    | |- okm _ (bind (modify _) _) _ =>
        apply okm_bind with (P := fun _ => True); [apply okm_modify; exact I | intros ? _]
    | |- okm _ (bind (get _) _) _ =>
        apply okm_bind with (P := fun _ => True); [apply okm_get; intros; exact I | intros ? _]
    | |- okm _ (bind (sleep_poll _ _) _) _ =>
        apply okm_bind with (P := fun _ => True); [apply okm_sleep; intros; exact I | intros ? _]
    | |- okm _ (bind (ret _) _) _ =>
        eapply okm_bind; [apply okm_ret; instantiate (1 := fun _ => _) | ]
    | |- okm _ (bind (match ?x with _ => _ end) _) _ => destruct x eqn:?
    | |- okm _ (bind (bind _ _) _) _ => eapply okm_bind
    | |- okm _ (bind _ _) _ => eapply okm_bind; [leaf | intros ? ?]
    | |- okm _ (match ?x with _ => _ end) _ => destruct x eqn:?
    | |- okm _ (let '(_, _) := ?x in _) _ => destruct x eqn:?
    | H : _ /\ _ |- _ => destruct H
    | |- _ /\ _ => split
    | x : (_ * _)%type |- _ => destruct x
    | |- okm _ (poll_ready _ _) _ => first [leaf | eapply okm_mono; [leaf | intros ? ?]]
    | |- okm _ (call _ _ _) _ => first [leaf | eapply okm_mono; [leaf | intros ? ?]]
    | |- okm _ (poll_fut _ _) _ => first [leaf | eapply okm_mono; [leaf | intros ? ?]]
    | |- okm _ (clone _ _) _ => first [leaf | eapply okm_mono; [leaf | intros ? ?]]
    end).

Ltac dpoll :=
  match goal with
  | p : poll (result _ _) |- _ => destruct p as [|[|]]
  end.

Section UtilSafe.
  Context {W Req Resp Err : Type} (c : caps) (svc : Service W Req Resp Err).
  Context (R Rdy : st svc -> Prop) (V : fut svc -> Prop).
  Hypothesis HS : Safe c svc R Rdy V.

  Lemma boxed_safe : Safe c (boxed svc) R Rdy V.
  Proof. destruct HS; split; auto. Qed.

  Lemma map_request_safe Req' (f : Req' -> M W Req) :
    (forall r, quiet (f r)) -> Safe c (map_request f svc) R Rdy V.
  Proof.
    intros Hf. split; cbn; try apply HS; intros; walk.
  Qed.

  Definition Vopt (f : option (fut svc)) : Prop :=
    match f with Some f0 => V f0 | None => False end.

  Lemma map_poll_safe B (h : result Resp Err -> M W B) (f : option (fut svc)) :
    (forall r, quiet (h r)) -> Vopt f ->
    okm (c_div c) (map_poll (poll_fut svc) (drop_fut svc) h f)
      (fun x => snd x = Pending -> Vopt (fst x)).
  Proof.
    intros Hh Hf. destruct f as [f|]; [|contradiction]. cbn in *.
    walk; okdone.
  Qed.

  Lemma quiet_ret A (a : A) : quiet (W:=W) (ret a).
  Proof. intros w. exact I. Qed.
  Lemma quiet_bind A B (m : M W A) (k : A -> M W B) :
    quiet m -> (forall a, quiet (k a)) -> quiet (bind m k).
  Proof.
    intros Hm Hk w. unfold bind. specialize (Hm w).
    destruct (m w) as [w1 [a| |]]; cbn in *; try contradiction. apply Hk.
  Qed.

  Lemma map_response_safe Resp' (f : Resp -> M W Resp') :
    (forall r, quiet (f r)) -> Safe c (map_response f svc) R Rdy Vopt.
  Proof.
    intros Hf. split; cbn; try apply HS; intros; walk; try okdone.
    apply map_poll_safe; auto. intros [a|e]; auto using quiet_ret, quiet_bind.
  Qed.

  Lemma map_err_safe Err' (f : Err -> M W Err') :
    (forall r, quiet (f r)) -> Safe c (map_err f svc) R Rdy Vopt.
  Proof.
    intros Hf. split; cbn; try apply HS; intros; walk; try okdone.
    - eapply okm_bind; [eapply sf_stk; eauto|]. intros; walk; okdone.
    - apply map_poll_safe; auto. intros [a|e]; auto using quiet_ret, quiet_bind.
  Qed.

  Lemma poll_map_not_pending A B (f : A -> B) (p : poll A) :
    p <> Pending -> poll_map f p <> Pending.
  Proof. destruct p; cbn; congruence. Qed.

  Lemma map_ready_ok {Err'} (g : Err -> Err') s :
    R s -> okm (c_div c) ('(s1, a) <- poll_ready svc s ;; ret (s1, poll_map (map_er g) a))
      (fun x => match snd x with
                | Pending => R (fst x) | Ready (Ok _) => Rdy (fst x) | Ready (Er _) => True end).
  Proof. intros. walk. dpoll; okdone. Qed.

  Lemma map_ready_stk {Err'} (g : Err -> Err') s :
    c_stk c = true -> Rdy s ->
    okm (c_div c) ('(s1, a) <- poll_ready svc s ;; ret (s1, poll_map (map_er g) a))
      (fun x => snd x <> Pending).
  Proof.
    intros. eapply okm_bind; [eapply sf_stk; eauto|]. intros [s1 a] Ha. apply okm_ret. cbn in *.
    auto using poll_map_not_pending.
  Qed.

  Lemma map_result_safe Resp' Err' (into : Err -> Err')
    (f : result Resp Err -> M W (result Resp' Err')) :
    (forall r, quiet (f r)) -> Safe c (map_result into f svc) R Rdy Vopt.
  Proof.
    intros Hf. split; cbn; try apply HS; intros;
      [apply map_ready_ok | apply map_ready_stk | walk | apply map_poll_safe]; auto.
  Qed.

  Lemma map_future_safe Resp' Err' (into : Err -> Err') (T : Task W (result Resp' Err'))
    (f : fut svc -> M W (tst T)) :
    forall VT, task_ok T VT -> (forall x, V x -> gives (f x) VT) ->
    Safe c (map_future into svc T f) R Rdy VT.
  Proof.
    intros VT HT Hf. split; cbn; try apply HS; intros;
      [apply map_ready_ok | apply map_ready_stk | walk | ]; auto.
    apply okm_gives, HT; auto.
  Qed.

  Definition Vchain {G} (VT : G -> Prop) (x : chain (fut svc) G) : Prop :=
    match x with First f => V f | Second t => VT t | Empty => False end.

  Lemma then_safe Resp' Err' (into : Err -> Err') (T : Task W (result Resp' Err'))
    (f : result Resp Err -> M W (tst T)) :
    forall VT, task_ok T VT -> (forall x, gives (f x) VT) ->
    Safe c (then_ into T f svc) R Rdy (Vchain VT).
  Proof.
    intros VT HT Hf. split; cbn; try apply HS; intros;
      [apply map_ready_ok | apply map_ready_stk | walk | ]; auto.
    rename H into HV. destruct f0; cbn in *; walk; okdone.
  Qed.

  Lemma and_then_safe Resp' Err' (into : Err -> Err') (T : Task W (result Resp' Err'))
    (f : Resp -> M W (tst T)) :
    forall VT, task_ok T VT -> (forall x, gives (f x) VT) ->
    Safe c (and_then into T f svc) R Rdy (Vchain VT).
  Proof.
    intros VT HT Hf. split; cbn; try apply HS; intros;
      [apply map_ready_ok | apply map_ready_stk | walk | ]; auto.
    rename H into HV. destruct f0; cbn in *; walk; okdone.
  Qed.

  Definition Popt {A} (P : A -> Prop) (dflt : Prop) (x : option A) : Prop :=
    match x with Some a => P a | None => dflt end.

  Lemma optional_safe :
    Safe c (optional svc) (Popt R True) (Popt Rdy True) (Popt V True).
  Proof.
    split; cbn; intros.
    - destruct s; cbn in *; auto. apply HS; auto.
    - destruct s; cbn in *; walk; auto. dpoll; okdone.
    - destruct s; cbn in *; walk; try discriminate.
      eapply okm_bind; [eapply sf_stk; eauto|]. intros [s1 a] Ha. apply okm_ret. cbn in *.
      auto using poll_map_not_pending.
    - destruct s; cbn in *; walk; auto.
    - destruct f; cbn in *; walk; try okdone. destruct p; okdone.
    - destruct s; cbn in *; walk; auto.
  Qed.

  Lemma future_service_safe (T : Task W (result (st svc) Err)) tclone :
    forall VT : tst T -> Prop,
    (forall t, VT t -> gives (tpoll T t)
                 (fun x => match snd x with
                           | Pending => VT (fst x) | Ready (Ok s) => R s | _ => True end)) ->
    (forall t, VT t -> gives (tclone t) VT) ->
    Safe c (future_service svc T tclone)
      (fun s => match s with inl t => VT t | inr s => R s end)
      (fun s => match s with inl _ => False | inr s => Rdy s end) V.
  Proof.
    intros VT HT Hc. split; cbn; intros.
    - destruct s; [contradiction | apply HS; auto].
    - destruct s as [t|s].
      + eapply okm_bind; [apply okm_gives, HT; auto|]. intros [t1 [|[s0|e]]] Hx; cbn in *; walk; okdone;
        dpoll; okdone.
      + walk. dpoll; okdone.
    - destruct s as [t|s]; [contradiction|].
      eapply okm_bind; [eapply sf_stk; eauto|]. intros [s1 a] Ha. apply okm_ret. auto.
    - destruct s as [t|s]; [contradiction|]. walk; auto.
    - apply HS; auto.
    - destruct s as [t|s]; walk; auto.
  Qed.

  (** ** Middleware.v *)
  Lemma timeout_safe rt dur :
    Safe c (timeout rt dur svc) R Rdy (fun f => V (to_inner f)).
  Proof.
    split; cbn; try apply HS; intros;
      [apply map_ready_ok | apply map_ready_stk | walk | walk]; okdone.
  Qed.

  Lemma load_shed_safe :
    Safe (Caps (c_div c) true (c_cl c)) (load_shed svc)
      (fun s => R (ls_inner s) /\ (ls_ready s = true -> Rdy (ls_inner s)))
      (fun s => R (ls_inner s) /\ (ls_ready s = true -> Rdy (ls_inner s)))
      (Popt V True).
  Proof.
    split; cbn; intros; auto.
    - walk; okdone; apply HS; auto.
    - walk; okdone.
    - walk; okdone.
    - destruct f; cbn in *; walk; okdone. destruct p; okdone.
    - destruct s as [s b]; cbn in *. walk; okdone.
  Qed.

  Lemma filter_safe P PErr Req' (check : P -> Req' -> M W (P * result Req PErr)) pclone :
    (forall p r, quiet (check p r)) -> (forall p, quiet (pclone p)) ->
    Safe c (filter svc check pclone) (fun s => R (fst s)) (fun s => Rdy (fst s))
      (fun f => match f with inl (Some _) => True | inl None => False | inr f0 => Vopt f0 end).
  Proof.
    intros Hp Hc. split; cbn; intros.
    - apply HS; auto.
    - walk; dpoll; okdone.
    - eapply okm_bind; [eapply sf_stk; eauto|]. intros [s1 a] Ha. apply okm_ret. cbn in *.
      auto using poll_map_not_pending.
    - destruct s as [s p]; cbn in *. walk; try okdone. apply HS; auto.
    - destruct f as [[e|]|f]; walk; try okdone.
      eapply okm_bind; [apply map_poll_safe; [intros; apply quiet_ret | eassumption]|].
      intros [f1 q] Hq. apply okm_ret. exact Hq.
    - destruct s as [s p]; cbn in *. walk. auto.
  Qed.

  (** AsyncFilter needs [Clone]. *)
  Lemma async_filter_safe P PErr Req' (T : Task W (result Req PErr))
    (check : P -> Req' -> M W (P * tst T)) pclone :
    forall VT, c_cl c = true -> task_ok T VT ->
    (forall p r, gives (check p r) (fun x => VT (snd x))) -> (forall p, quiet (pclone p)) ->
    Safe c (async_filter svc T check pclone) (fun s => R (fst s)) (fun s => Rdy (fst s))
      (fun f => match af_state f with AfCheck t => Rdy (af_svc f) /\ VT t | AfWait x => V x end).
  Proof.
    intros VT Hcl HT Hp Hc. split; cbn; intros.
    - apply HS; auto.
    - walk; dpoll; okdone.
    - eapply okm_bind; [eapply sf_stk; eauto|]. intros [s1 a] Ha. apply okm_ret. cbn in *.
      auto using poll_map_not_pending.
    - destruct s as [s p]; cbn in *.
      eapply okm_bind; [eapply sf_clone; eauto; apply HS; auto|]. intros. walk; okdone.
    - destruct f as [[x|x] s]; cbn in *; walk; try okdone;
      match goal with H : poll_map _ ?q = Pending |- _ => destruct q; okdone end.
    - destruct s as [s p]; cbn in *. walk. auto.
  Qed.

  (** Retry needs [Clone].  The poll loop may spin for ever. *)
  Lemma retry_safe (pol : Policy W Req Resp Err) fuel :
    forall VT, c_cl c = true -> task_ok (pfut pol) VT ->
    (forall p r, quiet (clone_request pol p r)) ->
    (forall p r v, gives (retry_decide pol p r v)
                     (fun x => match snd x with Some t => VT t | None => True end)) ->
    (forall p, quiet (pol_clone pol p)) ->
    Safe (Caps true (c_stk c) true) (retry pol svc fuel)
      (fun s => R (snd s)) (fun s => Rdy (snd s))
      (fun f : retry_fut pol svc => R (rf_svc f) /\ match rf_state f with
                | RCalled x => V x
                | RWaiting t => rf_req f <> None /\ VT t
                | RRetrying => rf_req f <> None
                end).
  Proof.
    intros VT Hcl HT H1 H2 H3.
    assert (Lift : forall A (m : M W A) Q, okm (c_div c) m Q -> okm true m Q).
    { intros A m Q H w. specialize (H w). destruct (snd (m w)); auto. }
    assert (HS' : Safe (Caps true (c_stk c) true) svc R Rdy V).
    { destruct HS. split; cbn; eauto. }
    clear Lift. split; cbn -[retry_poll]; intros.
    - apply HS'; auto.
    - destruct s as [q s]; cbn in *.
      eapply okm_bind; [apply (sf_ready HS'); eauto|]. intros [s1 a] Ha. apply okm_ret. exact Ha.
    - eapply okm_bind; [eapply (sf_stk HS'); cbn; eauto|]. intros [s1 a] Ha. apply okm_ret. auto.
    - destruct s as [q s]; cbn in *.
      eapply okm_bind; [apply okm_quiet; auto|]. intros [p1 saved] _. cbn.
      eapply okm_bind; [apply (sf_call HS'); eauto|]. intros [s1 x] [Hs1 Hx]. cbn in *.
      eapply okm_bind; [apply okm_quiet; auto|]. intros p2 _.
      eapply okm_bind; [apply (sf_clone HS'); auto|]. intros s2 Hs2. apply okm_ret. cbn. auto.
    - revert f H. induction fuel as [|n IH]; intros f [Hs Hf]; [intros w; reflexivity|].
      cbn [retry_poll].
      apply okm_bind with (P := fun x => match x with
        | inl f => R (rf_svc f) /\ match rf_state f with RCalled x => V x | RWaiting t => rf_req f <> None /\ VT t | RRetrying => rf_req f <> None end
        | inr (f, p) => p = Pending -> R (rf_svc f) /\ match rf_state f with RCalled x => V x | RWaiting t => rf_req f <> None /\ VT t | RRetrying => rf_req f <> None end end).
      2:{ intros [f1|[f1 p]] Hx; [apply IH; auto | apply okm_ret; exact Hx]. }
      unfold retry_iter. destruct (rf_state f) as [x|t|].
      + eapply okm_bind; [apply (sf_poll HS'); auto|]. intros [x1 [|res]] Hx; cbn in *.
        * apply okm_ret. cbn. auto.
        * destruct (rf_req f) as [req|] eqn:Er.
          -- eapply okm_bind; [apply okm_gives, H2|]. intros [[[p1 r1] v1] [t|]] Ht; cbn in *.
             ++ apply okm_bind with (P := fun _ => True); [apply okm_modify; exact I|]. intros _ _. apply okm_ret. cbn.
                repeat split; [auto | discriminate | auto].
             ++ apply okm_ret. discriminate.
          -- apply okm_ret. discriminate.
      + destruct Hf as [Hf Ht]. eapply okm_bind; [apply okm_gives, HT, Ht|].
        intros [t1 [|u]] Hx; cbn in *.
        * apply okm_ret. cbn. auto.
        * apply okm_bind with (P := fun _ => True); [apply okm_modify; exact I|]. intros _ _. apply okm_ret. cbn. auto.
      + eapply okm_bind; [apply (sf_ready HS'); auto|]. intros [s1 [|[u|e]]] Hx; cbn in *.
        * apply okm_ret. cbn. auto.
        * destruct (rf_req f) as [req|] eqn:Er; [|congruence].
          eapply okm_bind; [apply okm_quiet; auto|]. intros [p1 saved] _. cbn.
          eapply okm_bind; [apply (sf_call HS'); auto|]. intros [s2 x] [A B]. apply okm_ret. cbn. auto.
        * apply okm_ret. discriminate.
    - destruct s as [q s]; cbn in *.
      eapply okm_bind; [apply okm_quiet; auto|]. intros p1 _.
      eapply okm_bind; [apply (sf_clone HS'); auto|]. intros s2 Hs2. apply okm_ret. exact Hs2.
  Qed.
End UtilSafe.
