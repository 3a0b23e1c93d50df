(** Proof of C66. *)
From Verif Require Import Base Util ReadyCache Load Make Middleware Limits Hedge MeterSpec MeterMore LiveSpec.
Set Implicit Arguments.
Arguments lv_ready {W Req Resp Err rdy svc R} _ [s] _ _.
Arguments lv_call {W Req Resp Err rdy svc R} _ [s] _ _ _.
Arguments lv_clone {W Req Resp Err rdy svc R} _ [s] _ _.

Section Logic.
  Context {W : Type}.
  Lemma gives_ret A (a : A) (P : A -> Prop) : P a -> gives (W := W) (ret a) P.
  Proof. intros H w. exact H. Qed.
  Lemma gives_panic A (P : A -> Prop) : gives (W := W) panic P.
  Proof. intros w. exact I. Qed.
  Lemma gives_get A (f : W -> A) (P : A -> Prop) : (forall a, P a) -> gives (get f) P.
  Proof. intros H w. apply H. Qed.
  Lemma gives_modify (g : W -> W) (P : unit -> Prop) : P tt -> gives (modify g) P.
  Proof. intros H w. exact H. Qed.
  Lemma gives_bind A B (m : M W A) (k : A -> M W B) P Q : gives m P -> (forall a, P a -> gives (k a) Q) -> gives (bind m k) Q.
  Proof.
    intros Hm Hk w. unfold bind. specialize (Hm w). destruct (m w) as [w1 [a| |]]; cbn in *; [| exact I | contradiction].
    apply Hk, Hm.
  Qed.
  Lemma gives_mono A (m : M W A) (P Q : A -> Prop) : gives m P -> (forall a, P a -> Q a) -> gives m Q.
  Proof. intros Hm H w. specialize (Hm w). destruct (snd (m w)); auto. Qed.
  Lemma gives_and A (m : M W A) (P Q : A -> Prop) : gives m P -> gives m Q -> gives m (fun a => P a /\ Q a).
  Proof. intros H1 H2 w. specialize (H1 w). specialize (H2 w). destruct (snd (m w)); auto. Qed.
  Lemma gives_any A (f : W -> W * A) : gives (fun w => let '(w1, a) := f w in (w1, Val a)) (fun _ => True).
  Proof. intros w. destruct (f w). exact I. Qed.
  Lemma gives_mod (g : W -> W) : gives (modify g) (fun _ => True).
  Proof. intros w. exact I. Qed.
  Lemma gives_sleep (rt : Rt W) d : gives (sleep_poll rt d) (fun _ => True).
  Proof.
    unfold sleep_poll. apply gives_bind with (P := fun _ => True); [apply gives_get; auto |]. intros b _.
    apply gives_bind with (P := fun _ => True); [apply gives_modify, I |]. intros u _. apply gives_ret, I.
  Qed.

  Lemma reaches_gives X O (p : X -> M W (X * poll O)) P x :
    reaches p P x <-> gives (p x) (fun y => match snd y with Pending => reaches p P (fst y) | Ready o => P o end).
  Proof.
    split.
    - intros [x0 H1 H2 H3] w. specialize (H1 w). specialize (H2 w). specialize (H3 w).
      destruct (p x0 w) as [w1 [[x1 [|o]]| |]]; cbn in *; auto; [eapply H2; reflexivity | eapply H3; reflexivity].
    - intros H. constructor.
      + intros w E. specialize (H w). rewrite E in H. exact H.
      + intros w w1 x1 E. specialize (H w). rewrite E in H. exact H.
      + intros w w1 x1 o E. specialize (H w). rewrite E in H. exact H.
  Qed.
  (** induction *)
  Lemma reaches_ind' X O (p : X -> M W (X * poll O)) P (Q : X -> Prop) :
    (forall x, gives (p x) (fun y => match snd y with Pending => reaches p P (fst y) /\ Q (fst y) | Ready o => P o end) -> Q x) ->
    forall x, reaches p P x -> Q x.
  Proof.
    intros H x Hx. induction Hx as [x H1 H2 IH H3]. apply H. intros w.
    specialize (H1 w). specialize (H2 w). specialize (IH w). specialize (H3 w).
    destruct (p x w) as [w1 [[x1 [|o]]| |]]; cbn in *; auto; [split; eauto | eauto].
  Qed.
  Lemma reaches_mono X O (p : X -> M W (X * poll O)) (P Q : O -> Prop) : (forall o, P o -> Q o) -> forall x, reaches p P x -> reaches p Q x.
  Proof.
    intros H. apply reaches_ind'. intros x Hx. apply reaches_gives. eapply gives_mono; [exact Hx |].
    intros [x1 [|o]]; cbn; [tauto | apply H].
  Qed.
  (** A poller that polls another and then goes on. *)
  Lemma reaches_via X Y O O' (p : X -> M W (X * poll O)) (q : Y -> M W (Y * poll O')) (g : X -> Y) P P' :
    (forall x, (forall G, gives (p x) G -> (forall x1 a, G (x1, a) -> match a with Pending => reaches q P' (g x1) | Ready o => P o end) ->
                          reaches q P' (g x))) ->
    forall x, reaches p P x -> reaches q P' (g x).
  Proof.
    intros H. apply reaches_ind'. intros x Hx. eapply H; [exact Hx |]. intros x1 [|o] Ha; cbn in Ha; tauto.
  Qed.
End Logic.

Ltac gb := eapply gives_bind.
Ltac gr := apply gives_ret.
Ltac rg := apply reaches_gives.

(** ** Services that always come back *)
Record Safe {W Req Resp Err} (svc : Service W Req Resp Err) (R : st svc -> Prop) (V : fut svc -> Prop) : Prop := {
  sf_ready : forall s, R s -> gives (poll_ready svc s) (fun x => R (fst x));
  sf_call : forall s r, R s -> gives (call svc s r) (fun x => R (fst x) /\ V (snd x));
  sf_poll : forall f, V f -> gives (poll_fut svc f) (fun x => match snd x with Pending => V (fst x) | _ => True end);
  sf_clone : forall s, R s -> gives (clone svc s) R }.
Lemma lively_safe W Req Resp Err b (svc : Service W Req Resp Err) R : Lively b svc R -> Safe svc R (answers (poll_fut svc)).
Proof.
  intros H. constructor; [apply (lv_ready H) | apply (lv_call H) | | apply (lv_clone H)].
  intros f Hf. apply reaches_gives in Hf. eapply gives_mono; [exact Hf |]. intros [x [|o]]; cbn; auto.
Qed.

Section Layers.
  Context {W Req Resp Err : Type} (rdy : bool) (svc : Service W Req Resp Err).
  Context (R : st svc -> Prop) (H : Lively rdy svc R).

  Lemma map_poll_reaches B (h : result Resp Err -> M W B) : (forall r, gives (h r) (fun _ => True)) ->
    forall f, answers (poll_fut svc) f -> answers (map_poll (poll_fut svc) (drop_fut svc) h) (Some f).
  Proof.
    intros Hh. apply reaches_ind'. intros f Hf. rg. cbn [map_poll]. gb; [exact Hf |]. intros [f1 [|o]]; cbn.
    - intros [_ Ha]. gr. exact Ha.
    - intros _. gb; [apply gives_mod |]. intros u _. gb; [apply Hh |]. intros b _. gr. exact I.
  Qed.
  Lemma some_call_l B (h : result Resp Err -> M W B) s r : (forall r, gives (h r) (fun _ => True)) -> R s ->
    gives ('(s1, x) <- call svc s r ;; ret (s1, Some x)) (fun x => R (fst x) /\ answers (map_poll (poll_fut svc) (drop_fut svc) h) (snd x)).
  Proof.
    intros Hh Hs. gb; [apply (lv_call H r Hs) |]. intros [s1 f] [H1 H2]. gr. split; [exact H1 |]. apply map_poll_reaches; assumption.
  Qed.
  (** readiness passed on, the answer changed *)
  Lemma into_ready_l E' (g : poll (result unit Err) -> poll (result unit E')) s :
    R s -> gives ('(s1, a) <- poll_ready svc s ;; ret (s1, g a)) (fun x => R (fst x)).
  Proof. intros Hs. gb; [apply (lv_ready H Hs) |]. intros [s1 a] H1. gr. exact H1. Qed.
  Lemma into_ready_r E' (g : result unit Err -> result unit E') : forall s, answers (poll_ready svc) s ->
    answers (fun s => '(s1, a) <- poll_ready svc s ;; ret (s1, poll_map g a)) s.
  Proof.
    apply reaches_ind'. intros s Hs. rg. gb; [exact Hs |]. intros [s1 [|a]]; cbn; [intros [_ Ha] | intros _]; gr; [exact Ha | exact I].
  Qed.

  Lemma boxed_l : Lively rdy (boxed svc) R.
  Proof. destruct H. constructor; assumption. Qed.
  Lemma into_service_l : Lively rdy (into_service svc) R.
  Proof. destruct H. constructor; assumption. Qed.
  Lemma as_service_l : Lively rdy (as_service svc) R.
  Proof. destruct H. constructor; assumption. Qed.
  Lemma map_request_l Req' (f : Req' -> M W Req) : (forall r, gives (f r) (fun _ => True)) -> Lively rdy (map_request f svc) R.
  Proof. intros Hf. constructor; try apply H. intros s r Hs. cbn. gb; [apply Hf |]. intros r1 _. apply (lv_call H r1 Hs). Qed.
  Lemma map_response_l Resp' (f : Resp -> M W Resp') : (forall r, gives (f r) (fun _ => True)) -> Lively rdy (map_response f svc) R.
  Proof.
    intros Hf. constructor; try apply H. intros s r Hs. apply some_call_l; [| exact Hs].
    intros [a|e]; [gb; [apply Hf |]; intros b _; gr; exact I | gr; exact I].
  Qed.
  Lemma map_err_l Err' (f : Err -> M W Err') : (forall r, gives (f r) (fun _ => True)) -> Lively rdy (map_err f svc) R.
  Proof.
    intros Hf. constructor; cbn; try apply H.
    - intros s Hs. gb; [apply (lv_ready H Hs) |]. intros [s1 [|[u|e]]] H1; try (gr; exact H1). gb; [apply Hf |]. intros e1 _. gr. exact H1.
    - intros E s Hs. generalize (lv_becomes_ready H E _ Hs). clear Hs. revert s. apply reaches_ind'. intros s Hs. rg. gb; [exact Hs |].
      intros [s1 [|[u|e]]]; cbn; [intros [_ Ha]; gr; exact Ha | intros _; gr; exact I |].
      intros _. gb; [apply Hf |]. intros e1 _. gr. exact I.
    - intros s r Hs. apply some_call_l; [| exact Hs].
      intros [a|e]; [gr; exact I | gb; [apply Hf |]; intros b _; gr; exact I].
  Qed.
  Lemma map_result_l Resp' Err' (into : Err -> Err') (f : result Resp Err -> M W (result Resp' Err')) :
    (forall r, gives (f r) (fun _ => True)) -> Lively rdy (map_result into f svc) R.
  Proof.
    intros Hf. constructor; cbn; try apply H.
    - intros s Hs. apply into_ready_l, Hs.
    - intros E s Hs. apply into_ready_r, (lv_becomes_ready H E _ Hs).
    - intros s r Hs. apply some_call_l; assumption.
  Qed.
  Lemma map_future_l Resp' Err' (into : Err -> Err') (T : Task W (result Resp' Err')) (f : fut svc -> M W (tst T)) :
    (forall x, answers (poll_fut svc) x -> gives (f x) (answers (tpoll T))) -> Lively rdy (map_future into svc T f) R.
  Proof.
    intros Hf. constructor; cbn; try apply H.
    - intros s Hs. apply into_ready_l, Hs.
    - intros E s Hs. apply into_ready_r, (lv_becomes_ready H E _ Hs).
    - intros s r Hs. gb; [apply (lv_call H r Hs) |]. intros [s1 x] [H1 H2]. gb; [apply (Hf x H2) |]. intros t Ht. gr. split; assumption.
  Qed.

  Lemma then_l Resp' Err' (into : Err -> Err') (T : Task W (result Resp' Err')) (f : result Resp Err -> M W (tst T)) :
    (forall x, gives (f x) (answers (tpoll T))) -> Lively rdy (then_ into T f svc) R.
  Proof.
    intros Hf.
    assert (H2 : forall t, answers (tpoll T) t -> answers (poll_fut (then_ into T f svc)) (Second t)).
    { apply reaches_ind'. intros t Ht. rg. cbn. gb; [exact Ht |]. intros [t1 [|o]]; cbn; [intros [_ Ha]; gr; exact Ha |].
      intros _. gb; [apply gives_mod |]. intros u _. gr. exact I. }
    constructor; cbn [then_ poll_ready call clone]; try apply H.
    - intros s Hs. apply into_ready_l, Hs.
    - intros E s Hs. apply into_ready_r, (lv_becomes_ready H E _ Hs).
    - intros s r Hs. gb; [apply (lv_call H r Hs) |]. intros [s1 x] [H1 Hx]. gr. split; [exact H1 |]. cbn [snd]. clear H1.
      revert x Hx. apply reaches_ind'. intros x Hx. rg. cbn. gb; [exact Hx |]. intros [x1 [|o]]; cbn; [intros [_ Ha]; gr; exact Ha |].
      intros _. gb; [apply gives_mod |]. intros u _. gb; [apply Hf |]. intros t Ht. exact (proj1 (reaches_gives _ _ _) (H2 t Ht)).
  Qed.
  Lemma and_then_l Resp' Err' (into : Err -> Err') (T : Task W (result Resp' Err')) (f : Resp -> M W (tst T)) :
    (forall x, gives (f x) (answers (tpoll T))) -> Lively rdy (and_then into T f svc) R.
  Proof.
    intros Hf.
    assert (H2 : forall t, answers (tpoll T) t -> answers (poll_fut (and_then into T f svc)) (Second t)).
    { apply reaches_ind'. intros t Ht. rg. cbn. gb; [exact Ht |]. intros [t1 [|o]]; cbn; [intros [_ Ha]; gr; exact Ha |].
      intros _. gb; [apply gives_mod |]. intros u _. gr. exact I. }
    constructor; cbn [and_then poll_ready call clone]; try apply H.
    - intros s Hs. apply into_ready_l, Hs.
    - intros E s Hs. apply into_ready_r, (lv_becomes_ready H E _ Hs).
    - intros s r Hs. gb; [apply (lv_call H r Hs) |]. intros [s1 x] [H1 Hx]. gr. split; [exact H1 |]. cbn [snd]. clear H1.
      revert x Hx. apply reaches_ind'. intros x Hx. rg. cbn. gb; [exact Hx |]. intros [x1 [|[o|e]]]; cbn; [intros [_ Ha]; gr; exact Ha | |].
      + intros _. gb; [apply gives_mod |]. intros u _. gb; [apply Hf |]. intros t Ht. exact (proj1 (reaches_gives _ _ _) (H2 t Ht)).
      + intros _. gb; [apply gives_mod |]. intros u _. gr. exact I.
  Qed.

  Lemma some_reaches O' (g : result Resp Err -> O') (none : M W (option (fut svc) * poll O')) :
    forall f, answers (poll_fut svc) f ->
    answers (fun f => match f with Some x => '(x1, p) <- poll_fut svc x ;; ret (Some x1, poll_map g p) | None => none end) (Some f).
  Proof.
    apply reaches_ind'. intros f Hf. rg. gb; [exact Hf |]. intros [f1 [|o]]; cbn; [intros [_ Ha] | intros _]; gr; [exact Ha | exact I].
  Qed.
  Lemma optional_l : Lively rdy (optional svc) (fun s => match s with Some x => R x | None => True end).
  Proof.
    constructor; cbn [optional poll_ready call clone].
    - intros [x|] Hs; [| gr; exact I]. gb; [apply (lv_ready H Hs) |]. intros [x1 p] H1. gr. exact H1.
    - intros E [x|] Hs; [| rg; gr; exact I].
      generalize (lv_becomes_ready H E _ Hs). clear Hs. revert x. apply reaches_ind'. intros s Hs. rg. gb; [exact Hs |].
      intros [s1 [|a]]; cbn; [intros [_ Ha] | intros _]; gr; [exact Ha | exact I].
    - intros [x|] r Hs.
      + gb; [apply (lv_call H r Hs) |]. intros [x1 f] [H1 H2]. gr. split; [exact H1 |]. apply some_reaches, H2.
      + gr. split; [exact I |]. rg. gr. exact I.
    - intros [x|] Hs; [| gr; exact I]. gb; [apply (lv_clone H Hs) |]. intros x1 H1. gr. exact H1.
  Qed.
  Lemma load_shed_l : Lively true (load_shed svc) (fun s => R (ls_inner s)).
  Proof.
    assert (Hr : forall s, R (ls_inner s) -> gives (poll_ready (load_shed svc) s) (fun x => R (ls_inner (fst x)) /\ snd x <> Pending)).
    { intros s Hs. cbn [load_shed poll_ready]. gb; [apply (lv_ready H Hs) |]. intros [s1 [|[u|e]]] H1; gr; (split; [exact H1 | discriminate]). }
    constructor; cbn [load_shed call clone].
    - intros s Hs. eapply gives_mono; [apply (Hr s Hs) |]. intros x [Hx _]. exact Hx.
    - intros _ s Hs. rg. eapply gives_mono; [apply (Hr s Hs) |]. intros [x [|p]] [_ Hx]; cbn in *; [congruence | exact I].
    - intros s r Hs. destruct (ls_ready s).
      + gb; [apply (lv_call H r Hs) |]. intros [x1 f] [H1 H2]. gr. split; [exact H1 |]. apply some_reaches, H2.
      + gr. split; [exact Hs |]. rg. gr. exact I.
    - intros s Hs. gb; [apply (lv_clone H Hs) |]. intros x1 H1. gr. exact H1.
  Qed.
  Lemma future_service_l (T : Task W (result (st svc) Err)) (tclone : tst T -> M W (tst T)) (VT : tst T -> Prop) (I0 : st svc -> Prop) :
    (forall s, I0 s -> R s) ->
    (forall t, VT t -> reaches (tpoll T) (fun r => match r with Ok s => I0 s | Er _ => True end) t) ->
    (forall t, VT t -> gives (tpoll T t) (fun x => VT (fst x))) ->
    (forall t, VT t -> gives (tclone t) VT) ->
    Lively rdy (future_service svc T tclone) (fun s => match s with inl t => VT t | inr s => R s end).
  Proof.
    intros HI HT HV HC. constructor; cbn [future_service poll_ready call clone].
    - intros [t|s] Hs.
      + gb; [apply gives_and; [apply (HV t Hs) | exact (proj1 (reaches_gives _ _ _) (HT t Hs))] |].
        intros [t1 [|[s|e]]] [H1 H2]; cbn in *; [gr; exact H1 | | gr; exact H1].
        gb; [apply gives_mod |]. intros u _. gb; [apply (lv_ready H (HI s H2)) |]. intros [s1 p] H3. gr. exact H3.
      + gb; [apply (lv_ready H Hs) |]. intros [s1 p] H1. gr. exact H1.
    - intros E.
      assert (Hr : forall s, R s -> answers (poll_ready (future_service svc T tclone)) (inr s)).
      { intros s Hs. generalize (lv_becomes_ready H E _ Hs). clear Hs. revert s. apply reaches_ind'. intros s Hs. rg. cbn. gb; [exact Hs |].
        intros [s1 [|a]]; cbn; [intros [_ Ha] | intros _]; gr; [exact Ha | exact I]. }
      intros [t|s] Hs; [| apply Hr, Hs].
      generalize (HT t Hs). clear Hs. revert t. apply reaches_ind'. intros t Ht. rg. gb; [exact Ht |].
      intros [t1 [|[s|e]]]; cbn; [intros [_ Ha]; gr; exact Ha | | intros _; gr; exact I].
      intros Hs. gb; [apply gives_mod |]. intros u _. exact (proj1 (reaches_gives _ _ _) (Hr s (HI s Hs))).
    - intros [t|s] r Hs; [apply gives_panic |]. gb; [apply (lv_call H r Hs) |]. intros [s1 f] [H1 H2]. gr. split; assumption.
    - intros [t|s] Hs; [gb; [apply (HC t Hs) |]; intros t1 H1; gr; exact H1 |].
      gb; [apply (lv_clone H Hs) |]. intros s1 H1. gr. exact H1.
  Qed.
  Lemma timeout_l (rt : Rt W) dur : Lively rdy (timeout rt dur svc) R.
  Proof.
    constructor; cbn [timeout poll_ready call clone]; try apply H.
    - intros s Hs. apply into_ready_l, Hs.
    - intros E s Hs. apply into_ready_r, (lv_becomes_ready H E _ Hs).
    - intros s r Hs. gb; [apply (lv_call H r Hs) |]. intros [s1 f] [H1 H2]. gb; [apply gives_get with (P := fun _ => True); auto |]. intros t _. gr.
      split; [exact H1 |]. cbn [snd]. generalize (t + dur)%Z. clear H1 t. intros d. revert f H2. apply reaches_ind'. intros f Hf. rg. cbn. gb; [exact Hf |].
      intros [f1 [|o]]; cbn; [| intros _; gr; exact I]. intros [_ Ha]. gb; [apply gives_sleep |]. intros [|] _; gr; [exact I | exact Ha].
  Qed.
  Lemma filter_l Req' P PErr (check : P -> Req' -> M W (P * result Req PErr)) pclone :
    (forall p r, gives (check p r) (fun _ => True)) -> (forall p, gives (pclone p) (fun _ => True)) ->
    Lively rdy (filter svc check pclone) (fun s => R (fst s)).
  Proof.
    intros Hc Hp. constructor; cbn [filter poll_ready call clone].
    - intros s Hs. gb; [apply (lv_ready H Hs) |]. intros [s1 a] H1. gr. exact H1.
    - intros E [s p] Hs. cbn in Hs. generalize (lv_becomes_ready H E _ Hs). clear Hs. revert s. apply reaches_ind'. intros s Hs. rg. gb; [exact Hs |].
      intros [s1 [|a]]; cbn; [intros [_ Ha] | intros _]; gr; [exact Ha | exact I].
    - intros s r Hs. gb; [apply Hc |]. intros [p1 [r1|e]] _.
      + gb; [apply (lv_call H r1 Hs) |]. intros [s1 f] [H1 H2]. gr. split; [exact H1 |]. cbn [snd].
        assert (Hm := @map_poll_reaches _ (fun r => ret (map_er (E' := Err + PErr) inl r)) (fun r => gives_ret _ _ I) f H2).
        revert Hm. generalize (Some f). apply reaches_ind'. intros o Ho. rg. cbn. gb; [exact Ho |].
        intros [f1 [|a]]; cbn; [intros [_ Ha] | intros _]; gr; [exact Ha | exact I].
      + gr. split; [exact Hs |]. rg. gr. exact I.
    - intros s Hs. gb; [apply (lv_clone H Hs) |]. intros s1 H1. gb; [apply Hp |]. intros p1 _. gr. exact H1.
  Qed.
  Lemma async_filter_l Req' P PErr (T : Task W (result Req PErr)) (check : P -> Req' -> M W (P * tst T)) pclone :
    (forall p r, gives (check p r) (fun x => answers (tpoll T) (snd x))) -> (forall p, gives (pclone p) (fun _ => True)) ->
    Lively rdy (async_filter svc T check pclone) (fun s => R (fst s)).
  Proof.
    intros Hc Hp. constructor; cbn [async_filter poll_ready call clone].
    - intros s Hs. gb; [apply (lv_ready H Hs) |]. intros [s1 a] H1. gr. exact H1.
    - intros E [s p] Hs. cbn in Hs. generalize (lv_becomes_ready H E _ Hs). clear Hs. revert s. apply reaches_ind'. intros s Hs. rg. gb; [exact Hs |].
      intros [s1 [|a]]; cbn; [intros [_ Ha] | intros _]; gr; [exact Ha | exact I].
    - intros s r Hs. gb; [apply (lv_clone H Hs) |]. intros s1 H1. gb; [apply Hc |]. intros [p1 c] H2. gr. split; [exact H1 |].
      cbn [fst snd] in *. clear H1. destruct s as [s p]. cbn in *.
      assert (Hw : forall x, answers (poll_fut svc) x -> forall s, answers (poll_fut (async_filter svc T check pclone)) (AfFut (AfWait x) s)).
      { refine (@reaches_ind' _ _ _ _ _ (fun x => forall s, answers (poll_fut (async_filter svc T check pclone)) (AfFut (AfWait x) s)) _).
        intros x Hx s0. rg. cbn. gb; [exact Hx |].
        intros [x1 [|a]]; cbn; [intros [_ Ha] | intros _]; gr; [apply Ha | exact I]. }
      revert c H2. apply reaches_ind'. intros c Hcc. rg. cbn. gb; [exact Hcc |]. intros [c1 [|[r1|e]]]; cbn; [intros [_ Ha]; gr; exact Ha | | intros _; gr; exact I].
      intros _. gb; [apply (lv_call H r1 Hs) |]. intros [s2 x] [_ H3]. gb; [apply gives_mod |]. intros u _. cbn in H3.
      exact (proj1 (reaches_gives _ _ _) (Hw x H3 s2)).
    - intros s Hs. gb; [apply (lv_clone H Hs) |]. intros s1 H1. gb; [apply Hp |]. intros p1 _. gr. exact H1.
  Qed.
  Lemma rate_limit_l (rt : Rt W) rate : Lively false (rate_limit rt rate svc) (fun s => R (rl_inner s)).
  Proof.
    constructor; cbn [rate_limit poll_ready call clone].
    - intros s Hs. destruct (rl_st s).
      + gb; [apply gives_sleep |]. intros [|] _; [| gr; exact Hs]. gb; [apply gives_get with (P := fun _ => True); auto |]. intros t _.
        gb; [apply (lv_ready H Hs) |]. intros [s1 a] H1. gr. exact H1.
      + gb; [apply (lv_ready H Hs) |]. intros [s1 a] H1. gr. exact H1.
    - discriminate.
    - intros s r Hs. destruct (rl_st s); [apply gives_panic |]. gb; [apply gives_get with (P := fun _ => True); auto |]. intros t _. cbv zeta.
      destruct (if (1 <? _)%N then _ else _) as [st1 sl]. gb; [apply (lv_call H r Hs) |]. intros [s1 f] [H1 H2]. gr. split; assumption.
    - intros s Hs. apply gives_panic.
  Qed.
  Lemma constant_l Met : Lively rdy (constant (M' := Met) svc) (fun s => R (fst s)).
  Proof.
    constructor; cbn [constant poll_ready call clone].
    - intros s Hs. gb; [apply (lv_ready H Hs) |]. intros [s1 a] H1. gr. exact H1.
    - intros E [s p] Hs. cbn in Hs. generalize (lv_becomes_ready H E _ Hs). clear Hs. revert s. apply reaches_ind'. intros s Hs. rg. gb; [exact Hs |].
      intros [s1 [|a]]; cbn; [intros [_ Ha] | intros _]; gr; [exact Ha | exact I].
    - intros s r Hs. gb; [apply (lv_call H r Hs) |]. intros [s1 f] [H1 H2]. gr. split; assumption.
    - intros s Hs. apply gives_panic.
  Qed.
  Lemma shared_l Tgt : Lively true (shared (Tgt := Tgt) svc) R.
  Proof.
    constructor; cbn [shared poll_ready call clone].
    - intros s Hs. gr. exact Hs.
    - intros _ s Hs. rg. gr. exact I.
    - intros s r Hs. gb; [apply (lv_clone H Hs) |]. intros s1 H1. gr. split; [exact Hs |]. rg. gr. exact I.
    - apply (lv_clone H).
  Qed.
  Lemma forget_l : Lively false svc R.
  Proof. destruct H. constructor; auto. discriminate. Qed.
End Layers.
