(** C66: nothing hangs in a stack that would not hang without it. *)
From Verif Require Import Base Util ReadyCache Load Make SpawnReady Middleware Limits Hedge MeterSpec LiveSpec LiveProof LiveMore LiveHedge LiveTop.
Set Implicit Arguments.

(** Whatever a program has done before with instances and clones of a stack over services that answer: a response
    future obtained from any of them answers (or panics) after finitely many polls, each of which returns,
    whatever else happens between the polls. *)
Theorem C66_calls_answered : forall W Req Resp Err rdy (svc : Service W Req Resp Err) I, live rdy svc I ->
  forall w insts ops i s r, Forall I insts -> held_at (u_svcs (urun (ustart svc w insts) ops)) i = Some s ->
  forall w1 w2 s1 f, call svc s r w1 = (w2, Val (s1, f)) ->
  forall env w3, exists n, answered_within (poll_fut svc) env n 0 f w3 = true.
Proof. exact live_calls_answered. Qed.
Print Assumptions C66_calls_answered.

(** If no layer holds callers back on purpose, each instance becomes ready (or fails) after finitely many polls. *)
Theorem C66_becomes_ready : forall W Req Resp Err (svc : Service W Req Resp Err) I, live true svc I ->
  forall w insts ops i s, Forall I insts -> held_at (u_svcs (urun (ustart svc w insts) ops)) i = Some s ->
  forall env w1, exists n, answered_within (poll_ready svc) env n 0 s w1 = true.
Proof. exact live_becomes_ready. Qed.
Print Assumptions C66_becomes_ready.

(** And no call into the stack spins for ever. *)
Theorem C66_returns : forall W Req Resp Err rdy (svc : Service W Req Resp Err) I, live rdy svc I ->
  forall w insts ops i s, Forall I insts -> held_at (u_svcs (urun (ustart svc w insts) ops)) i = Some s ->
  forall r w1, snd (poll_ready svc s w1) <> Diverge /\ snd (call svc s r w1) <> Diverge /\ snd (clone svc s w1) <> Diverge.
Proof. exact live_returns. Qed.
Print Assumptions C66_returns.

(** ** Cases: a back end that is ready at the third poll and fails a request [r] at the poll after the [r]-th; at
    most two retries; hedging; a timeout; two of these behind a router. *)
Definition slow6 : Service Z nat unit nat :=
  MkService (W := Z) nat nat
    (fun s => match s with O => ret (O, Ready (Ok tt)) | S s' => ret (s', Pending) end)
    (fun s r => ret (2, r))
    (fun f => match f with O => ret (O, Ready (Er 7)) | S f' => ret (f', Pending) end)
    (fun s => ret 2) (fun _ w => w) (fun _ w => w).
Lemma countdown (O' : Type) (o : O') (x : nat) :
  answers (fun f : nat => match f with O => ret (W := Z) (O, Ready o) | S f' => ret (f', Pending) end) x.
Proof.
  induction x as [|x IH]; constructor.
  - intros w. discriminate.
  - intros w w1 x1 E. discriminate.
  - intros. exact I.
  - intros w. discriminate.
  - intros w w1 x1 E. injection E as <- <-. exact IH.
  - intros. exact I.
Qed.
Lemma slow6_live : live true slow6 (fun _ => True).
Proof.
  apply li_base. constructor.
  - intros s _. cbn. destruct s; intros w; exact I.
  - intros _ s _. apply countdown.
  - intros s r _ w. split; [exact I | apply countdown].
  - intros s _ w. exact I.
Qed.
Definition rt66 : Rt Z.
Proof. refine (@MkRt Z (fun w => w) (fun w d => (d <=? w)%Z) (fun _ w => w) _ _ _); auto. intros w d E. apply Z.leb_le, E. Defined.
Definition twice6 : Policy Z nat unit nat :=
  @MkPolicy _ _ _ _ nat (MkTask (W := Z) nat (fun f => match f with O => ret (O, Ready tt) | S f' => ret (f', Pending) end) (fun _ w => w))
    (fun p r => ret (p, Some r))
    (fun p r v => match p with O => ret (p, r, v, None) | S p' => ret (p', r, v, Some 1) end)
    (fun p => ret p).
Definition hedged6 := hedge rt66 (retry twice6 slow6 9) Some (fun _ => true) 0 (fun _ => 0%Z) (fun _ => histo_new 0 1000000000) (fun _ w => w).
Definition routed6 := steer (timeout rt66 1000 hedged6) (fun (q : unit) r l => ret (q, r mod 2)) (fun q => ret q).
Definition node6 : st hedged6 := ((2, 2), ((2, 2), tt)).
Lemma routed6_live : live true routed6 (fun s => s = steer_new (timeout rt66 1000 hedged6) [node6; node6] tt).
Proof.
  eapply li_weaken.
  - eapply (li_steer (P := unit)); [apply li_timeout, li_hedge | |].
    + eapply (@li_retry _ _ _ _ _ _ twice6 9 2 (fun p : nat => p <= 2) (fun p _ => p)); [apply slow6_live | reflexivity | | | |].
      * cbn. auto.
      * intros p r Hp w. split; [exact Hp | apply le_n].
      * intros [|p] r v Hp w; cbn; [split; [exact Hp | exact I] |]. split; [lia |]. split; [apply countdown | lia].
      * intros p Hp w. split; [exact Hp | intros r; apply le_n].
    + intros q r l w. exact I.
    + intros q w. exact I.
  - intros s ->. exists tt, [node6; node6]. split; [reflexivity |].
    assert (Hn : exists x w w1, (fst x <= 2 /\ True) /\ hedge_new rt66 (retry twice6 slow6 9) Some (fun _ => true) 0 (fun _ => 0%Z) (fun _ => histo_new 0 1000000000) (fun _ w => w) x w = (w1, Val node6)).
    { exists (2, 2), 0%Z, 0%Z. split; [split; [apply le_n | exact I] | reflexivity]. }
    repeat constructor; exact Hn.
Qed.
(** Request 1, polled until it answers (with the back end's error after three attempts) or fails to within 20 polls;
    the instance is polled to readiness first. *)
Definition tale6 : list bool :=
  let y := urun (ustart routed6 0%Z [steer_new (timeout rt66 1000 hedged6) [node6; node6] tt]) [UReady 0; UReady 0; UReady 0; UReady 0; UReady 0; UCall 0 1] in
  match u_futs y, u_svcs y with
  | [Some f], [Some s] => map (fun n => answered_within (poll_fut routed6) (fun _ w => w) n 0 f (u_world y)) [1; 5; 20]
                ++ map (fun n => answered_within (poll_ready routed6) (fun _ w => w) n 0 s (u_world y)) [2; 3]
  | _, _ => []
  end.
Example C66_example : tale6 = [false; false; true; false; true].
Proof. vm_compute. reflexivity. Qed.
(** A policy that never gives up, over a back end that always fails at once, is excluded - and does hang. *)
Definition always6 : Policy Z nat unit nat :=
  @MkPolicy _ _ _ _ unit (MkTask (W := Z) unit (fun f => ret (f, Ready tt)) (fun _ w => w))
    (fun p r => ret (p, Some r)) (fun p r v => ret (p, r, v, Some tt)) (fun p => ret p).
Definition failing6 : Service Z nat unit nat :=
  MkService (W := Z) unit unit (fun s => ret (s, Ready (Ok tt))) (fun s r => ret (s, tt)) (fun f => ret (f, Ready (Er 7)))
    (fun s => ret s) (fun _ w => w) (fun _ w => w).
Example C66_example_hopeless : forall fuel p s req w,
  snd (@retry_poll Z nat unit nat always6 failing6 fuel (@RetryFut _ _ _ _ always6 failing6 (Some req) p s (RCalled (svc := failing6) tt)) w) = Diverge.
Proof.
  intros fuel. induction fuel as [fuel IH] using (well_founded_induction Wf_nat.lt_wf). intros p s req w.
  destruct fuel as [|[|[|fuel]]]; try reflexivity. apply (IH fuel). lia.
Qed.

(** Reconnect belongs to the stacks above if its new connections do not fail at once: [slow6] behind a connector that takes
    as many polls as its target says. *)
Definition maker6 : Service Z nat nat nat :=
  MkService (W := Z) unit nat (fun s => ret (s, Ready (Ok tt))) (fun s r => ret (s, r))
    (fun f => match f with O => ret (O, Ready (Ok 2)) | S f' => ret (f', Pending) end)
    (fun s => ret s) (fun _ w => w) (fun _ w => w).
Lemma reconnect6_live : live true (reconnect slow6 maker6 3 4) (fun s => s = reconnect_new slow6 maker6 tt).
Proof.
  eapply li_weaken.
  - eapply (li_reconnect (svc := slow6) (I := fun _ => True) maker6 3 (fuel := 4) (fun _ => True)); [apply slow6_live | apply le_n | | | | |].
    + intros c _ w. destruct c; exact I.
    + intros _ c _. induction c as [|c IH]; apply reaches_gives; intros w; [reflexivity | exact IH].
    + intros m _ w. exact I.
    + intros _ m _. apply reaches_gives. intros w. exact I.
    + intros m _ w. split; [exact I |]. cbn [snd]. generalize 3. intros x.
      induction x as [|x IH]; apply reaches_gives; intros w'; [exact I | exact IH].
  - intros s ->. exists tt. split; [exact I | left; reflexivity].
Qed.
Example C66_example_reconnect :
  map (fun n => answered_within (poll_ready (reconnect slow6 maker6 3 4)) (fun _ w => w) n 0 (reconnect_new slow6 maker6 tt) 0%Z) [3; 5; 6]
  = [false; false; true].
Proof. vm_compute. reflexivity. Qed.

(** [slow6] behind a SpawnReady whose background task is polled once between any two looks at it ... *)
Lemma slow6_spawn_live : live true (spawn_ready slow6 (fun w => (w, 1)) 3) (fun s => s = spawn_ready_new slow6 2).
Proof.
  eapply li_weaken.
  - eapply (li_spawn_ready (svc := slow6) (I := fun _ => True) (fun w => (w, 1)) (fuel := 3) (fun s => s = 0)).
    + apply slow6_live.
    + apply le_n.
    + intros [|s] w w1 s1 E; [injection E as _ <-; reflexivity | discriminate].
    + intros s w w1 s1 ->. discriminate.
    + intros _ w. apply le_n.
  - intros s ->. exists 2. split; [exact I | reflexivity].
Qed.
Example C66_example_spawn :
  map (fun n => answered_within (poll_ready (spawn_ready slow6 (fun w => (w, 1)) 3)) (fun _ w => w) n 0 (spawn_ready_new slow6 2) 0%Z) [1; 2]
  = [false; true].
Proof. vm_compute. reflexivity. Qed.
(** ... and a Balance over two of them from a ServiceList. *)
Definition bal6 := balance Nat.eq_dec slow6 (service_list (E := nat) (drop_svc slow6)) (fun n w => (w, seq 0 n)) (fun g : nat => ret (g, 1%Z)) true
  (fun s => ret (W := Z) s) Nat.leb 3.
Lemma bal6_live : live false bal6 (fun s => s = balance_new slow6 (service_list (E := nat) (drop_svc slow6)) (service_list_new [2; 2]) 0).
Proof.
  eapply li_weaken.
  - eapply (@li_balance Z nat nat unit nat nat nat nat Nat.eq_dec true slow6 (fun _ => True) (service_list (E := nat) (drop_svc slow6))
      (fun n w => (w, seq 0 n)) (fun g : nat => ret (g, 1%Z)) true (fun s => ret (W := Z) s) Nat.leb 3
      (fun d => length (snd d) <= 2) (fun d => length (snd d))).
    + apply slow6_live.
    + intros d Hd. lia.
    + intros [n [|s l]] Hd w; cbn in *; [split; [lia | exact I] |]. split; [lia |]. split; [lia | exact I].
    + intros g w. exact I.
    + intros s w. exact I.
  - intros s ->. exists (service_list_new [2; 2]), 0. split; [apply le_n | reflexivity].
Qed.

(** "No call into the stack spins" is false of Reconnect in general: if connecting succeeds at once and the new connection
    fails its first [poll_ready], one [poll_ready] of the Reconnect goes round for ever, without ever giving the thread back. *)
Theorem C66_reconnect_spins_refuted :
  forall W Tgt Req Resp Err MErr (svc : Service W Req Resp Err) (mk : Service W Tgt (st svc) MErr) target,
  (forall m w, exists w1 m1, poll_ready mk m w = (w1, Val (m1, Ready (Ok tt)))) ->
  (forall m w, exists w1 m1 f, call mk m target w = (w1, Val (m1, f))) ->
  (forall f w, exists w1 f1 c, poll_fut mk f w = (w1, Val (f1, Ready (Ok c)))) ->
  (forall c w, exists w1 c1 e, poll_ready svc c w = (w1, Val (c1, Ready (Er e)))) ->
  forall fuel s w, snd (poll_ready (reconnect svc mk target fuel) s w) = Diverge.
Proof. exact @reconnect_spins. Qed.
Print Assumptions C66_reconnect_spins_refuted.
Definition broken6 : Service Z nat unit nat :=
  MkService (W := Z) nat unit (fun s => ret (s, Ready (Er 7))) (fun s r => ret (s, tt)) (fun f => ret (f, Ready (Er 7)))
    (fun s => ret s) (fun _ w => w) (fun _ w => w).
Definition eager6 : Service Z nat nat nat :=
  MkService (W := Z) unit unit (fun s => ret (s, Ready (Ok tt))) (fun s r => ret (s, tt)) (fun f => ret (f, Ready (Ok 2)))
    (fun s => ret s) (fun _ w => w) (fun _ w => w).
Example C66_example_spins : forall fuel w,
  snd (poll_ready (reconnect broken6 eager6 0 fuel) (reconnect_new broken6 eager6 tt) w) = Diverge.
Proof. intros fuel w. apply C66_reconnect_spins_refuted; intros; cbn; unfold ret; eauto. Qed.
