(** C89: CallAll and CallAllUnordered lose no wake-up.  Specification in AllWakeSpec.v: [lhistory], a history of a CallAll, the
    task that polls it, and wakers that fire at any time (also while the service, the stream or a future is being used:
    [rings]).  [rg_woken]: the task has been woken since it last began to poll.  [fut_waits], [stream_waits], [svc_waits]: the last
    answer was [Pending] and the waker given then has not fired since.  [stop]: when FuturesUnordered gives way. *)
From Verif Require Import Base Middleware ReadyCache CallAll WakeCache WakeAll RefineSpec AllWakeSpec AllWakeProof AllWakeRefine AllWakeLive Demo.
Set Implicit Arguments.

(** Once it has answered [Pending], until it is polled again: the task has been woken; or every response future in progress
    waits, and the task will be woken when the waker of any of them fires, and no more requests will come, or the stream waits
    with the task's waker, or a request is held and the service waits with the task's waker. *)
Theorem C89_unordered_pending :
  forall W Req Resp Err (svc : Service W Req Resp Err) (S : Stream W Req) rings stop fuel s t w l i ci xi n b c x,
  let Q := wunordered rings (poll_fut svc) (drop_fut svc) stop in
  nth_error (lhistory svc S rings fuel Q s t w l) i = Some (LPolled Pending, ci, xi) -> i <= n ->
  (forall j o, i < j <= n -> nth_error l j = Some o -> o <> LPoll) ->
  nth_error (lhistory svc S rings fuel Q s t w l) n = Some (b, c, x) ->
  rg_woken (snd x) = true \/
  ((forall k, In k (unordered_ids (ca_queue c)) -> fut_waits (rg_log (snd x)) k /\ rg_woken (aring (WkChild k) (snd x)) = true) /\
   (ca_eof c = true \/ match ca_req c with None => stream_waits (rg_log (snd x)) | Some _ => svc_waits (rg_log (snd x)) end)).
Proof. intros W Req Resp Err svc S rings stop fuel. exact (@all_pending _ _ _ _ svc S rings fuel _ _ _ _ _ (unordered_proper _ _ _ _)). Qed.
Print Assumptions C89_unordered_pending.
Theorem C89_ordered_pending :
  forall W Req Resp Err (svc : Service W Req Resp Err) (S : Stream W Req) rings stop fuel s t w l i ci xi n b c x,
  let Q := wordered rings (poll_fut svc) (drop_fut svc) stop in
  nth_error (lhistory svc S rings fuel Q s t w l) i = Some (LPolled Pending, ci, xi) -> i <= n ->
  (forall j o, i < j <= n -> nth_error l j = Some o -> o <> LPoll) ->
  nth_error (lhistory svc S rings fuel Q s t w l) n = Some (b, c, x) ->
  rg_woken (snd x) = true \/
  ((forall k, In k (ordered_ids (ca_queue c)) -> fut_waits (rg_log (snd x)) k /\ rg_woken (aring (WkChild k) (snd x)) = true) /\
   (ca_eof c = true \/ match ca_req c with None => stream_waits (rg_log (snd x)) | Some _ => svc_waits (rg_log (snd x)) end)).
Proof. intros W Req Resp Err svc S rings stop fuel. exact (@all_pending _ _ _ _ svc S rings fuel _ _ _ _ _ (ordered_proper _ _ _ _)). Qed.
Print Assumptions C89_ordered_pending.

(** At any time: when futures are ready from now on and the waker of one of them fires, the next poll answers.  In CallAll, if
    it is the one of the oldest call without an answer. *)
Theorem C89_unordered_comes :
  forall W Req Resp Err (svc : Service W Req Resp Err) (S : Stream W Req) rings fuel stop (up : W -> Prop),
  let Q := wunordered rings (poll_fut svc) (drop_fut svc) stop in
  (forall f w, up w -> exists w1 f1 o, poll_fut svc f w = (w1, Val (f1, Ready o)) /\ up w1) ->
  (forall f w, up w -> up (drop_fut svc f w)) ->
  forall s t w l n b c x k,
  nth_error (lhistory svc S rings fuel Q s t w l) n = Some (b, c, x) -> 0 < fuel -> up (fst x) -> In k (unordered_ids (ca_queue c)) ->
  exists o c1 x1, lstep svc S rings fuel Q LPoll (c, (fst x, aring (WkChild k) (snd x))) = Some (LPolled (Ready (Some o)), c1, x1).
Proof. exact @unordered_comes. Qed.
Print Assumptions C89_unordered_comes.
Theorem C89_ordered_comes :
  forall W Req Resp Err (svc : Service W Req Resp Err) (S : Stream W Req) rings fuel stop (up : W -> Prop),
  let Q := wordered rings (poll_fut svc) (drop_fut svc) stop in
  (forall f w, up w -> exists w1 f1 o, poll_fut svc f w = (w1, Val (f1, Ready o)) /\ up w1) ->
  (forall f w, up w -> up (drop_fut svc f w)) ->
  forall s t w l n b c x k f,
  nth_error (lhistory svc S rings fuel Q s t w l) n = Some (b, c, x) -> 0 < fuel -> up (fst x) ->
  In (k, (wo_out (ca_queue c), f)) (wf_tasks (wo_fu (ca_queue c))) ->
  exists o c1 x1, lstep svc S rings fuel Q LPoll (c, (fst x, aring (WkChild k) (snd x))) = Some (LPolled (Ready (Some o)), c1, x1).
Proof. exact @ordered_comes. Qed.
Print Assumptions C89_ordered_comes.

(** No busy loop.  A response future is polled when it is new or the waker it was last given has fired, never otherwise. *)
Theorem C89_polled_when_called :
  forall W Req Resp Err (svc : Service W Req Resp Err) (S : Stream W Req) rings stop fuel s t w l,
  (forall n b c x, nth_error (lhistory svc S rings fuel (wunordered rings (poll_fut svc) (drop_fut svc) stop) s t w l) n = Some (b, c, x) -> when_called (rg_log (snd x))) /\
  (forall n b c x, nth_error (lhistory svc S rings fuel (wordered rings (poll_fut svc) (drop_fut svc) stop) s t w l) n = Some (b, c, x) -> when_called (rg_log (snd x))).
Proof.
  intros W Req Resp Err svc S rings stop fuel s t w l.
  exact (conj (@all_called _ _ _ _ svc S rings fuel _ _ _ _ _ (unordered_proper _ _ _ _) s t w l) (@all_called _ _ _ _ svc S rings fuel _ _ _ _ _ (ordered_proper _ _ _ _) s t w l)).
Qed.
Print Assumptions C89_polled_when_called.
(** Once no more requests come: polled without having been woken, it answers [Pending] again and touches nothing. *)
Theorem C89_unordered_idle :
  forall W Req Resp Err (svc : Service W Req Resp Err) (S : Stream W Req) rings stop fuel s t w l i ci xi n b c x,
  let Q := wunordered rings (poll_fut svc) (drop_fut svc) stop in
  nth_error (lhistory svc S rings fuel Q s t w l) i = Some (LPolled Pending, ci, xi) -> i <= n ->
  (forall j o, i < j <= n -> nth_error l j = Some o -> o <> LPoll) ->
  nth_error (lhistory svc S rings fuel Q s t w l) n = Some (b, c, x) ->
  0 < fuel -> rg_woken (snd x) = false -> ca_eof c = true ->
  exists r, lstep svc S rings fuel Q LPoll (c, x) = Some (LPolled Pending, c, (fst x, r)) /\ rg_log r = rg_log (snd x) /\ rg_woken r = false.
Proof. intros W Req Resp Err svc S rings stop fuel. exact (@all_idle _ _ _ _ svc S rings fuel _ _ _ _ _ (unordered_proper _ _ _ _)). Qed.
Print Assumptions C89_unordered_idle.
Theorem C89_ordered_idle :
  forall W Req Resp Err (svc : Service W Req Resp Err) (S : Stream W Req) rings stop fuel s t w l i ci xi n b c x,
  let Q := wordered rings (poll_fut svc) (drop_fut svc) stop in
  nth_error (lhistory svc S rings fuel Q s t w l) i = Some (LPolled Pending, ci, xi) -> i <= n ->
  (forall j o, i < j <= n -> nth_error l j = Some o -> o <> LPoll) ->
  nth_error (lhistory svc S rings fuel Q s t w l) n = Some (b, c, x) ->
  0 < fuel -> rg_woken (snd x) = false -> ca_eof c = true ->
  exists r, lstep svc S rings fuel Q LPoll (c, x) = Some (LPolled Pending, c, (fst x, r)) /\ rg_log r = rg_log (snd x) /\ rg_woken r = false.
Proof. intros W Req Resp Err svc S rings stop fuel. exact (@all_idle _ _ _ _ svc S rings fuel _ _ _ _ _ (ordered_proper _ _ _ _)). Qed.
Print Assumptions C89_ordered_idle.

(** Futures that keep waking themselves cannot hold up a poll, if FuturesUnordered gives way at the latest when as many polls
    have been made as there are futures. *)
Theorem C89_returns :
  forall W Req Resp Err (svc : Service W Req Resp Err) (S : Stream W Req) rings fuel stop,
  (forall f w, exists w1 f1 a, poll_fut svc f w = (w1, Val (f1, a))) -> (forall y n, stop y n n = true) ->
  (forall s t w l n b c x, let Q := wunordered rings (poll_fut svc) (drop_fut svc) stop in
    nth_error (lhistory svc S rings fuel Q s t w l) n = Some (b, c, x) -> 0 < fuel -> ca_eof c = true ->
    exists a c1 x1, lstep svc S rings fuel Q LPoll (c, x) = Some (LPolled a, c1, x1)) /\
  (forall s t w l n b c x, let Q := wordered rings (poll_fut svc) (drop_fut svc) stop in
    nth_error (lhistory svc S rings fuel Q s t w l) n = Some (b, c, x) -> 0 < fuel -> ca_eof c = true ->
    exists a c1 x1, lstep svc S rings fuel Q LPoll (c, x) = Some (LPolled a, c1, x1)).
Proof. intros W Req Resp Err svc S rings fuel stop H1 H2. exact (conj (@unordered_returns _ _ _ _ svc S rings fuel stop H1 H2) (@ordered_returns _ _ _ _ svc S rings fuel stop H1 H2)). Qed.
Print Assumptions C89_returns.

(** Every history with wakers is, operation by operation and answer by answer, a history of CallAll.v (the one of C29-C31) with
    the wakers forgotten, for some polling orders: the tape [tp]. *)
Theorem C89_refines :
  forall W Req Resp Err (svc : Service W Req Resp Err) (S : Stream W Req) rings stop fuel s t w l,
  (exists tp, forall n b c w1 r,
    nth_error (lhistory svc S rings fuel (wunordered rings (poll_fut svc) (drop_fut svc) stop) s t w l) n = Some (b, c, (w1, r)) ->
    exists rest, nth_error (tlhistory svc S fuel (tunordered (poll_fut svc) (drop_fut svc)) s t w tp l) n =
      Some (b, forget_all svc S rings (Q := wunordered rings (poll_fut svc) (drop_fut svc) stop) (Q0 := tunordered (poll_fut svc) (drop_fut svc)) (@forget_unordered (fut svc)) c, (w1, rest))) /\
  (exists tp, forall n b c w1 r,
    nth_error (lhistory svc S rings fuel (wordered rings (poll_fut svc) (drop_fut svc) stop) s t w l) n = Some (b, c, (w1, r)) ->
    exists rest, nth_error (tlhistory svc S fuel (tordered (poll_fut svc) (drop_fut svc)) s t w tp l) n =
      Some (b, forget_all svc S rings (Q := wordered rings (poll_fut svc) (drop_fut svc) stop) (Q0 := tordered (poll_fut svc) (drop_fut svc)) (@forget_ordered (fut svc) (result Resp Err)) c, (w1, rest))).
Proof.
  intros W Req Resp Err svc S rings stop fuel s t w l.
  exact (conj (@all_refines _ _ _ _ svc S rings fuel _ _ _ _ _ _ _ (unordered_proper _ _ _ _) (unordered_forgets rings _ _ stop) s t w l) (@all_refines _ _ _ _ svc S rings fuel _ _ _ _ _ _ _ (ordered_proper _ _ _ _) (ordered_forgets rings _ _ stop) s t w l)).
Qed.
Print Assumptions C89_refines.

(** Non-vacuity.  Two requests, then the stream pauses; the second call is done first. *)
Definition stream89 : Stream scr nat :=
  MkStream (list (poll (option nat)))
    (fun l => match l with [] => ret ([], Ready None) | a :: l' => ret (l', a) end).
Definition stop89 (y n len : nat) : bool := (2 <=? y) || (n =? len).
Definition ops89 : list (aop (W := scr)) :=
  [LEnv (fun _ => Scr 0 [] [Pending; Pending; Ready (Ok 20); Ready (Ok 10)]); LPoll; LRing (WkChild 1); LPoll; LRing (WkChild 1); LPoll; LRing (WkChild 0); LPoll; LPoll; LPoll].
Definition ws89 : list (poll (option nat)) := [Ready (Some 1); Ready (Some 2); Pending].
Notation norings := (fun _ : scr => @nil waker).
Definition uq89 : Drive (scr * ringer) (fut demo) (result nat nat) := wunordered norings (poll_fut demo) (drop_fut demo) stop89.
Definition oq89 : Drive (scr * ringer) (fut demo) (result nat nat) := wordered norings (poll_fut demo) (drop_fut demo) stop89.
Definition uhist89 := lhistory demo stream89 norings 9 uq89 3 ws89 scr0 ops89.
Definition ohist89 := lhistory demo stream89 norings 9 oq89 3 ws89 scr0 ops89.
Notation ca89 Q := (call_all (rung_svc norings demo) (rung_stream norings stream89) Q).
Definition useen89 (y : aobs (Resp := nat) (Err := nat) * ca89 uq89 * (scr * ringer)) :=
  let '(b, c, x) := y in (b, rg_woken (snd x), unordered_ids (ca_queue c), ca_eof c).
Definition oseen89 (y : aobs (Resp := nat) (Err := nat) * ca89 oq89 * (scr * ringer)) :=
  let '(b, c, x) := y in (b, rg_woken (snd x), ordered_ids (ca_queue c), ca_eof c).
Example C89_example_unordered :
  map useen89 uhist89 =
  [(LMoved, false, [], false);
   (LPolled Pending, true, [0; 1], false);              (* the only child was polled: FuturesUnordered gives way *)
   (LMoved, true, [0; 1], false);
   (LPolled (Ready (Some (Ok 20))), false, [0], false); (* the second is done *)
   (LMoved, false, [0], false);                         (* its waker fires once more *)
   (LPolled Pending, false, [0], true);
   (LMoved, true, [0], true);
   (LPolled (Ready (Some (Ok 10))), false, [], true);
   (LPolled (Ready None), false, [], true);
   (LPolled (Ready None), false, [], true)].
Proof. vm_compute. reflexivity. Qed.
Example C89_example_ordered :
  map oseen89 ohist89 =
  [(LMoved, false, [], false);
   (LPolled Pending, true, [0; 1], false);
   (LMoved, true, [0; 1], false);
   (LPolled Pending, false, [0], true);                 (* the second is done, kept back; the stream has ended *)
   (LMoved, false, [0], true);
   (LPolled Pending, false, [0], true);                 (* polled without having been woken *)
   (LMoved, true, [0], true);
   (LPolled (Ready (Some (Ok 10))), false, [], true);
   (LPolled (Ready (Some (Ok 20))), false, [], true);
   (LPolled (Ready None), false, [], true)].
Proof. vm_compute. reflexivity. Qed.
Example C89_example_waits : match nth_error ohist89 3 with Some (_, c, x) => fut_waits (rg_log (snd x)) 0 /\ rg_woken (snd x) = false /\ ca_eof c = true | None => False end.
Proof. vm_compute. repeat split; discriminate. Qed.
(** The service that is not ready holds up the third request. *)
Example C89_example_held :
  match nth_error (lhistory demo stream89 norings 9 uq89 3 [Ready (Some 1); Ready (Some 2)] (Scr 0 [Ready (Ok tt); Pending; Pending] [Pending; Pending]) [LPoll; LPoll]) 1 with
  | Some (b, c, x) => b = LPolled Pending /\ rg_woken (snd x) = false /\ ca_req c = Some 2 /\ svc_waits (rg_log (snd x)) /\ fut_waits (rg_log (snd x)) 0
  | None => False end.
Proof. vm_compute. repeat split. Qed.
Example C89_example_comes :
  (forall f w, res_script w = [] -> exists w1 f1 o, poll_fut demo f w = (w1, Val (f1, Ready o)) /\ res_script w1 = []) /\
  (forall f w, res_script w = [] -> res_script (drop_fut demo f w) = []) /\
  (match nth_error (lhistory demo stream89 norings 9 oq89 3 ws89 (Scr 0 [] [Pending; Pending]) [LPoll]) 0 with
   | Some (_, c, x) => res_script (fst x) = [] /\ In (0, (wo_out (ca_queue c : wordq (F := nat) (O := result nat nat)), 1)) (wf_tasks (wo_fu (ca_queue c : wordq (F := nat) (O := result nat nat))))
   | None => False end) /\
  (forall y n, stop89 y n n = true).
Proof.
  split; [intros f w H; cbn; rewrite H; exists w, f, (Ok f); split; [reflexivity | exact H]|]. split; [intros f w H; exact H|].
  split; [vm_compute; split; [reflexivity | left; reflexivity] | intros y n; unfold stop89; rewrite Nat.eqb_refl; apply orb_true_r].
Qed.
