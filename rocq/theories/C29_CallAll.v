(** C29-C31: CallAll.  Specification in CallAllSpec.v: the log of a CallAll stream,
    oldest event first, with the requests [pulled] from the request stream, the
    [calls] of the service (each with a numbered response future), the
    [completions] of these futures, the [failures] of [poll_ready], and the items
    it [yields].  [ops]: the owner polls, or takes the service out; [sched]: which
    futures get polled, and in which order; [fuel]: how many turns of the loop a
    poll may take.  [queue svc sched b] is FuturesOrdered or FuturesUnordered. *)
From Verif Require Import Base Track ContractSpec CallAll CallAllSpec CallAllTop CallAllLive Demo.
Set Implicit Arguments.

(** At any time the items yielded so far are the answers to the first calls, one each, in the order of the calls,
    plus one item for the failed [poll_ready] if there was one; a call is answered at most once. *)
Theorem C29_ordered_answers :
  forall W Req Resp Err (svc : Service W Req Resp Err) (T : Stream W Req) (sched : nat -> W -> W * list nat)  fuel (s : st svc) (t : sst T) w ops,
  let l := ca_log svc T (ordered svc sched) fuel s t w ops in
  calls_distinct l /\ exists Y, yields_are l Y /\ answers_in_order l Y.
Proof. exact @ordered_answers. Qed.
Print Assumptions C29_ordered_answers.

(** When it ends, every call has been answered; and every request pulled was dispatched, or readiness failed and
    only the request in hand was not. *)
Theorem C29_ordered_end :
  forall W Req Resp Err (svc : Service W Req Resp Err) (T : Stream W Req) (sched : nat -> W -> W * list nat)  fuel (s : st svc) (t : sst T) w ops,
  let l := ca_log svc T (ordered svc sched) fuel s t w ops in
  last_is l (CYield (Ready None)) ->
  (exists Y, yields_are l Y /\ answers_in_order l Y /\ length Y = length (calls l)) /\
  ((stream_ended l /\ failures l = [] /\ pulled l = map fst (calls l)) \/
   (exists e r, failures l = [e] /\ pulled l = map fst (calls l) ++ [r])).
Proof. exact @ordered_end. Qed.
Print Assumptions C29_ordered_end.

(** It answers [Pending] only while the oldest call without an answer has not completed. *)
Theorem C29_ordered_prompt :
  forall W Req Resp Err (svc : Service W Req Resp Err) (T : Stream W Req) (sched : nat -> W -> W * list nat)  fuel (s : st svc) (t : sst T) w ops,
  let l := ca_log svc T (ordered svc sched) fuel s t w ops in
  last_is l (CYield Pending) ->
  exists Y, yields_are l Y /\
    forall r j, nth_error (calls l) (length Y) = Some (r, j) -> forall o, ~ In (j, o) (completions l).
Proof. exact @ordered_prompt. Qed.
Print Assumptions C29_ordered_prompt.

(** At any time the items yielded so far are exactly the results of the completed calls, in the order of their
    completion, plus the readiness failure if there was one; nothing is lost, kept back or repeated. *)
Theorem C30_unordered_answers :
  forall W Req Resp Err (svc : Service W Req Resp Err) (T : Stream W Req) (sched : nat -> W -> W * list nat)  fuel (s : st svc) (t : sst T) w ops,
  let l := ca_log svc T (unordered svc sched) fuel s t w ops in
  calls_distinct l /\ yields_are l (map snd (completions l)).
Proof. exact @unordered_answers. Qed.
Print Assumptions C30_unordered_answers.

(** When it ends, every call has completed (and so has been answered). *)
Theorem C30_unordered_end :
  forall W Req Resp Err (svc : Service W Req Resp Err) (T : Stream W Req) (sched : nat -> W -> W * list nat)  fuel (s : st svc) (t : sst T) w ops,
  let l := ca_log svc T (unordered svc sched) fuel s t w ops in
  last_is l (CYield (Ready None)) ->
  length (completions l) = length (calls l) /\
  ((stream_ended l /\ failures l = [] /\ pulled l = map fst (calls l)) \/
   (exists e r, failures l = [e] /\ pulled l = map fst (calls l) ++ [r])).
Proof. exact @unordered_end. Qed.
Print Assumptions C30_unordered_end.

(** Requests are passed to the service in the order in which they were pulled, each once, and at most one pulled
    request is not dispatched yet.  After the end of the stream or a readiness failure neither the stream nor the
    service is touched again. *)
Theorem C31_dispatched_in_order :
  forall W Req Resp Err (svc : Service W Req Resp Err) (T : Stream W Req) (sched : nat -> W -> W * list nat) b fuel (s : st svc) (t : sst T) w ops,
  let l := ca_log svc T (queue svc sched b) fuel s t w ops in
  (exists rest, pulled l = map fst (calls l) ++ rest /\ length rest <= 1) /\ quiet_after_end l.
Proof. exact @both_dispatched. Qed.
Print Assumptions C31_dispatched_in_order.

(** [Pending] always has a cause: some call is unanswered and no more requests will come; or the stream has just
    said [Pending] and every request pulled was dispatched; or the service has just said [Pending] to the one
    request in hand. *)
Theorem C31_pending_has_a_cause :
  forall W Req Resp Err (svc : Service W Req Resp Err) (T : Stream W Req) (sched : nat -> W -> W * list nat) b fuel (s : st svc) (t : sst T) w ops l,
  ca_log svc T (queue svc sched b) fuel s t w ops = l ++ [CYield Pending] ->
  (over l /\ exists Y, yields_are l Y /\ length Y < length (calls l)) \/
  (last_is l (CNext Pending) /\ pulled l = map fst (calls l)) \/
  ((exists i, last_is l (CSvc (TReady i Pending))) /\ exists r, pulled l = map fst (calls l) ++ [r]).
Proof. exact @both_pending. Qed.
Print Assumptions C31_pending_has_a_cause.

(** If the service does not panic when used according to its contract ([guard] panics on any other use) and the
    stream does not panic: CallAll panics only after [take_service]; and a poll returns unless the stream hands
    out requests without end. *)
Theorem C31_panics_and_returns :
  forall W Req Resp Err (svc0 : Service W Req Resp Err) (T : Stream W Req) (sched : nat -> W -> W * list nat) b fuel (s : st (guard svc0)) (t : sst T) w ops,
  never_panics svc0 -> never_diverges svc0 ->
  (forall (t : sst T) w, exists v, snd (snext T t w) = Val v) ->
  fst s <> Dead ->
  let l := ca_log (guard svc0) T (queue (guard svc0) sched b) fuel s t w ops in
  (In CPanic l -> In CTook l) /\
  (In CDiverge l -> fuel <= pulls_since_yield l + 2).
Proof. intros; now apply ca_log_live. Qed.
Print Assumptions C31_panics_and_returns.

(** [unordered()] before the first poll gives CallAllUnordered. *)
Theorem C31_unordered_before_polling :
  forall W Req Resp Err (svc : Service W Req Resp Err) (T : Stream W Req) (sched : nat -> W -> W * list nat)  fuel (s : st svc) (t : sst T) w ops,
  convert_log svc T sched fuel s t w [] ops = ca_log svc T (unordered svc sched) fuel s t w ops.
Proof. exact @convert_fresh. Qed.
Print Assumptions C31_unordered_before_polling.

(** [unordered()] never lets go of a call: while a call is unanswered, or once no more requests will come, it panics.
    So it does after the service was taken out.
    If every call was answered, requests may still come and the service was not taken out, it does not. *)
Theorem C31_unordered_guarded :
  forall W Req Resp Err (svc : Service W Req Resp Err) (T : Stream W Req) (sched : nat -> W -> W * list nat)  fuel (s : st svc) (t : sst T) w ops1,
  let l := ca_log svc T (ordered svc sched) fuel s t w ops1 in
  ~ In CPanic l -> ~ In CDiverge l ->
  ((over l \/ (exists Y, yields_are l Y /\ length Y < length (calls l)) \/ In CTake (map snd ops1)) ->
    forall ops2, convert_log svc T sched fuel s t w ops1 ops2 = l ++ [CPanic]) /\
  (~ over l -> yields_are l (yields l) -> length (yields l) = length (calls l) -> Forall (fun o => snd o = CPoll) ops1 ->
    convert_log svc T sched fuel s t w ops1 [] = l).
Proof. exact @convert_guard. Qed.
Print Assumptions C31_unordered_guarded.

(** Demo: a stream that follows a script. *)
Definition script_stream : Stream scr nat :=
  MkStream (list (poll (option nat)))
    (fun l => match l with [] => ret ([], Ready None) | a :: l' => ret (l', a) end).
Definition all_of (n : nat) (w : scr) : scr * list nat := (w, seq 0 n).
Notation sid := (fun w : scr => w).

(** [unordered()] is documented to panic once the stream was polled.  It does not when a request has been pulled
    but the service was not ready: the request is dropped, no call is made for it, and the stream of responses
    ends as if all was well. *)
Theorem C31_unordered_after_polling_refuted :
  ~ (forall W Req Resp Err (svc : Service W Req Resp Err) (T : Stream W Req) (sched : nat -> W -> W * list nat)
       fuel (s : st svc) (t : sst T) w ops1 ops2,
     let l := convert_log svc T sched fuel s t w ops1 ops2 in
     last_is l (CYield (Ready None)) -> failures l = [] -> pulled l = map fst (calls l)).
Proof.
  intros H.
  specialize (H _ _ _ _ demo script_stream all_of 5 3 [Ready (Some 7); Ready (Some 8)] (Scr 0 [Pending] [])
    [(sid, CPoll)] [(sid, CPoll); (sid, CPoll)]). cbn zeta in H. revert H.
  set (l := convert_log _ _ _ _ _ _ _ _ _).
  assert (E : exists l', l = l' ++ [CYield (Ready None)] /\ failures l' = [] /\ pulled l' = [7; 8] /\ calls l' = [(8, 1)]).
  { exists (removelast l). repeat split; vm_compute; reflexivity. }
  destruct E as (l' & E & E1 & E2 & E3). clearbody l. subst l. intros H.
  assert (K : pulled (l' ++ [CYield (Ready None)]) = map fst (calls (l' ++ [CYield (Ready None)]))).
  { apply H; [exists l'; reflexivity|]. unfold failures in *. rewrite flat_map_app, E1. reflexivity. }
  unfold pulled, calls in *. rewrite !flat_map_app, E2, E3 in K. discriminate K.
Qed.
Print Assumptions C31_unordered_after_polling_refuted.

(** Non-vacuity: three requests, the second call completes before the first. *)
Definition demo_fut_ops : list ((scr -> scr) * ca_op) :=
  [ (fun _ => Scr 0 [] [Pending; Pending; Ready (Ok 20); Pending; Ready (Ok 10)], CPoll); (sid, CPoll); (sid, CPoll); (sid, CPoll) ].
Example C29_example :
  ca_log demo script_stream (ordered demo all_of) 5 3 [Ready (Some 1); Ready (Some 2); Pending; Ready (Some 3)] scr0 demo_fut_ops =
  [CNext (Ready (Some 1)); CSvc (TReady 0 (Ready (Ok tt))); CSvc (TCall 0 1 1); CSvc (TPoll 1 Pending);
   CNext (Ready (Some 2)); CSvc (TReady 0 (Ready (Ok tt))); CSvc (TCall 0 2 2); CSvc (TPoll 1 Pending);
   CSvc (TPoll 2 (Ready (Ok 20))); CSvc (TDropFut 2); CSvc (TPoll 1 Pending); CNext Pending; CYield Pending;
   CSvc (TPoll 1 (Ready (Ok 10))); CSvc (TDropFut 1); CYield (Ready (Some (Ok 10)));
   CYield (Ready (Some (Ok 20)));
   CNext (Ready (Some 3)); CSvc (TReady 0 (Ready (Ok tt))); CSvc (TCall 0 3 3); CSvc (TPoll 3 (Ready (Ok 3)));
   CSvc (TDropFut 3); CYield (Ready (Some (Ok 3)))].
Proof. vm_compute. reflexivity. Qed.
Example C30_example :
  yields (ca_log demo script_stream (unordered demo all_of) 5 3 [Ready (Some 1); Ready (Some 2); Pending; Ready (Some 3)] scr0
    (demo_fut_ops ++ [(sid, CPoll)])) = [Ok 20; Ok 10; Ok 3].
Proof. vm_compute. reflexivity. Qed.
Example C31_example :
  let l := ca_log (guard demo) script_stream (queue (guard demo) all_of true) 5 (Idle, 3) [Ready (Some 1); Ready (Some 2)]
             (Scr 0 [Ready (Ok tt); Pending; Ready (Er 9)] []) [(sid, CPoll); (sid, CPoll); (sid, CPoll); (sid, CPoll)] in
  (pulled l, calls l, failures l, yields l) = ([1; 2], [(1, 1)], [9], [Ok 1; Er 9]) /\
  last_is l (CYield (Ready None)).
Proof.
  split; [vm_compute; reflexivity|].
  match goal with |- last_is ?l _ => exists (removelast l) end. vm_compute. reflexivity.
Qed.
(** Converting after the poll that left two calls in flight; and after the poll that answered the only one. *)
Example C31_unordered_example :
  (exists l, convert_log demo script_stream all_of 5 3 [Ready (Some 1); Ready (Some 2); Pending] scr0 (firstn 1 demo_fut_ops) [(sid, CPoll)] =
    l ++ [CYield Pending; CPanic]) /\
  (exists l, convert_log demo script_stream all_of 5 3 [Ready (Some 1); Pending; Pending] scr0 [(sid, CPoll)] [(sid, CPoll)] =
    l ++ [CYield (Ready (Some (Ok 1))); CNext Pending; CYield Pending]) /\
  convert_log demo script_stream all_of 5 3 [Ready (Some 1); Pending; Pending] scr0 [(sid, CTake)] [(sid, CPoll)] = [CTook; CPanic].
Proof.
  split; [|split; [|vm_compute; reflexivity]]; [exists (removelast (removelast (convert_log demo script_stream all_of 5 3 [Ready (Some 1); Ready (Some 2); Pending] scr0 (firstn 1 demo_fut_ops) [(sid, CPoll)])))
         |exists (removelast (removelast (removelast (convert_log demo script_stream all_of 5 3 [Ready (Some 1); Pending; Pending] scr0 [(sid, CPoll)] [(sid, CPoll)]))))];
  vm_compute; reflexivity.
Qed.
