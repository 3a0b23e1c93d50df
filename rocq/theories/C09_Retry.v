(** C09-C11: Retry.  The protocol [rsteps] and the recorded policy and service
    are in RetrySpec.v / Track.v; [map tk_env gs] are arbitrary environment changes. *)
From Verif Require Import Base DriveSpec Middleware Track RetrySpec RetryProof Demo.
Set Implicit Arguments.

(** One request, from [call] on, however its future is polled: [call] saves a copy through the policy,
    calls the service once and clones policy and service for the future; the future then follows the
    protocol [rsteps]; it completes exactly with the protocol's result; a further call happens once
    per granted retry (one less only if the request ended because the service's readiness failed);
    and it is pending only when the attempt, the policy's future or the service's readiness just was. *)
Theorem C09_retry_request :
  forall W Req Resp Err (pol : Policy W Req Resp Err) (svc : Service W Req Resp Err) fuel p i s r w w1 ps f gs,
  call (tretry pol svc fuel) (p, (i, s)) r w = (w1, Val (ps, f)) ->
  exists p1 p2 saved j i',
    log_of w1 = [RIn (TClone i i'); RPolClone (pol := pol) p1 p2; RIn (TCall i r j);
                 RSave (pol := pol) p p1 r saved] ++ log_of w /\
    let d := drive (poll_fut (tretry pol svc fuel)) f w1 (map tk_env gs) in
    Forall (fun x => exists e l, log_of x = e :: l /\ is_pending e) (fst d) /\
    match snd d with
    | Finished _ w2 res =>
        exists l p', log_of w2 = rev l ++ log_of w1 /\ rsteps i' (p2, PRunning j saved) l (p', PDone res) /\
          (count is_call l = count is_grant l \/
           S (count is_call l) = count is_grant l /\
           exists l' e, l = l' ++ [RIn (TReady i' (Ready (Er e)))] /\ res = Er e)
    | Unfinished _ w2 =>
        exists l p' ph, log_of w2 = rev l ++ log_of w1 /\ rsteps i' (p2, PRunning j saved) l (p', ph) /\
          forall res, ph <> PDone res
    | Panicked w2 | Spun w2 =>
        exists l x, log_of w2 = rev l ++ log_of w1 /\ rsteps i' (p2, PRunning j saved) l x
    end.
Proof. exact @retry_request. Qed.
Print Assumptions C09_retry_request.

(** If no copy was saved, the policy is never asked and the response of that attempt is final, unmodified. *)
Theorem C10_retry_unsaved :
  forall W Req Resp Err (pol : Policy W Req Resp Err) i p j l c,
  rsteps (pol := pol) i (p, PRunning j None) l c ->
  exists n, l = repeat (RIn (TPoll j Pending)) n /\ c = (p, PRunning j None) \/
    exists res, l = repeat (RIn (TPoll j Pending)) n ++ [RIn (TPoll j (Ready res))] /\ c = (p, PDone res).
Proof. exact @retry_unsaved. Qed.
Print Assumptions C10_retry_unsaved.

(** The policy is asked only with the answer the attempt under way has just given, and with the request saved
    for it; asking leads either to the final answer or to a wait. *)
Theorem C10_policy_asked_on_completion :
  forall W Req Resp Err (pol : Policy W Req Resp Err) i p j saved l1 pa p1 q q1 res res1 granted l2 c,
  rsteps (pol := pol) i (p, PRunning j saved) (l1 ++ RAsk pa p1 q q1 res res1 granted :: l2) c ->
  exists j' l0, l1 = l0 ++ [RIn (TPoll j' (Ready res))] /\
    (granted = false -> l2 = [] /\ c = (p1, PDone res1)) /\
    (granted = true -> forall e l', l2 = e :: l' -> e = RIn (TDropFut j')).
Proof. exact @retry_ask. Qed.
Print Assumptions C10_policy_asked_on_completion.

(** Every further attempt: the policy's future completed, then the service was polled until it answered
    ready, then a copy was saved, then that same instance was called. *)
Theorem C11_retry_attempt :
  forall W Req Resp Err (pol : Policy W Req Resp Err) i p j saved l1 k q j' l2 c,
  rsteps (pol := pol) i (p, PRunning j saved) (l1 ++ RIn (TCall k q j') :: l2) c ->
  k = i /\ exists l0 n p1 p2 saved',
    l1 = l0 ++ [RWait (Ready tt); RWaitDrop] ++ repeat (RIn (TReady i Pending)) n
            ++ [RIn (TReady i (Ready (Ok tt))); RSave p1 p2 q saved'].
Proof. exact @retry_attempt. Qed.
Print Assumptions C11_retry_attempt.

(** [Retry] is ready exactly when the service is. *)
Theorem C11_retry_ready :
  forall W Req Resp Err (pol : Policy W Req Resp Err) (svc : Service W Req Resp Err) fuel (p : pst pol) s w gs,
  drive (poll_ready (retry pol svc fuel)) (p, s) w gs =
  fin_then (fun s1 => (p, s1)) (fun s1 v => ret ((p, s1), v)) (drive (poll_ready svc) s w gs).
Proof. exact @retry_ready. Qed.
Print Assumptions C11_retry_ready.

(** A policy that allows [p] retries of failed requests, each after one pending
    poll, and lowers the request by one each time. *)
Definition few : Policy scr nat nat nat :=
  MkPolicy (W := scr)
    (MkTask (W := scr) nat (fun n => match n with O => ret (0, Ready tt) | S m => ret (m, Pending) end) (fun _ w => w))
    (fun p r => ret (p, Some r))
    (fun p q res => match p, res with
                    | S p1, Er _ => ret (p1, pred q, res, Some 1)
                    | _, _ => ret (p, q, map_er (fun e => e + 100) res, None)
                    end)
    (fun p => ret p).
Definition few_run (n : nat) :=
  let s := tretry few demo 20 in
  match call s (n, (0, 5)) 7 (Scr 0 [] [Ready (Er 1); Ready (Er 2)], Tk 1 []) with
  | (w1, Val (_, f)) =>
      match snd (drive (poll_fut s) f w1 (map tk_env [tick 1; tick 1; tick 1])) with
      | Finished _ w2 res => Some (res, rev (log_of w2))
      | _ => None
      end
  | _ => None
  end.
Example C09_example_two_retries :
  few_run 2 = Some (Ok 5,
    [RSave (pol := few) 2 2 7 (Some 7); RIn (TCall 0 7 1); RPolClone (pol := few) 2 2; RIn (TClone 0 2);
     RIn (TPoll 1 (Ready (Er 1))); RAsk (pol := few) 2 1 7 6 (Er 1) (Er 1) true; RIn (TDropFut 1);
     RWait Pending; RWait (Ready tt); RWaitDrop; RIn (TReady 2 (Ready (Ok tt)));
     RSave (pol := few) 1 1 6 (Some 6); RIn (TCall 2 6 3); RIn (TPoll 3 (Ready (Er 2)));
     RAsk (pol := few) 1 0 6 5 (Er 2) (Er 2) true; RIn (TDropFut 3);
     RWait Pending; RWait (Ready tt); RWaitDrop; RIn (TReady 2 (Ready (Ok tt)));
     RSave (pol := few) 0 0 5 (Some 5); RIn (TCall 2 5 4); RIn (TPoll 4 (Ready (Ok 5)));
     RAsk (pol := few) 0 0 5 5 (Ok 5) (Ok 5) false]).
Proof. reflexivity. Qed.
Example C09_example_one_retry : option_map fst (few_run 1) = Some (Er 102).
Proof. reflexivity. Qed.
