(** C20-C24: Hedge.  Specifications in HedgeSpec.v (requests) and HistoSpec.v (the latency histogram). *)
From Verif Require Import Base Hedge Track HistoSpec HistoProof HedgeSpec HedgeProof SelectProof Demo.
Set Implicit Arguments.

(** Every request, from the call through every poll of its future, follows the protocol of HedgeSpec.v: the original
    is sent at once; a duplicate exists only if the policy cloned the request and enough latencies were on record;
    it is sent only after the percentile delay, when its instance is ready and the policy still allows it, and only
    if the original has just answered Pending. (Also C21, C22.) *)
Theorem C20_hedge_protocol :
  forall W Req Resp Err (rt : Rt W) (svc : Service W Req Resp Err) (clone_request : Req -> option Req) (can_retry : Req -> bool) (min_data_points : Z) (quantile : list Z -> Z)
  (ia : nat) (sa : st svc) (ib : nat) (sb : st svc) (u : unit) (r : Req) (x : (W * histo) * tk (stamped (tev Req Resp Err))) (gs : list (W * histo -> W * histo)),
  match call (thedge rt svc clone_request can_retry min_data_points quantile) ((ia, sa), ((ib, sb), u)) r x with
  | (y, Val (s1, f)) =>
      exists ja ta q ph,
        hcall rt clone_request min_data_points quantile ia ib r x y ja ta q ph /\
        hlife rt can_retry ja ta q ph y gs (run_fut (thedge rt svc clone_request can_retry min_data_points quantile) f y (map (tk_env (L := stamped (tev Req Resp Err))) gs))
  | _ => True
  end.
Proof. exact @hedge_request. Qed.
Print Assumptions C20_hedge_protocol.

(** The wrapped service is called at most twice per request. *)
Theorem C20_at_most_two_attempts :
  forall W Req Resp Err (rt : Rt W) (svc : Service W Req Resp Err) (clone_request : Req -> option Req) (can_retry : Req -> bool) (min_data_points : Z) (quantile : list Z -> Z)
  (ia : nat) (sa : st svc) (ib : nat) (sb : st svc) (u : unit) (r : Req) (x : (W * histo) * tk (stamped (tev Req Resp Err))) (gs : list (W * histo -> W * histo)),
  match call (thedge rt svc clone_request can_retry min_data_points quantile) ((ia, sa), ((ib, sb), u)) r x with
  | (y, Val (s1, f)) =>
      Forall (fun e => match snd e with Val _ => attempts x (fst e) <= 2 | _ => True end)
        (run_fut (thedge rt svc clone_request can_retry min_data_points quantile) f y (map (tk_env (L := stamped (tev Req Resp Err))) gs))
  | _ => True
  end.
Proof. exact @hedge_at_most_two. Qed.
Print Assumptions C20_at_most_two_attempts.

(** The answer is that of the first attempt seen to be complete (or the error of the duplicate's readiness): nothing
    was complete before, and nothing happens after. *)
Theorem C21_first_completion_wins :
  forall W Req Resp Err (rt : Rt W) (svc : Service W Req Resp Err) (clone_request : Req -> option Req) (can_retry : Req -> bool) (min_data_points : Z) (quantile : list Z -> Z)
  (ia : nat) (sa : st svc) (ib : nat) (sb : st svc) (u : unit) (r : Req) (x : (W * histo) * tk (stamped (tev Req Resp Err))) (gs : list (W * histo -> W * histo)),
  match call (thedge rt svc clone_request can_retry min_data_points quantile) ((ia, sa), ((ib, sb), u)) r x with
  | (y, Val (s1, f)) =>
      exists ja, Forall (fun e =>
        match snd e with
        | Val Pending => exists l, happened x (fst e) l /\ Forall undecided l
        | Val (Ready v) => exists l d, happened x (fst e) (l ++ [d]) /\ Forall undecided l /\ decides ja d v
        | _ => True
        end) (run_fut (thedge rt svc clone_request can_retry min_data_points quantile) f y (map (tk_env (L := stamped (tev Req Resp Err))) gs))
  | _ => True
  end.
Proof. exact @hedge_first_wins. Qed.
Print Assumptions C21_first_completion_wins.

(** A poll in which an attempt answers Ok records exactly one value, the time from the moment just before that attempt
    was started to the moment it answered, in milliseconds; no other poll changes the histogram. *)
Theorem C22_latency_recorded :
  forall W Req Resp Err (rt : Rt W) (svc : Service W Req Resp Err) (clone_request : Req -> option Req) (can_retry : Req -> bool) (min_data_points : Z) (quantile : list Z -> Z)
  (ia : nat) (sa : st svc) (ib : nat) (sb : st svc) (u : unit) (r : Req) (x : (W * histo) * tk (stamped (tev Req Resp Err))) (gs : list (W * histo -> W * histo)),
  match call (thedge rt svc clone_request can_retry min_data_points quantile) ((ia, sa), ((ib, sb), u)) r x with
  | (y, Val (s1, f)) =>
      Forall (fun '(before, after, o) =>
        match o with
        | Val (Ready (Ok v)) => exists ts te, answered x after v ts te /\
            histo_record te (millis (Z.max 0 (te - ts))) (hist before) = Val (hist after)
        | Val _ => hist after = hist before
        | _ => True
        end) (polls_of y gs (run_fut (thedge rt svc clone_request can_retry min_data_points quantile) f y (map (tk_env (L := stamped (tev Req Resp Err))) gs)))
  | _ => True
  end.
Proof. exact @hedge_metered. Qed.
Print Assumptions C22_latency_recorded.

Theorem C22_millis_round_up :
  forall (d : Z),
  (0 <= d < 2 ^ 64 * 1000000 - 1000000000 -> 1000000 * (millis d - 1) < d <= 1000000 * millis d)%Z.
Proof. exact @millis_up. Qed.
Print Assumptions C22_millis_round_up.

(** C23: what is reported at time [t] is exactly what was recorded in the period before the one [t] lies in. *)
Theorem C23_histogram_exact :
  forall (t0 per : Z), (0 < per)%Z -> forall (l : list hop) (t : Z),
  usable t0 per t0 (l ++ [HRead t]) ->
  exists h1 h2, histo_run (histo_new t0 per) l = Val h1 /\
    histo_read t h1 = Val (h2, recorded_in t0 per (period_of t0 per t - 1) l []).
Proof. exact @histo_exact. Qed.
Print Assumptions C23_histogram_exact.

Theorem C23_histogram_fresh :
  forall (t0 per : Z), (0 < per)%Z -> forall (l : list hop) (t v : Z),
  In v (recorded_in t0 per (period_of t0 per t - 1) l []) ->
  exists s, In (HRecord s v) l /\ (t - 2 * per < s < t)%Z.
Proof. exact @histo_fresh. Qed.
Print Assumptions C23_histogram_fresh.

(** Without the bound of 2^32 periods between uses it is false that nothing older than two periods is reported. *)
Theorem C23_histogram_stale_refuted :
  ~ (forall t0 per l t h1 h2 r v, (0 < per)%Z -> (forall o, In o l -> (t0 <= hop_time o <= t)%Z) ->
     histo_run (histo_new t0 per) l = Val h1 -> histo_read t h1 = Val (h2, r) -> In v r ->
     exists s, In (HRecord s v) l /\ (t - 2 * per < s)%Z).
Proof. exact histo_stale. Qed.
Print Assumptions C23_histogram_stale_refuted.

(** A period of zero makes every use panic. *)
Theorem C23_zero_period_panics :
  forall h t v, h_period h = 0%Z -> histo_read t h = Panic /\ histo_record t v h = Panic.
Proof. exact histo_zero_period. Qed.
Print Assumptions C23_zero_period_panics.

(** Readiness is exactly that of the instance for originals; nothing else is touched. *)
Theorem C24_hedge_ready :
  forall W Req Resp Err (rt : Rt W) (svc : Service W Req Resp Err) (clone_request : Req -> option Req) (can_retry : Req -> bool) (min_data_points : Z) (quantile : list Z -> Z)
  (ia : nat) (sa : st svc) (ib : nat) (sb : st svc) (u : unit) (x : (W * histo) * tk (stamped (tev Req Resp Err))),
  match poll_ready (thedge rt svc clone_request can_retry min_data_points quantile) ((ia, sa), ((ib, sb), u)) x with
  | (y, Val (s1, a)) =>
      exists a0 sa', a = poll_map (map_er inl) a0 /\ s1 = ((ia, sa'), ((ib, sb), u)) /\
        (exists t t', log_of y = At t (TReady ia a0) t' :: log_of x) /\ hist y = hist x
  | (y, o) => exists w1, poll_ready svc sa (fst (fst x)) = (w1, match o with Diverge => Diverge | _ => Panic end)
  end.
Proof. exact @hedge_ready. Qed.
Print Assumptions C24_hedge_ready.

(** [Select] over two arbitrary services: each is asked exactly once, the first one first; the answer is ready if and
    only if both are, and an error exactly if one of them failed (the first one's if both did). *)
Theorem C24_select_ready :
  forall W Req Resp EA EB (a : Service W Req Resp EA) (b : Service W Req Resp EB)
    (clone_req : Req -> M (W * tk (tev Req Resp EA + tev Req Resp EB)) (option Req)) ia (sa : st a) ib (sb : st b) x y s1 c,
  poll_ready (tselect a b clone_req) ((ia, sa), (ib, sb)) x = (y, Val (s1, c)) ->
  exists pa pb, log_of y = inr (TReady ib pb) :: inl (TReady ia pa) :: log_of x /\ both_ready pa pb c.
Proof. exact @select_ready. Qed.
Print Assumptions C24_select_ready.
Example C24_example :
  let x := (Scr 0 [Ready (Ok tt); Pending] [], Tk 2 []) in
  exists s1 y, poll_ready (tselect demo demo (fun r => ret (Some r))) ((0, 8), (1, 9)) x = (y, Val (s1, Pending)) /\
    log_of y = [inr (TReady 1 Pending); inl (TReady 0 (Ready (Ok tt)))].
Proof. eexists _, _. split; reflexivity. Qed.

(** Histogram of period 10 made at 0: values 1, 2 recorded in period 0, 3 in period 1. *)
Example C23_example :
  usable 0 10 0 [HRecord 1 1; HRecord 9 2; HRecord 12 3; HRead 19]%Z /\
  exists h1 h2, histo_run (histo_new 0 10) [HRecord 1 1; HRecord 9 2; HRecord 12 3]%Z = Val h1 /\
    histo_read 19 h1 = Val (h2, [2; 1]%Z).
Proof. split; [cbn; lia|]. eexists _, _. split; reflexivity. Qed.

(** A request that is hedged: one latency of 2 ms on record, the original does not answer, the duplicate is sent at
    2 ms, loses the first race and wins the second. *)
Definition hedge_demo := thedge scr_rt demo (fun r => Some (r + 100)) (fun _ => true) 1 (fun l => fold_right Z.max 0%Z l).
Definition hedge_world : (scr * histo) * tk (stamped (tev nat nat nat)) :=
  ((Scr 0 [] [Pending; Pending; Pending; Pending; Ready (Ok 55)], Histo [2%Z] [] 0 1000000000), Tk 2 []).
Definition htick (d : Z) (x : scr * histo) : scr * histo := (tick d (fst x), snd x).
Example C20_example :
  match call hedge_demo ((0, 8), ((1, 9), tt)) 7 hedge_world with
  | (y, Val (s1, f)) =>
      let h := run_fut hedge_demo f y (map (tk_env (L := stamped (tev nat nat nat))) [htick 1; htick 2000000; htick 5]) in
      map snd h = [Val Pending; Val Pending; Val (Ready (Ok 55))] /\
      map (fun e => attempts hedge_world (fst e)) h = [1; 2; 2] /\
      map (fun e => h_write (hist (fst e))) h = [[]; []; [1%Z]]
  | _ => False
  end.
Proof. vm_compute. auto. Qed.
(** The same with the original winning after 2 ms and 6 ns: 3 ms are recorded. *)
Example C22_example :
  match call hedge_demo ((0, 8), ((1, 9), tt)) 7
    ((Scr 0 [] [Pending; Pending; Pending; Ready (Ok 55)], Histo [2%Z] [] 0 1000000000), Tk 2 []) with
  | (y, Val (s1, f)) =>
      let h := run_fut hedge_demo f y (map (tk_env (L := stamped (tev nat nat nat))) [htick 1; htick 2000000; htick 5]) in
      map snd h = [Val Pending; Val Pending; Val (Ready (Ok 55))] /\
      map (fun e => h_write (hist (fst e))) h = [[]; []; [3%Z]]
  | _ => False
  end.
Proof. vm_compute. auto. Qed.
