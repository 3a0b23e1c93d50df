(** C12, C13, C15: the retry budget [TpsBudget].  Model in Tps.v; [tps_run c (tps_start t0) ops] are the answers one
    thread gets from a budget made at time [t0]; [tps_moves c (tsys_start n t0) [] ms] is what [n] threads sharing it do under
    the schedule [ms], atomic step by atomic step.  Vocabulary in TpsSpec.v. *)
From Verif Require Import Base Tps TpsSpec TpsTop TpsRun TpsAlone TpsLong.
Set Implicit Arguments.
Local Open Scope Z_scope.

(** Every operation returns: no panic, no endless loop. *)
Theorem C12_total :
  forall (c : tps_cfg) t0 ops,
  sane c -> in_order t0 ops -> fits c ops ->
  Forall2 (fun op a => match snd op with Deposit => a = Val None | Withdraw => exists g, a = Val (Some g) end)
    ops (tps_run c (tps_start t0) ops).
Proof. exact @budget_total. Qed.
Print Assumptions C12_total.

(** A withdrawal is granted exactly if the balance of the recent part of the history suffices.  The recent part is all
    that happened since some moment, at least half and at most 1.1 times the ttl (ten slots) ago. *)
Theorem C12_decides :
  forall (c : tps_cfg) t0 ops1 t ops2,
  sane c -> in_order t0 (ops1 ++ (t, Withdraw) :: ops2) ->
  fits c (ops1 ++ (t, Withdraw) :: ops2) ->
  exists answers1 granted answers2,
    tps_run c (tps_start t0) (ops1 ++ (t, Withdraw) :: ops2) = answers1 ++ Val (Some granted) :: answers2 /\
    length answers1 = length ops1 /\
    exists recent older, history ops1 answers1 = recent ++ older /\
      (forall e, In e recent -> t - when e < 11 * t_window c) /\
      (forall e, In e older -> t - when e > 5 * t_window c) /\
      (granted = true <-> t_withdraw c <= balance c recent).
Proof. exact @budget_decides. Qed.
Print Assumptions C12_decides.

(** The bound, in numbers. *)
Theorem C12_bound :
  forall (c : tps_cfg) t0 ops1 t ops2 answers1 granted answers2,
  sane c ->
  in_order t0 (ops1 ++ (t, Withdraw) :: ops2) -> fits c (ops1 ++ (t, Withdraw) :: ops2) ->
  tps_run c (tps_start t0) (ops1 ++ (t, Withdraw) :: ops2) = answers1 ++ Val (Some granted) :: answers2 ->
  length answers1 = length ops1 ->
  let h := history ops1 answers1 in
  if granted
  then t_withdraw c * (wds (within (5 * t_window c) t h) + 1) <=
       t_reserve c + t_deposit c * deps (within (11 * t_window c) t h)
  else t_reserve c + t_deposit c * deps (within (5 * t_window c) t h) <
       t_withdraw c * (wds (within (11 * t_window c) t h) + 1).
Proof. exact @budget_bound. Qed.
Print Assumptions C12_bound.

(** All withdrawals of a long run together: the reserve once per half ttl (begun), and each deposit at most three times. *)
Theorem C12_long_run :
  forall (c : tps_cfg), sane c -> forall t0 t1 ops,
  in_order t0 ops -> (forall t o, In (t, o) ops -> t <= t1) -> t0 <= t1 -> fits c ops ->
  let h := history ops (tps_run c (tps_start t0) ops) in
  t_withdraw c * wds h <= ((t1 - t0) / (5 * t_window c) + 1) * t_reserve c + 3 * t_deposit c * deps h.
Proof. exact @budget_long_run. Qed.
Print Assumptions C12_long_run.

(** Once everything is 1.1 ttl old nothing counts but the reserve: as if the budget were new. *)
Theorem C13_expired :
  forall (c : tps_cfg) t0 ops1 t ops2 answers1 granted answers2,
  sane c ->
  in_order t0 (ops1 ++ (t, Withdraw) :: ops2) -> fits c (ops1 ++ (t, Withdraw) :: ops2) ->
  tps_run c (tps_start t0) (ops1 ++ (t, Withdraw) :: ops2) = answers1 ++ Val (Some granted) :: answers2 ->
  length answers1 = length ops1 ->
  (forall e, In e (history ops1 answers1) -> t - when e >= 11 * t_window c) ->
  granted = (t_withdraw c <=? t_reserve c).
Proof. exact @budget_blank. Qed.
Print Assumptions C13_expired.

(** What does not hold of C13: a deposit does not count for the whole ttl.  Here ttl is 1 s, two deposits pay for one
    withdrawal, and no withdrawal is granted although the two deposits are at most 606 ms old. *)
Theorem C13_whole_ttl_refuted :
  tps_run leak_cfg (tps_start 0) leak_ops =
  [Val None; Val (Some false); Val (Some false); Val (Some false); Val (Some false); Val (Some false); Val None; Val (Some false)].
Proof. exact budget_leaks. Qed.
Print Assumptions C13_whole_ttl_refuted.

(** [n] threads: a withdrawal granted to a thread that was not disturbed by the turning of the ring was covered by the
    balance it read, and overdraws it by at most [n - 1] withdrawals. *)
Theorem C15_granted :
  forall (c : tps_cfg) n t0 ms y l2 i t l1,
  sane c ->
    tps_moves c (tsys_start n t0) [] ms = (y, l2 ++ CAdd i Withdraw t :: l1) -> fits_log c (l2 ++ CAdd i Withdraw t :: l1) ->
    undisturbed i l1 = true ->
    t_withdraw c <= balance c (recents 10 (before_load i l1)) /\
    balance c (recents 10 (CAdd i Withdraw t :: l1)) >= - (Z.of_nat n - 1) * t_withdraw c.
Proof. exact @race_granted. Qed.
Print Assumptions C15_granted.

(** A thread not disturbed is refused only if the balance it read was short. *)
Theorem C15_refused :
  forall (c : tps_cfg) n t0 ms y l2 i l1,
  sane c ->
    tps_moves c (tsys_start n t0) [] ms = (y, l2 ++ CRefused i :: l1) -> fits_log c (l2 ++ CRefused i :: l1) ->
    undisturbed i l1 = true ->
    balance c (recents 10 (before_load i l1)) < t_withdraw c.
Proof. exact @race_refused. Qed.
Print Assumptions C15_refused.

(** The ring is turned by one thread at a time, by the number of slots that have passed since the last time (rounded up). *)
Theorem C15_turn :
  forall (c : tps_cfg) n t0 ms y l2 i now k l1,
  sane c ->
    tps_moves c (tsys_start n t0) [] ms = (y, l2 ++ CSwap i now k :: l1) -> fits_log c (l2 ++ CSwap i now k :: l1) ->
    turning l1 = false /\ t_window c <= now - last_turn t0 l1 /\
    (k - 1) * t_window c < now - last_turn t0 l1 <= k * t_window c.
Proof. exact @race_turn. Qed.
Print Assumptions C15_turn.

(** What counts is at most ten slots older than the last turn. *)
Theorem C15_age :
  forall (c : tps_cfg) n t0 ms y l e,
  sane c ->
    tps_moves c (tsys_start n t0) [] ms = (y, l) -> fits_log c l ->
    In e (recents 10 l) -> last_turn t0 l - when e <= 10 * t_window c.
Proof. exact @race_age. Qed.
Print Assumptions C15_age.

(** A thread using the budget while the others rest does what the sequential functions of C12 do. *)
Theorem C15_alone_deposit :
  forall c i y b',
  s_lock y = false -> nth i (s_pcs y) PSub = PIdle ->
    deposit c (s_clock y) (s_tps y) = Val b' ->
    exists k new, forall l, tps_moves c y l (alone i Deposit k) =
  (TSys b' false (s_clock y) (s_pcs y), CAdd i Deposit (s_clock y) :: new ++ l).
Proof. exact @alone_deposit. Qed.
Print Assumptions C15_alone_deposit.

Theorem C15_alone_withdraw :
  forall c i y b' granted,
  s_lock y = false -> nth i (s_pcs y) PSub = PIdle -> length (t_slots (s_tps y)) = 10%nat ->
    withdraw c (s_clock y) (s_tps y) = Val (b', granted) ->
    exists k new, forall l, tps_moves c y l (alone i Withdraw k) =
  (TSys b' false (s_clock y) (s_pcs y), (if granted then CAdd i Withdraw (s_clock y) else CRefused i) :: new ++ l).
Proof. exact @alone_withdraw. Qed.
Print Assumptions C15_alone_withdraw.

(** What does not hold: the bound of one thread for two (both read before either subtracts) ... *)
Theorem C15_strict_refuted :
  let l := snd (tps_moves race_cfg (tsys_start 2 0) [] race_ops) in
  l = [CAdd 1 Withdraw 0; CAdd 0 Withdraw 0; CLoad 1; CLoad 0] /\ balance race_cfg (recents 10 l) = -2.
Proof. exact race_overdraws. Qed.
Print Assumptions C15_strict_refuted.

(** ... and the bound [n - 1] for a thread that reads while another turns the ring. *)
Theorem C15_turning_refuted :
  let l := snd (tps_moves race_cfg (tsys_start 2 0) [] turn_ops) in
  l = [CAdd 1 Withdraw 100; CLoad 1; CSwap 0 100 1; CAdd 1 Withdraw 0; CAdd 0 Withdraw 0; CLoad 1; CLoad 0] /\
  balance race_cfg (recents 10 l) = -4.
Proof. exact turn_overdraws. Qed.
Print Assumptions C15_turning_refuted.

(** Non-vacuity: a run with a reserve, deposits and withdrawals over three windows satisfies the hypotheses. *)
Definition ex_cfg : tps_cfg := TpsCfg 3 100 1 2.
Definition ex_ops : list (Z * tps_op) :=
  [(0, Withdraw); (10, Withdraw); (20, Deposit); (250, Withdraw); (260, Withdraw); (3000, Withdraw); (3001, Withdraw)].
Example C12_example :
  sane ex_cfg /\ in_order 0 ex_ops /\ fits ex_cfg ex_ops /\
  tps_run ex_cfg (tps_start 0) ex_ops =
  [Val (Some true); Val (Some false); Val None; Val (Some true); Val (Some false); Val (Some true); Val (Some false)].
Proof.
  split; [split; vm_compute; intuition congruence|]. split; [vm_compute; intuition congruence|].
  split; [vm_compute; congruence|]. vm_compute. reflexivity.
Qed.
Example C12_long_run_example :
  let h := history ex_ops (tps_run ex_cfg (tps_start 0) ex_ops) in
  Forall (fun op => fst op <= 3001) ex_ops /\ wds h = 3 /\ deps h = 1 /\ (3001 - 0) / (5 * t_window ex_cfg) + 1 = 7.
Proof. split; [repeat constructor; vm_compute; congruence|vm_compute; auto]. Qed.
Example C13_example :
  let h := history (firstn 5 ex_ops) (firstn 5 (tps_run ex_cfg (tps_start 0) ex_ops)) in
  h = [EWd 250; EDep 20; EWd 0] /\ Forall (fun e => 3000 - when e >= 11 * t_window ex_cfg) h.
Proof. split; [vm_compute; reflexivity|]. apply Forall_forall. intros e H. vm_compute in H. intuition (subst; vm_compute; congruence). Qed.
(** In the race above the second thread was not disturbed and reaches the bound. *)
Example C15_example :
  sane race_cfg /\ undisturbed 1 [CAdd 0 Withdraw 0; CLoad 1; CLoad 0] = true /\
  fits_log race_cfg [CAdd 1 Withdraw 0; CAdd 0 Withdraw 0; CLoad 1; CLoad 0] /\
  balance race_cfg (recents 10 (before_load 1 [CAdd 0 Withdraw 0; CLoad 1; CLoad 0])) = 2 /\
  - (Z.of_nat 2 - 1) * t_withdraw race_cfg = -2.
Proof. split; [split; vm_compute; intuition congruence|]. vm_compute. intuition congruence. Qed.
