(** C80: how the requests of a [Balance] are shared among its ready endpoints.  Specification in ShareSpec.v: [share] of
    an endpoint, [at_choice], [passes_to], counting of pairs of random numbers. *)
From Verif Require Import Base Demo ReadyCache RngSpec BalanceMain ShareSpec ShareProof.
Set Implicit Arguments.

(** [n] endpoints are ready, their loads are [m].  Which of them gets the next request depends only on the loads and on
    the two random numbers drawn ([who]); and when both numbers are drawn evenly below [N] (2^64 in the code), then of the
    N^2 possible draws about share/(n(n-1)) pick endpoint number [i], up to the rounding of N/n and N/(n-1): its share is
    twice the number of endpoints more loaded than it, plus the number of others as loaded as it. *)
Theorem C80_shares :
  forall W K Req Resp Err DErr Metric R (keq : forall a b : K, {a = b} + {a <> b})
    (svc : Service W Req Resp Err) (D : Discover W K (st svc) DErr) (sched : nat -> W -> W * list nat)
    (next_u64 : R -> M W (R * Z)) debug (load : st svc -> M W Metric) le fuel (m : nat -> Metric) n,
  (forall a b, le a b = false -> le b a = true) -> 2 <= n -> (Z.of_nat n < 2 ^ 64)%Z ->
  exists who : nat -> nat -> nat,
    (forall (b : st (balance keq svc D sched next_u64 debug load le fuel)) w w1 eps u v g2 w2,
      at_choice keq svc D sched next_u64 debug load le fuel b w w1 eps -> length eps = n ->
      generates next_u64 (bl_rng b) w1 [Z.of_nat u; Z.of_nat v] g2 w2 ->
      (forall i s, nth_error eps i = Some s ->
        load s w2 = (w2, Val (m i)) /\ poll_ready svc s w2 = (w2, Val (s, Ready (Ok tt)))) ->
      exists s, nth_error eps (who u v) = Some s /\ passes_to keq svc D sched next_u64 debug load le fuel b w w2 s) /\
    (forall i N, i < n ->
      share le m n i * (N / (n - 1) * (N / n)) <= how_many_pairs N (fun u v => who u v =? i) <=
      share le m n i * ((N / (n - 1) + 1) * (N / n + 1))).
Proof. exact @shares. Qed.
Print Assumptions C80_shares.

(** The shares add up to n(n-1). *)
Theorem C80_sum :
  forall Metric (le : Metric -> Metric -> bool) (m : nat -> Metric) n,
  (forall a b, le a b = false -> le b a = true) -> list_sum (map (share le m n) (seq 0 n)) = n * (n - 1).
Proof. exact @shares_sum. Qed.
Print Assumptions C80_sum.

(** Endpoints as loaded as each other get the same share. *)
Theorem C80_level :
  forall Metric (le : Metric -> Metric -> bool) (m : nat -> Metric) n i,
  i < n -> (forall j, j < n -> le (m i) (m j) = true /\ le (m j) (m i) = true) -> share le m n i = n - 1.
Proof. exact @share_level. Qed.
Print Assumptions C80_level.

(** Only an endpoint more loaded than every other has no share. *)
Theorem C80_heaviest_never :
  forall Metric (le : Metric -> Metric -> bool) (m : nat -> Metric) n,
  (forall a b, le a b = false -> le b a = true) -> forall i, i < n ->
  (share le m n i = 0 <-> forall j, j < n -> j <> i -> le (m i) (m j) = false).
Proof. exact @share_none. Qed.
Print Assumptions C80_heaviest_never.

(** The less loaded, the larger the share. *)
Theorem C80_lighter_not_less :
  forall Metric (le : Metric -> Metric -> bool) (m : nat -> Metric) n,
  (forall a b, le a b = false -> le b a = true) ->
  (forall a b c, le a b = true -> le b c = true -> le a c = true) ->
  forall i j, i < n -> j < n -> le (m i) (m j) = true -> share le m n j <= share le m n i.
Proof. exact @share_mono. Qed.
Print Assumptions C80_lighter_not_less.

(** Non-vacuity: a new balancer over a list of three endpoints (one of load 5, two of load 3), and two random numbers. *)
Definition three := @service_list scr nat nat (fun _ w => w).
Definition demo_load (s : nat) : M scr nat := ret s.
Notation demo_bal := (balance Nat.eq_dec demo three (fun n w => (w, seq 0 n)) demo_rng true demo_load Nat.leb 5).
Definition fresh_bal : st demo_bal := balance_new demo three (service_list_new [5; 3; 3]) [4; 8]%Z.
Example C80_at_choice : at_choice Nat.eq_dec demo three (fun n w => (w, seq 0 n)) demo_rng true demo_load Nat.leb 5 fresh_bal scr0 scr0 [5; 3; 3].
Proof. split; [reflexivity|]. do 4 eexists. split; [vm_compute; reflexivity|]. split; vm_compute; reflexivity. Qed.
Example C80_draws : generates demo_rng (bl_rng fresh_bal) scr0 [Z.of_nat 4; Z.of_nat 8] [] scr0.
Proof. do 2 (eapply gen_next; [reflexivity|lia|]). apply gen_done. Qed.
Example C80_ready : forall i s, nth_error [5; 3; 3] i = Some s ->
  demo_load s scr0 = (scr0, Val (nth i [5; 3; 3] 0)) /\ poll_ready demo s scr0 = (scr0, Val (s, Ready (Ok tt))).
Proof. intros [|[|[|[|i]]]] s H; try discriminate; injection H as <-; split; vm_compute; reflexivity. Qed.
Example C80_share_example : map (share Nat.leb (fun i => nth i [5; 3; 3] 0) 3) (seq 0 3) = [0; 3; 3].
Proof. reflexivity. Qed.
