(** C87: LoadShed over RateLimit.  Specification in ShedRateSpec.v. *)
From Verif Require Import Base Middleware Limits ShedRateSpec ShedRateProof Demo.
Set Implicit Arguments.
Local Open Scope Z_scope.

(** No request waits or fails to be made, and which are passed on is [admitted] of their times: a function of the clock
    alone. *)
Theorem C87_exact :
  forall W Req Resp Err (rt : Rt W) (r : rate) (svc : Service W Req Resp Err),
  (0 < r_num r)%N -> willing rt svc -> prompt rt ->
  forall x w0 w (s : rate_limit_st svc) (l : list ((W -> W) * (W -> W) * Req)),
  rate_limit_new rt r svc x w0 = (w, Val s) ->
  let h := requests (rt := rt) (r := r) (svc := svc) (load_shed_new (rate_limit rt r svc) s) w l in
  length h = length l /\ map snd h = admitted (r_num r) (r_per r) (now rt w0) (r_num r) (map fst h).
Proof. exact @shed_rate_exact. Qed.
Print Assumptions C87_exact.

(** A request announced at time [a] is shed only if [num] requests made in the last [per] were passed on. *)
Theorem C87_sheds_only_when_full :
  forall W Req Resp Err (rt : Rt W) (r : rate) (svc : Service W Req Resp Err),
  (0 < r_num r)%N -> 0 <= r_per r -> willing rt svc -> prompt rt ->
  forall x w0 w (s : rate_limit_st svc) (l : list ((W -> W) * (W -> W) * Req)),
  rate_limit_new rt r svc x w0 = (w, Val s) -> onward rt l ->
  forall before a c after,
  requests (rt := rt) (r := r) (svc := svc) (load_shed_new (rate_limit rt r svc) s) w l = before ++ (a, c, false) :: after ->
  (r_num r <= N.of_nat (length (passed_after (a - r_per r) before)))%N.
Proof. exact @shed_rate_only_full. Qed.
Print Assumptions C87_sheds_only_when_full.

(** A service that is always ready. *)
Definition open_door : Service scr nat nat nat :=
  MkService nat nat (fun s => ret (s, Ready (Ok tt))) (fun s r => ret (s, r)) (poll_fut demo) (fun s => ret s) (fun _ w => w) (fun _ w => w).
Example C87_willing : willing scr_rt open_door /\ prompt scr_rt.
Proof.
  split; [split|].
  - intros s w. exists w, s. split; reflexivity.
  - intros s q w. exists w, s, q. split; reflexivity.
  - intros w d H. apply Z.leb_le, H.
Qed.
Definition visits : list ((scr -> scr) * (scr -> scr) * nat) :=
  [(tick 3, tick 0, 1%nat); (tick 0, tick 1, 2%nat); (tick 0, tick 0, 3%nat); (tick 8, tick 5, 4%nat); (tick 1, tick 0, 5%nat); (tick 0, tick 0, 6%nat); (tick 9, tick 0, 7%nat)].
Example C87_onward : onward scr_rt visits.
Proof. repeat constructor; intros w; cbn; lia. Qed.

(** Two per ten: the two of times 3 and 4 fill the window from 3 to 13, the third is shed; the fourth, announced at 12, is
    shed too although it is made at 17, long after the window has ended; from 18 a new window. *)
Example C87_example :
  requests (rt := scr_rt) (r := Rate 2 10) (svc := open_door)
    (load_shed_new (rate_limit scr_rt (Rate 2 10) open_door) (RlSt open_door 5%nat (RlReady 0 2) 0)) scr0 visits
  = [(3, 3, true); (3, 4, true); (4, 4, false); (12, 17, false); (18, 18, true); (18, 18, true); (27, 27, false)].
Proof. reflexivity. Qed.
Example C87_example_full : length (passed_after (12 - 10) [(3, 3, true); (3, 4, true); (4, 4, false)]) = 2%nat.
Proof. reflexivity. Qed.
