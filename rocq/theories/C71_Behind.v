(** C71: a service behind a Buffer has one proper owner, whoever uses the handles; so a rate limit there limits all of
    them together.  Specification in BehindSpec.v. *)
From Verif Require Import Base ContractSpec Limits RateSpec RateProof Buffer BufferTop BehindSpec BehindProof Demo.
Set Implicit Arguments.

(** Any handles, futures and worker, interleaved in any way: what is done with the wrapped service is a history of one
    owner who keeps to the [Service] contract ([run_svc] of Base.v; nothing in it is [ObsSkip], an operation the
    contract forbids), in a world that otherwise only the response futures and the rest of the program change. *)
Theorem C71_one_owner :
  forall W Req Resp Err (svc : Service W Req Resp Err) bound s w (ops : list (bop (W := W) (Req := Req))) y l,
  buffer_run svc bound s w ops = (y, l) ->
  exists h, Forall (fun o => outside svc ops (fst o)) h /\
    map (fun e => snd (fst e)) (run_svc svc Idle s w h) = rev (inner_uses l).
Proof. exact @one_owner. Qed.
Print Assumptions C71_one_owner.

(** RateLimit behind a Buffer: the calls that reach the service at the bottom, from whichever handles, fall into
    disjoint windows of length [per] with at most [num] calls each. *)
Theorem C71_rate :
  forall W Req Resp Err (rt : Rt W) (svc : Service W Req Resp Err) (r : rate),
  (0 < r_num r)%N -> (0 < r_per r)%Z -> time_goes_on rt svc ->
  forall bound x w0 w s (ops : list (bop (W := W * list Z) (Req := Req))) y l, env_goes_on rt ops ->
  rate_limit_new (note_rt rt) r (noting rt svc) x (w0, []) = (w, Val s) ->
  buffer_run (rate_limit (note_rt rt) r (noting rt svc)) bound s w ops = (y, l) ->
  exists lo, windowed (r_num r) (r_per r) lo (rev (snd (y_w y))).
Proof. exact @rate_behind. Qed.
Print Assumptions C71_rate.

(** Hence at most [2 * num] in any interval of length [per]. *)
Theorem C71_rate_twice :
  forall W Req Resp Err (rt : Rt W) (svc : Service W Req Resp Err) (r : rate),
  (0 < r_num r)%N -> (0 < r_per r)%Z -> time_goes_on rt svc ->
  forall bound x w0 w s (ops : list (bop (W := W * list Z) (Req := Req))) y l, env_goes_on rt ops ->
  rate_limit_new (note_rt rt) r (noting rt svc) x (w0, []) = (w, Val s) ->
  buffer_run (rate_limit (note_rt rt) r (noting rt svc)) bound s w ops = (y, l) ->
  forall t, (N.of_nat (length (within t (r_per r) (rev (snd (y_w y))))) <= 2 * r_num r)%N.
Proof. exact @rate_behind_twice. Qed.
Print Assumptions C71_rate_twice.

(** ** Cases: two handles, three requests at time 0, two per ten time units. *)
Definition rl71 := rate_limit (note_rt scr_rt) (Rate 2 10) (noting scr_rt demo).
Definition wait71 (d : Z) : bop (W := scr * list Z) (Req := nat) := BEnv (fun x => (tick (Z.max 0 d) (fst x), snd x)).
Definition ops71 : list (bop (W := scr * list Z) (Req := nat)) :=
  [BClone 0; BReady 0; BStep 0 false; BReady 1; BStep 1 false; BCall 0 33; BCall 1 34; BReady 0; BStep 0 false; BCall 0 35]
  ++ repeat (BWork false) 20 ++ [wait71 9] ++ repeat (BWork false) 4 ++ [BPollF 1 false; wait71 2; BDropF 0] ++ repeat (BWork false) 9.
Definition run71 := buffer_run rl71 3 (RlSt (noting scr_rt demo) 5 (RlReady 0 2) 0) (scr0, []) ops71.
Example C71_example :
  rev (snd (y_w (fst run71))) = [0; 0; 11]%Z /\
  rate_limit_new (note_rt scr_rt) (Rate 2 10) (noting scr_rt demo) 5 (scr0, []) = ((scr0, []), Val (RlSt (noting scr_rt demo) 5 (RlReady 0 2) 0)).
Proof. split; [vm_compute; reflexivity | reflexivity]. Qed.
Example C71_example_meets : time_goes_on scr_rt demo /\ env_goes_on scr_rt ops71.
Proof.
  split.
  - repeat split; intros; cbn; try apply Z.le_refl; [destruct (rdy_script w) | destruct (res_script w)]; apply Z.le_refl.
  - intros g Hg x. unfold ops71, wait71 in Hg. repeat (rewrite in_app_iff in Hg; cbn [In] in Hg).
    repeat match goal with
    | H : _ \/ _ |- _ => destruct H as [H|H]
    | H : False |- _ => destruct H
    | H : In _ (repeat _ _) |- _ => apply repeat_spec in H
    | H : _ = BEnv _ |- _ => try discriminate H; injection H as <-
    | H : BEnv _ = _ |- _ => discriminate H
    end; cbn; split; try reflexivity; lia.
Qed.
(** What the worker did with the limiter: asked it in vain until the time had come. *)
Example C71_example_uses :
  map (fun o => match o with ObsReady Pending => 0 | ObsReady (Ready _) => 1 | ObsCall r _ => r | _ => 99 end) (rev (inner_uses (snd run71)))
  = [1; 33; 1; 34; 0; 0; 0; 1; 35].
Proof. vm_compute. reflexivity. Qed.
