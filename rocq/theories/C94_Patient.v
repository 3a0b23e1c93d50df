(** C94: a Retry with a backoff spaces its attempts.  Models: Patient.v, Backoff.v, Middleware.v. *)
From Coq Require Import Reals.
From Flocq Require Import Core BinarySingleNaN.
From Verif Require Import Base DriveSpec Middleware Float Backoff BackoffSpec Patient PatientSpec PatientProof Demo.
Set Implicit Arguments.
Local Open Scope Z_scope.

(** A policy that waits for the [next_backoff] of its [ExponentialBackoff] before each retry, whatever else it decides
    and keeps; one request, however its future is polled and whatever the service answers.  As long as the clock does
    not go backwards: the [k]-th further attempt is sent at least [pause k] after the one before it was answered. *)
Theorem C94_spaced :
  forall W Req Resp Err A R (rt : Rt W) horizon (next_u64 : R -> M W (R * Z)) debug
    (ask : A -> Req -> result Resp Err -> M W (A * Req * result Resp Err * bool))
    (copy : A -> Req -> M W (A * option Req)) (aclone : A -> M W A) (svc : Service W Req Resp Err),
  on_svc rt svc -> (forall g, on rt (next_u64 g)) -> (forall a q v, on rt (ask a q v)) ->
  (forall a r, on rt (copy a r)) -> (forall a, on rt (aclone a)) -> proper next_u64 ->
  forall fuel min max j (rng : R) m a s r w x1 ps f gs,
  let waiting := retry (at_times (patient rt horizon next_u64 debug ask copy aclone)) (timed rt svc) fuel in
  maker_new min max j rng = Ok m -> duration min -> duration max ->
  call waiting ((a, make_backoff m), s) r (w, Times [] []) = (x1, Val (ps, f)) ->
  Forall (on_env rt) gs ->
  spaced (pause (BoCfg min max j))
    (snd (last_world (snd (drive (poll_fut waiting) f x1 (map (fun g y => (g (fst y), snd y)) gs))))).
Proof. exact @patient_request. Qed.
Print Assumptions C94_spaced.

(** So the [k]-th further attempt is sent at least the sum of the first [k] pauses after the request was. *)
Theorem C94_total : forall gap x k s0 s, spaced gap x ->
  nth_error (sent x) 0 = Some s0 -> nth_error (sent x) k = Some s -> s0 + total gap k <= s.
Proof. exact spaced_total. Qed.
Print Assumptions C94_total.

(** The pauses double from [min] on, as far as [max] (and thirty years) ... *)
Theorem C94_doubles : forall min max j k,
  (k < 32)%nat -> 0 <= min -> min * 2 ^ Z.of_nat k <= max -> max <= thirty_years ->
  pause (BoCfg min max j) k = min * 2 ^ Z.of_nat k.
Proof. exact pause_doubles. Qed.
Print Assumptions C94_doubles.
(** ... and are never below [min], even when the count of iterations wraps. *)
Theorem C94_least : forall min max j k, duration min -> duration max -> valid_backoff min max j ->
  Z.min min thirty_years <= pause (BoCfg min max j) k.
Proof. exact pause_least. Qed.
Print Assumptions C94_least.

(** Non-vacuity: 100, then 200, then 250 (the maximum); three failures, polled every 60. *)
Definition pol94 : Policy scr nat nat nat :=
  patient scr_rt (2 ^ 62) (fun g : unit => ret (g, 0)) false (fun a q v => ret (a, q, v, match v with Ok _ => false | Er _ => true end))
    (fun a r => ret (a, Some r)) (fun a : unit => ret a).
Example C94_example_made : maker_new 100 250 (f64_of 0 0) tt = Ok (Maker (BoCfg 100 250 (f64_of 0 0)) tt).
Proof. vm_compute. reflexivity. Qed.
Definition run94 :=
  let s := retry (at_times pol94) (timed scr_rt demo) 9 in
  match call s ((tt, make_backoff (Maker (BoCfg 100 250 (f64_of 0 0)) tt)), 5%nat) 7%nat
             (Scr 0 [] [Ready (Er 1%nat); Ready (Er 2%nat); Ready (Er 3%nat); Ready (Ok 4%nat)], Times [] []) with
  | (x1, Val (ps, f)) =>
      match drive (poll_fut s) f x1 (map (fun g y => (g (fst y), snd y)) (repeat (tick 60) 14)) with
      | (_, Finished _ x2 res) => Some (res, snd x2)
      | _ => None
      end
  | _ => None
  end.
Example C94_example : run94 = Some (Ok 4%nat, Times [0; 180; 420; 720] [60; 180; 420; 720]).
Proof. vm_compute. reflexivity. Qed.
Example C94_example_forward :
  on_svc scr_rt demo /\ proper (fun g : unit => @ret scr (unit * Z) (g, 0)) /\ Forall (on_env scr_rt) (repeat (tick 60) 14).
Proof.
  split; [|split].
  - split; try (intros; intros w0; cbn; try destruct (rdy_script w0); try destruct (res_script w0); cbn; lia).
  - intros g w0. exists tt, 0. destruct g. split; [reflexivity | lia].
  - apply Forall_forall. intros g Hg. apply repeat_spec in Hg. subst g. intros w0. cbn. lia.
Qed.
