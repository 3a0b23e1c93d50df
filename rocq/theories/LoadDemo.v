(** Concrete cases for C53-C55. *)
From Coq Require Import Reals Lra.
From Flocq Require Import Core BinarySingleNaN.
From Verif Require Import Base Middleware Float FloatProof BackoffProof EwmaReal EwmaProof Load LoadSpec EwmaSpec Demo.
Set Implicit Arguments.

(** Reading the clock takes a nanosecond. *)
Definition clk1 (w : scr) : scr * Z := (tick 1 w, clock w).
(** A coarse exponential: 1 at 0, 1/2 below. *)
Definition exp_demo (x : f64) : f64 := match x with B754_zero _ => f_one | B754_nan => B754_nan | _ => f64_of 1 (-1) end.
Lemma half_ok : is_finite (f64_of 1 (-1)) = true /\ (0 <= B2R (f64_of 1 (-1)) <= 1)%R.
Proof.
  split; [vm_compute; reflexivity|].
  rewrite <- SF2R_B2SF. replace (B2SF (f64_of 1 (-1))) with (SpecFloat.S754_finite false 4503599627370496 (-53)) by (vm_compute; reflexivity).
  unfold SF2R, F2R. cbn. lra.
Qed.
Lemma exp_demo_ok : exp_ok exp_demo.
Proof.
  intros x Hx. destruct x as [s|s| |s m e He]; cbn [exp_demo]; try apply half_ok; [|destruct Hx].
  destruct f_one_ok as [E F]. split; [exact F|]. rewrite E. lra.
Qed.
Lemma clk1_forward : forward demo complete_on_response clk1 clock.
Proof.
  constructor; cbn; intros; try lia.
  - destruct (rdy_script w); cbn; lia.
  - destruct (res_script w); cbn; lia.
Qed.
Definition sec : Z := 1000000000.
Lemma decay_demo : is_finite (nanos (10 * sec)) = true /\ (0 < B2R (nanos (10 * sec)))%R.
Proof.
  destruct (@nanos_ok (10 * sec) ltac:(discriminate)) as (F & R & I & Z & _). split; [exact F|].
  destruct I as [I|I]; [|lra]. apply Z in I. discriminate.
Qed.

(** Two requests; load after each step. *)
Definition run_demo : list (lop scr nat) :=
  [LReady; LLoad; LCall 1; LLoad; LEnv (tick (3 * sec)); LCall 2; LLoad; LPoll 0; LLoad; LEnv (tick sec); LLoad; LPoll 1; LDropFut 0; LDropFut 1; LLoad].
Definition w_demo : scr := Scr 0 [] [Ready (Ok 7); Ready (Er 5)].
Definition loads {Met : Type} (h : list (lop scr nat * lobs nat nat Met * scr)) : list Met :=
  flat_map (fun e => match fst e with (_, LoLoad m) => [m] | _ => [] end) h.

(** An error answer does not end the request. *)
Lemma error_still_counts : exists h1 w1,
  lsys_run pr_load (lsys0 demo pr_start pr_finish complete_on_response 0 (arc_new tt, Scr 0 [] [Ready (Er 5)])) [LReady; LCall 1; LPoll 0; LLoad]
    = h1 ++ [(LLoad, LoLoad 1, w1)] /\ In (LPoll 0, LoPolled (Ready (Er 5)), w1) h1 /\ called h1 = 1.
Proof.
  exists [(LReady, LoReady (Ready (Ok tt)), Scr 0 [] [Ready (Er 5)]); (LCall 1, LoCalled, Scr 0 [] [Ready (Er 5)]); (LPoll 0, LoPolled (Ready (Er 5)), Scr 0 [] [])],
    (Scr 0 [] []). split; [|split]; [vm_compute; reflexivity|cbn; auto|vm_compute; reflexivity].
Qed.

(** A decay time of zero, in a release build: the load is not a number. *)
Lemma zero_decay_nan : exists h1 m w1 h2,
  pe_history demo complete_on_response (fun w => (w, clock w)) exp_demo (nanos 0) sec 0 scr0 [LLoad] =
    h1 ++ (LLoad, LoLoad (m, false), w1) :: h2 /\ m = B754_nan.
Proof.
  exists [], B754_nan, scr0, []. split; [|reflexivity].
  assert (E : forall a b : lobs nat nat (f64 * bool) , a = b -> [(@LLoad scr nat, a, scr0)] = [] ++ [(LLoad, b, scr0)]) by (intros a b ->; reflexivity).
  apply E. vm_compute. reflexivity.
Qed.
