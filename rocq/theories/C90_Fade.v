(** C90: how a PeakEwma forgets.  Specification in EwmaSpec.v ([pe_history]: any history of one PeakEwma, of the futures it
    hands out and of the handles kept) and EwmaFadeSpec.v. *)
From Coq Require Import Reals.
From Flocq Require Import Core BinarySingleNaN.
From Verif Require Import Base Middleware Float Load LoadSpec EwmaSpec LoadDemo Demo EwmaTop EwmaFadeSpec EwmaFadeMain.
Set Implicit Arguments.

(** While no request starts or ends, the load falls off exponentially, with the decay time as its time constant, however
    often it is looked at: between two looks, [n] looks apart, it is multiplied by [e ^ -(time between them / decay)], up
    to a relative 2^-50 in the exponent and for each look (and 2^-960 ns: denormal numbers).  Both ways: a peak is neither
    remembered for longer nor for less long. *)
Theorem C90_fades W Req Resp Err (svc : Service W Req Resp Err) (keep : Resp -> W -> W * bool)
  (clk : W -> W * Z) (exp64 : f64 -> f64) (decay : f64) (default : Z) (time : W -> Z) (s : st svc) w (l : list (lop W Req))
  h0 m1 ok1 w1 h1 m2 ok2 w2 h2 :
  exp_ok exp64 -> exp_near exp64 -> is_finite decay = true -> (1 <= B2R decay <= bpow radix2 65)%R -> (0 <= default)%Z ->
  forward svc keep clk time -> instant clk time -> Forall (forward_op time) l ->
  pe_history svc keep clk exp64 decay default s w l =
    h0 ++ (LLoad, LoLoad (m1, ok1), w1) :: h1 ++ (LLoad, LoLoad (m2, ok2), w2) :: h2 ->
  Forall (@quiet W Req Resp Err) h1 -> (time w2 - time w1 <= u64_max)%Z ->
  let age := (IZR (time w2 - time w1) / B2R decay)%R in
  let n := S (looks h1) in let eps := bpow radix2 (-50) in let tiny := bpow radix2 (-960) in
  (B2R m1 * exp (- age * (1 + eps)) * (1 - eps) ^ n - INR n * tiny <= B2R m2 <=
   (B2R m1 * exp (- age * (1 - eps)) + INR n * tiny) * (1 + eps) ^ n)%R.
Proof.
  exact (fun a b c d e f g i E q t => @pe_load_fades _ _ _ _ svc keep clk exp64 decay default time a b c d f g s w l h0 m1 ok1 w1 h1 m2 ok2 w2 h2 e E i q t).
Qed.
Print Assumptions C90_fades.

(** So every peak is forgotten: after a hundred decay times without a request starting or ending (and at most 2^40 looks) the
    load is at most one nanosecond, whatever it was. *)
Theorem C90_second_chance W Req Resp Err (svc : Service W Req Resp Err) (keep : Resp -> W -> W * bool)
  (clk : W -> W * Z) (exp64 : f64 -> f64) (decay : f64) (default : Z) (time : W -> Z) (s : st svc) w (l : list (lop W Req))
  h0 m1 ok1 w1 h1 m2 ok2 w2 h2 :
  exp_ok exp64 -> exp_near exp64 -> is_finite decay = true -> (1 <= B2R decay <= bpow radix2 65)%R -> (0 <= default)%Z ->
  forward svc keep clk time -> instant clk time -> Forall (forward_op time) l ->
  pe_history svc keep clk exp64 decay default s w l =
    h0 ++ (LLoad, LoLoad (m1, ok1), w1) :: h1 ++ (LLoad, LoLoad (m2, ok2), w2) :: h2 ->
  Forall (@quiet W Req Resp Err) h1 -> (time w2 - time w1 <= u64_max)%Z ->
  (100 * B2R decay <= IZR (time w2 - time w1))%R -> (INR (S (looks h1)) <= bpow radix2 40)%R -> (B2R m2 <= 1)%R.
Proof.
  exact (fun a b c d e f g i E q t => @pe_second_chance _ _ _ _ svc keep clk exp64 decay default time a b c d f g s w l h0 m1 ok1 w1 h1 m2 ok2 w2 h2 e E i q t).
Qed.
Print Assumptions C90_second_chance.

(** ** A case: a decay time of 10 s; looked at, after 15 s again, and after another 2000 s. *)
Definition clk90 (w : scr) : scr * Z := (w, clock w).
Definition ops90 : list (lop scr nat) := [LLoad; LEnv (tick (15 * sec)); LLoad; LEnv (tick (2000 * sec)); LReady; LLoad].
Example C90_example : forall exp64,
  map (fun e => (match snd (fst e) with LoLoad _ => true | _ => false end, clock (snd e)))
    (pe_history demo complete_on_response clk90 exp64 (nanos (10 * sec)) sec 0 scr0 ops90) =
  [(true, 0); (false, 15 * sec); (true, 15 * sec); (false, 2015 * sec); (false, 2015 * sec); (true, 2015 * sec)]%Z /\
  Forall (@quiet scr nat nat nat) (pe_history demo complete_on_response clk90 exp64 (nanos (10 * sec)) sec 0 scr0 ops90).
Proof. intros. split; [vm_compute; reflexivity | rewrite pe_refines; apply all_quiet_run; repeat constructor]. Qed.
Example C90_example_meets :
  exp_ok exp_rounded /\ exp_near exp_rounded /\ (is_finite (nanos (10 * sec)) = true /\ (1 <= B2R (nanos (10 * sec)) <= bpow radix2 65)%R) /\ instant clk90 clock /\
  forward demo complete_on_response clk90 clock /\ Forall (forward_op clock) ops90.
Proof.
  split; [exact exp_rounded_ok|]. split; [exact exp_rounded_near|]. split; [split; [vm_compute; reflexivity|exact decay_demo_range]|]. split; [split; reflexivity|]. split.
  - constructor; cbn; intros; try lia; [destruct (rdy_script w) | destruct (res_script w)]; cbn; lia.
  - repeat constructor; cbn; intros; lia.
Qed.
(** Without decay, the exponential being 1, a peak would be remembered for ever: that is excluded by [exp_near]. *)
Example C90_needs_exp : ~ exp_near (fun _ => f_one).
Proof. exact not_near_one. Qed.
