(** Specification of PeakEwma (C54). *)
From Coq Require Import Reals.
From Flocq Require Import Core BinarySingleNaN.
From Verif Require Import Base Middleware Float Load LoadSpec.
Set Implicit Arguments.

(** ** What is assumed of [f64::exp]: on numbers that are not positive (minus
    infinity included) it gives a number from 0 to 1. *)
Definition nonpos (x : f64) : Prop :=
  match x with
  | B754_nan => False
  | B754_infinity s => s = true
  | _ => (B2R x <= 0)%R
  end.
Definition exp_ok (exp64 : f64 -> f64) : Prop :=
  forall x, nonpos x -> is_finite (exp64 x) = true /\ (0 <= B2R (exp64 x) <= 1)%R.

Section Spec.
  Context {W Req Resp Err : Type} (svc : Service W Req Resp Err) (keep : Resp -> W -> W * bool).
  Context (clk : W -> W * Z) (exp64 : f64 -> f64) (decay : f64) (default : Z).

  (** ** The system: a PeakEwma made in world [w].  A load is observed together with
      whether every debug assertion so far has held. *)
  Notation start := (pe_start clk).
  Notation finish := (pe_finish clk exp64 decay).
  Definition pe_load2 : M (arc (C := rtt_est) * W) (f64 * bool) :=
    fun x => match pe_load clk exp64 decay x with
             | (x1, Val m) => (x1, Val (m, asserts (content (fst x1))))
             | (x1, Panic) => (x1, Panic)
             | (x1, Diverge) => (x1, Diverge)
             end.
  Definition pe_history (s : st svc) (w : W) (l : list (lop W Req)) : list (lop W Req * lobs Resp Err (f64 * bool) * W) :=
    lsys_run pe_load2 (lsys0 svc start finish keep s (peak_ewma_new clk decay default w)) l.

  (** ** The reference: see LoadSpec. *)
  Definition pe_rload (n : nat) (e : rtt_est) (w : W) : rtt_est * W * (f64 * bool) :=
    let '(e1, w1) := rtt_decay clk exp64 decay e w in
    let k := (Z.of_nat (S n) mod u32_mod)%Z in
    let ok := (asserts e1 && ((1 <=? k) && ((k - 1) mod u32_mod + 1 <? u32_mod)))%Z in
    (RttEst (update_at e1) (rtt_ns e1) ok, w1, (mul64 (rtt_ns e1) (f64_of k 0), ok)).
  Notation rsys := (rsys (C := rtt_est) (T := Z) svc).
  Notation rstep := (rsys_step (svc := svc) start finish keep pe_rload).
  Definition pe_rstart (s : st svc) (w : W) : rsys :=
    rsys0 svc s (content (fst (peak_ewma_new clk decay default w))) (snd (peak_ewma_new clk decay default w)).
  (** The age of the request that a step finishes, if it does. *)
  Definition age (t : Z) (w : W) : list Z := [since (snd (clk w)) t].
  Definition ages1 (o : lop W Req) (z : rsys) : list Z :=
    match o with
    | LPoll j =>
        match nth_error (r_futs z) j, nth_error (r_reqs z) j with
        | Some (Some f), Some (Waiting t) =>
            match poll_fut svc f (r_w z) with
            | (w1, Val (_, Ready (Ok v))) => let '(w2, k) := keep v w1 in if k then [] else age t w2
            | _ => []
            end
        | _, _ => []
        end
    | LDropFut j =>
        match nth_error (r_futs z) j, nth_error (r_reqs z) j with
        | Some (Some f), Some (Waiting t) => age t (drop_fut svc f (r_w z))
        | _, _ => []
        end
    | LDropHandle j =>
        match nth_error (r_reqs z) j with
        | Some (Kept t) => age t (r_w z)
        | _ => []
        end
    | _ => []
    end.
  Fixpoint ages (z : rsys) (l : list (lop W Req)) : list Z :=
    match l with
    | [] => []
    | o :: l' =>
        ages1 o z ++ let '(z1, b) := rstep o z in match b with LoPanic | LoDiverge => [] | _ => ages z1 l' end
    end.

  (** ** The estimate, from scratch.  A reading [(now, d)]: at clock time [now] the estimate was told of a round trip
      of [d] nanoseconds.  A request that finishes gives a reading with its age; looking at the load gives one with 0. *)
  Definition reading (d : Z) (w : W) : list (Z * Z) := [(snd (clk (fst (clk w))), d)].
  Definition readings1 (o : lop W Req) (z : rsys) : list (Z * Z) :=
    match o with
    | LLoad => match r_svc z with Some _ => reading 0 (r_w z) | None => [] end
    | LPoll j =>
        match nth_error (r_futs z) j, nth_error (r_reqs z) j with
        | Some (Some f), Some (Waiting t) =>
            match poll_fut svc f (r_w z) with
            | (w1, Val (_, Ready (Ok v))) => let '(w2, k) := keep v w1 in if k then [] else reading (since (snd (clk w2)) t) w2
            | _ => []
            end
        | _, _ => []
        end
    | LDropFut j =>
        match nth_error (r_futs z) j, nth_error (r_reqs z) j with
        | Some (Some f), Some (Waiting t) => let w1 := drop_fut svc f (r_w z) in reading (since (snd (clk w1)) t) w1
        | _, _ => []
        end
    | LDropHandle j =>
        match nth_error (r_reqs z) j with
        | Some (Kept t) => reading (since (snd (clk (r_w z))) t) (r_w z)
        | _ => []
        end
    | _ => []
    end.
  Fixpoint readings (z : rsys) (l : list (lop W Req)) : list (Z * Z) :=
    match l with
    | [] => []
    | o :: l' =>
        readings1 o z ++ let '(z1, b) := rstep o z in match b with LoPanic | LoDiverge => [] | _ => readings z1 l' end
    end.
  (** A reading above the estimate replaces it; otherwise the weight of the old estimate is [e ^ -(time since the last
      reading / decay)].  All in IEEE double precision. *)
  Fixpoint average (est : f64) (last : Z) (r : list (Z * Z)) : f64 :=
    match r with
    | [] => est
    | (now, d) :: r' =>
        let keep_old := exp64 (div64 (neg64 (nanos (since now last))) decay) in
        average (if lt64 est (nanos d) then nanos d
              else add64 (mul64 est keep_old) (mul64 (nanos d) (sub64 (f64_of 1 0) keep_old))) now r'
    end.

  (** Nothing starts or finishes. *)
  Definition quiet (e : lop W Req * lobs Resp Err (f64 * bool) * W) : Prop :=
    match fst e with
    | (LCall _, LoCalled) | (LPoll _, LoPolled (Ready (Ok _))) | (LDropFut _, LoDone) | (LDropHandle _, LoDone) => False
    | _ => True
    end.

  (** A clock that does not run backwards, whatever the program does. *)
  Record forward (time : W -> Z) : Prop := MkForward {
    fw_clk : forall w, (time w <= snd (clk w) <= time (fst (clk w)))%Z;
    fw_ready : forall s w, (time w <= time (fst (poll_ready svc s w)))%Z;
    fw_call : forall s r w, (time w <= time (fst (call svc s r w)))%Z;
    fw_poll : forall f w, (time w <= time (fst (poll_fut svc f w)))%Z;
    fw_drop : forall s w, (time w <= time (drop_svc svc s w))%Z;
    fw_dropf : forall f w, (time w <= time (drop_fut svc f w))%Z;
    fw_keep : forall v w, (time w <= time (fst (keep v w)))%Z }.
  Definition forward_op (time : W -> Z) (o : lop W Req) : Prop :=
    match o with LEnv g => forall w, (time w <= time (g w))%Z | _ => True end.
End Spec.
