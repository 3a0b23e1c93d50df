(** C63: Retry with a policy that asks a shared [TpsBudget] (as in the
    documentation of retry/budget/mod.rs:30-71), any number of clones and
    requests, polled in any order.  How many extra attempts can there be? *)
From Verif Require Import Base Middleware Limits Tps TpsSpec.
Set Implicit Arguments.

Section Storm.
  Context {W Req Resp Err : Type} (svc : Service W Req Resp Err) (clock : W -> Z) (cfg : tps_cfg).

  (** The world: the shared budget, with the operations done on it so far
      (oldest first), and two counters of what the wrapped service sees: attempts
      (calls), and answers that are not to be retried. *)
  Record bw := BW { bw_tps : tps; bw_ops : list (Z * tps_op); bw_att : nat; bw_good : nat; bw_w : W }.
  Definition in_w {A} (m : M W A) : M bw A :=
    fun b => match m (bw_w b) with (w1, o) => (BW (bw_tps b) (bw_ops b) (bw_att b) (bw_good b) w1, o) end.

  (** User code: which results to retry; how long to wait before it; copying requests. *)
  Context (again : result Resp Err -> bool) (T : Task W unit) (delay : result Resp Err -> M W (tst T))
    (copy : Req -> M W (option Req)).

  (** The wrapped service, with the counters. *)
  Definition counted : Service bw Req Resp Err :=
    MkService (st svc) (fut svc)
      (fun s => in_w (poll_ready svc s))
      (fun s r b => in_w (call svc s r) (BW (bw_tps b) (bw_ops b) (S (bw_att b)) (bw_good b) (bw_w b)))
      (fun f =>
         '(f1, p) <- in_w (poll_fut svc f) ;;
         modify (fun b =>
           match p with
           | Ready res => if again res then b
                          else BW (bw_tps b) (bw_ops b) (bw_att b) (S (bw_good b)) (bw_w b)
           | Pending => b
           end) ;;;
         ret (f1, p))
      (fun s => in_w (clone svc s))
      (fun s b => BW (bw_tps b) (bw_ops b) (bw_att b) (bw_good b) (drop_svc svc s (bw_w b)))
      (fun f b => BW (bw_tps b) (bw_ops b) (bw_att b) (bw_good b) (drop_fut svc f (bw_w b))).

  (** [Budget::deposit] and [Budget::withdraw] on the shared budget
      (tps_budget.rs:172-181); [Instant::now()] is [clock]. *)
  Definition do_deposit : M bw unit :=
    fun b => let t := clock (bw_w b) in
      match deposit cfg t (bw_tps b) with
      | Val x => (BW x (bw_ops b ++ [(t, Deposit)]) (bw_att b) (bw_good b) (bw_w b), Val tt)
      | Panic => (b, Panic)
      | Diverge => (b, Diverge)
      end.
  Definition do_withdraw : M bw bool :=
    fun b => let t := clock (bw_w b) in
      match withdraw cfg t (bw_tps b) with
      | Val (x, a) => (BW x (bw_ops b ++ [(t, Withdraw)]) (bw_att b) (bw_good b) (bw_w b), Val a)
      | Panic => (b, Panic)
      | Diverge => (b, Diverge)
      end.

  (** The policy of retry/budget/mod.rs:43-71, with the user's own choice of what
      to retry, of the delay and of copying the request. *)
  Definition budget_policy : Policy bw Req Resp Err :=
    @MkPolicy bw Req Resp Err unit
      (MkTask (tst T) (fun t => in_w (tpoll T t))
         (fun t b => BW (bw_tps b) (bw_ops b) (bw_att b) (bw_good b) (tdrop T t (bw_w b))))
      (fun p r => o <- in_w (copy r) ;; ret (p, o))
      (fun p q res =>
         if again res then
           a <- do_withdraw ;;
           if a then t <- in_w (delay res) ;; ret (p, q, res, Some t) else ret (p, q, res, None)
         else do_deposit ;;; ret (p, q, res, None))
      (fun p => ret p).

  Context (fuel : nat).
  Notation rs := (retry budget_policy counted fuel).

  (** What the owners can do, in any order, contract or not. *)
  Inductive gop :=
  | GReady (i : nat) | GCall (i : nat) (r : Req) | GClone (i : nat) | GDropSvc (i : nat)
  | GPoll (j : nat) | GDropFut (j : nat) | GEnv (g : W -> W).
  Record gsys := GSys { g_insts : list (option (st rs)); g_futs : list (option (fut rs)); g_b : bw }.
  Definition gsys0 (s : st svc) (w : W) : gsys := GSys [Some (tt, s)] [] (BW (tps_start (clock w)) [] 0 0 w).

  (** An operation that panics or hangs leaves what it has done so far; the object is not used again. *)
  Definition gstep (o : gop) (y : gsys) : gsys :=
    match o with
    | GReady i =>
        match nth_error (g_insts y) i with
        | Some (Some s) =>
            match poll_ready rs s (g_b y) with
            | (b1, Val (s1, _)) => GSys (set_nth i (Some s1) (g_insts y)) (g_futs y) b1
            | (b1, _) => GSys (set_nth i None (g_insts y)) (g_futs y) b1
            end
        | _ => y
        end
    | GCall i r =>
        match nth_error (g_insts y) i with
        | Some (Some s) =>
            match call rs s r (g_b y) with
            | (b1, Val (s1, f)) => GSys (set_nth i (Some s1) (g_insts y)) (g_futs y ++ [Some f]) b1
            | (b1, _) => GSys (set_nth i None (g_insts y)) (g_futs y) b1
            end
        | _ => y
        end
    | GClone i =>
        match nth_error (g_insts y) i with
        | Some (Some s) =>
            match clone rs s (g_b y) with
            | (b1, Val s1) => GSys (g_insts y ++ [Some s1]) (g_futs y) b1
            | (b1, _) => GSys (set_nth i None (g_insts y)) (g_futs y) b1
            end
        | _ => y
        end
    | GDropSvc i =>
        match nth_error (g_insts y) i with
        | Some (Some s) => GSys (set_nth i None (g_insts y)) (g_futs y) (drop_svc rs s (g_b y))
        | _ => y
        end
    | GPoll j =>
        match nth_error (g_futs y) j with
        | Some (Some f) =>
            match poll_fut rs f (g_b y) with
            | (b1, Val (f1, _)) => GSys (g_insts y) (set_nth j (Some f1) (g_futs y)) b1
            | (b1, _) => GSys (g_insts y) (set_nth j None (g_futs y)) b1
            end
        | _ => y
        end
    | GDropFut j =>
        match nth_error (g_futs y) j with
        | Some (Some f) => GSys (g_insts y) (set_nth j None (g_futs y)) (drop_fut rs f (g_b y))
        | _ => y
        end
    | GEnv g =>
        GSys (g_insts y) (g_futs y)
          (BW (bw_tps (g_b y)) (bw_ops (g_b y)) (bw_att (g_b y)) (bw_good (g_b y)) (g (bw_w (g_b y))))
    end.
  Definition grun (y : gsys) (l : list gop) : gsys := fold_left (fun y o => gstep o y) l y.

  (** The requests the owners make. *)
  Fixpoint requests (l : list gop) : nat :=
    match l with [] => 0 | GCall _ _ :: l' => S (requests l') | _ :: l' => requests l' end.

  (** Time does not run backwards, whatever runs. *)
  Definition forward {A} (m : M W A) : Prop := forall w, (clock w <= clock (fst (m w)))%Z.
  Definition onward (g : W -> W) : Prop := forall w, (clock w <= clock (g w))%Z.
  Record forward_svc : Prop := {
    fw_ready : forall s, forward (poll_ready svc s);
    fw_call : forall s r, forward (call svc s r);
    fw_poll : forall f, forward (poll_fut svc f);
    fw_clone : forall s, forward (clone svc s);
    fw_drop : forall s, onward (drop_svc svc s);
    fw_dropf : forall f, onward (drop_fut svc f);
    fw_copy : forall r, forward (copy r);
    fw_delay : forall res, forward (delay res);
    fw_wait : forall t, forward (tpoll T t);
    fw_waitdrop : forall t, onward (tdrop T t) }.
  Definition forward_ops (l : list gop) : Prop := Forall (fun o => match o with GEnv g => onward g | _ => True end) l.
End Storm.
Arguments GReady {W Req} i.
Arguments GCall {W Req} i r.
Arguments GClone {W Req} i.
Arguments GDropSvc {W Req} i.
Arguments GPoll {W Req} j.
Arguments GDropFut {W Req} j.
Arguments GEnv {W Req} g.
