(** C60.  Owners that do not honour the [Service] contract: operations in any
    order, [call] included, whatever [poll_ready] answered.  Unlike [run_svc]
    (Base.v) nothing is skipped. *)
From Verif Require Import Base Middleware Limits Track RateSpec.
Set Implicit Arguments.

Section AnyOwner.
  Context {W Req Resp Err : Type} (svc : Service W Req Resp Err).

  (** Entries: operation, world before, what was observed, world after.  A
      history ends with a panic. *)
  Definition aentry : Type := @sop Req * W * sobs svc * W.
  Fixpoint run_any (s : st svc) (w : W) (ops : list ((W -> W) * @sop Req)) : list aentry :=
    match ops with
    | [] => []
    | (g, SReady) :: ops' =>
        match poll_ready svc s (g w) with
        | (w1, Val (s1, a)) => (SReady, g w, ObsReady a, w1) :: run_any s1 w1 ops'
        | (w1, Panic) => [(SReady, g w, ObsPanic, w1)]
        | (w1, Diverge) => [(SReady, g w, ObsDiverge, w1)]
        end
    | (g, SCall r) :: ops' =>
        match call svc s r (g w) with
        | (w1, Val (s1, f)) => (SCall r, g w, ObsCall r f, w1) :: run_any s1 w1 ops'
        | (w1, Panic) => [(SCall r, g w, ObsPanic, w1)]
        | (w1, Diverge) => [(SCall r, g w, ObsDiverge, w1)]
        end
    end.

  (** Has the owner an unused [Ready(Ok)]?  Oldest entry first. *)
  Definition primed_by (b : bool) (e : aentry) : bool :=
    match snd (fst e) with
    | ObsReady (Ready (Ok _)) => true
    | ObsReady Pending => false
    | ObsReady (Ready (Er _)) => b
    | _ => false
    end.
  Definition primed (h : list aentry) : bool := fold_left primed_by h false.

  (** Calls without one panic, and nothing happens to the world: whatever is
      wrapped is not touched. *)
  Definition refuses_unprimed (s : st svc) : Prop :=
    forall w ops h1 r w0 o w1 h2,
      run_any s w ops = h1 ++ (SCall r, w0, o, w1) :: h2 ->
      primed h1 = false -> o = ObsPanic /\ w1 = w0.
End AnyOwner.

(** Times of the calls that went through. *)
Fixpoint any_call_times {W Req Resp Err} (rt : Rt W) (svc : Service W Req Resp Err) (r : rate)
  (h : list (aentry (trate rt svc r))) : list Z :=
  match h with
  | [] => []
  | (_, w, ObsCall _ _, _) :: h' => now (tk_rt rt) w :: any_call_times h'
  | _ :: h' => any_call_times h'
  end.

(** ** Any number of [LoadShed] instances in the hands of such owners. *)
Section ShedFleet.
  Context {W Req Resp Err : Type} (svc : Service W Req Resp Err).
  Notation tsvc := (tracked (fun e : tev Req Resp Err => e) svc).
  Notation TW := (W * tk (tev Req Resp Err))%type.

  Inductive fop := FReady (k : nat) | FCall (k : nat) (r : Req) | FClone (k : nat) | FDrop (k : nat).
  Inductive fobs :=
  | FoReady (i : nat) (a : poll (result unit (Err + unit)))   (* [i]: the wrapped instance *)
  | FoCall (i : nat) (r : Req) (f : fut (load_shed tsvc))
  | FoOther
  | FoPanic | FoDiverge.

  (** Instances are named by their position of creation. *)
  Fixpoint fleet_run (hs : list (option (st (load_shed tsvc)))) (w : TW) (ops : list ((W -> W) * fop)) : list (TW * fobs * TW) :=
    match ops with
    | [] => []
    | (g, o) :: ops' =>
        let w0 := tk_env g w in
        match o with
        | FReady k =>
            match nth_error hs k with
            | Some (Some s) =>
                match poll_ready (load_shed tsvc) s w0 with
                | (w1, Val (s1, a)) =>
                    (w0, FoReady (fst (ls_inner s)) a, w1) :: fleet_run (set_nth k (Some s1) hs) w1 ops'
                | (w1, Panic) => [(w0, FoPanic, w1)]
                | (w1, Diverge) => [(w0, FoDiverge, w1)]
                end
            | _ => fleet_run hs w0 ops'
            end
        | FCall k r =>
            match nth_error hs k with
            | Some (Some s) =>
                match call (load_shed tsvc) s r w0 with
                | (w1, Val (s1, f)) =>
                    (w0, FoCall (fst (ls_inner s)) r f, w1) :: fleet_run (set_nth k (Some s1) hs) w1 ops'
                | (w1, Panic) => [(w0, FoPanic, w1)]
                | (w1, Diverge) => [(w0, FoDiverge, w1)]
                end
            | _ => fleet_run hs w0 ops'
            end
        | FClone k =>
            match nth_error hs k with
            | Some (Some s) =>
                match clone (load_shed tsvc) s w0 with
                | (w1, Val s1) => (w0, FoOther, w1) :: fleet_run (hs ++ [Some s1]) w1 ops'
                | (w1, Panic) => [(w0, FoPanic, w1)]
                | (w1, Diverge) => [(w0, FoDiverge, w1)]
                end
            | _ => fleet_run hs w0 ops'
            end
        | FDrop k =>
            match nth_error hs k with
            | Some (Some s) =>
                let w1 := drop_svc (load_shed tsvc) s w0 in
                (w0, FoOther, w1) :: fleet_run (set_nth k None hs) w1 ops'
            | _ => fleet_run hs w0 ops'
            end
        end
    end.

  (** Read off the log of what happened to the wrapped services (newest first):
      was the last thing instance [i] said, other than an error, that it is
      ready, and has it not been called since? *)
  Fixpoint unused_ready (i : nat) (l : list (tev Req Resp Err)) : bool :=
    match l with
    | [] => false
    | TReady k a :: l' =>
        if k =? i then match a with Ready (Ok _) => true | Pending => false | Ready (Er _) => unused_ready i l' end
        else unused_ready i l'
    | TCall k _ _ :: l' => if k =? i then false else unused_ready i l'
    | _ :: l' => unused_ready i l'
    end.

  Definition fleet_entry (x : TW * fobs * TW) : Prop :=
    match x with
    | (w, o, w1) =>
        match o with
        | FoReady i a => exists a0, log_of w1 = TReady i a0 :: log_of w /\
            a = match a0 with Ready (Er e) => Ready (Er (inl e)) | _ => Ready (Ok tt) end
        | FoCall i r (Some f) => unused_ready i (log_of w) = true /\ log_of w1 = TCall i r (fst f) :: log_of w
        | FoCall i r None => unused_ready i (log_of w) = false /\ w1 = w
        | FoOther => True
        | FoPanic | FoDiverge => log_of w1 = log_of w
        end
    end.
End ShedFleet.
