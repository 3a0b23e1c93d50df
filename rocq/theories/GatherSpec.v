(** Specification for C86: a program with a CallAll, and what the CallAll has. *)
From Verif Require Import Base CallAll KeepSpec.
Set Implicit Arguments.
Local Open Scope Z_scope.

Section Gather.
  Context {W Req Resp Err : Type} (svc : Service W Req Resp Err) (T : Stream W Req) (sched : nat -> W -> W * list nat).

  Definition in_order : Drive W (fut svc) (result Resp Err) := ordered_drive (poll_fut svc) (drop_fut svc) sched.
  Definition any_order : Drive W (fut svc) (result Resp Err) := unordered_drive (poll_fut svc) (drop_fut svc) sched.

  (** The program: it has one CallAll, ordered at first, until it consumes it or drops it; and the instances it got out
      of it.  [g_bad]: a panic, or a poll that does not return.  [g_said]: the answer, if the last operation was a poll. *)
  Inductive gather := Ordered (c : call_all svc T in_order) | Unordered (c : call_all svc T any_order).
  Record gsys := Gs { g_w : W; g_ca : option gather; g_out : list (st svc); g_bad : bool;
                      g_said : option (poll (option (result Resp Err))) }.
  Inductive gop :=
  | GPoll                    (* poll_next *)
  | GTake                    (* take_service *)
  | GInto                    (* into_inner *)
  | GUnordered               (* unordered() *)
  | GDrop                    (* the CallAll is dropped *)
  | GFree                    (* an instance got out of it is dropped *)
  | GEnv (g : W -> W).       (* anything else *)

  Definition gather_drop (c : gather) : W -> W :=
    match c with
    | Ordered c => ca_drop (Q := in_order) (fun q => fus_drop (drop_fut svc) (oq_prog q)) c
    | Unordered c => ca_drop (Q := any_order) (fus_drop (drop_fut svc)) c
    end.
  Definition gather_poll (fuel : nat) (c : gather) : M W (gather * poll (option (result Resp Err))) :=
    match c with
    | Ordered c => '(c1, a) <- ca_next fuel c ;; ret (Ordered c1, a)
    | Unordered c => '(c1, a) <- ca_next fuel c ;; ret (Unordered c1, a)
    end.
  Definition gather_take (c : gather) : M W (gather * st svc) :=
    match c with
    | Ordered c => '(c1, s) <- ca_take c ;; ret (Ordered c1, s)
    | Unordered c => '(c1, s) <- ca_take c ;; ret (Unordered c1, s)
    end.

  Definition gset {A} (x : gsys) (r : W * out A) (k : W -> A -> gsys) : gsys :=
    match r with (w1, Val a) => k w1 a | (w1, _) => Gs w1 None (g_out x) true None end.
  Definition gstep (fuel : nat) (x : gsys) (o : gop) : gsys :=
    match o, g_ca x with
    | GPoll, Some c => gset x (gather_poll fuel c (g_w x)) (fun w1 r => Gs w1 (Some (fst r)) (g_out x) (g_bad x) (Some (snd r)))
    | GTake, Some c => gset x (gather_take c (g_w x)) (fun w1 r => Gs w1 (Some (fst r)) (g_out x ++ [snd r]) (g_bad x) None)
    | GInto, Some c =>
        gset x (gather_take c (g_w x)) (fun w1 r => Gs (gather_drop (fst r) w1) None (g_out x ++ [snd r]) (g_bad x) None)
    | GUnordered, Some (Ordered c) =>
        gset x (ca_unordered any_order c (g_w x)) (fun w1 c1 => Gs w1 (Some (Unordered c1)) (g_out x) (g_bad x) None)
    | GDrop, Some c => Gs (gather_drop c (g_w x)) None (g_out x) (g_bad x) None
    | GFree, _ => match g_out x with
                  | s :: l => Gs (drop_svc svc s (g_w x)) (g_ca x) l (g_bad x) None
                  | [] => x
                  end
    | GEnv g, _ => Gs (g (g_w x)) (g_ca x) (g_out x) (g_bad x) (g_said x)
    | _, _ => x
    end.
  Definition gstart (s : st svc) (t : sst T) (w : W) : gsys := Gs w (Some (Ordered (ca_new svc T in_order s t))) [] false None.
  Definition grun (fuel : nat) (s : st svc) (t : sst T) (w : W) (ops : list gop) : gsys := fold_left (gstep fuel) ops (gstart s t w).

  (** What the CallAll has: the instance, unless it was taken out, and the response futures in progress. *)
  Definition with_instance (c : gather) : option (st svc) := match c with Ordered c => ca_svc c | Unordered c => ca_svc c end.
  Definition with_futures (c : gather) : list (fut svc) :=
    match c with Ordered c => map snd (oq_prog (ca_queue c)) | Unordered c => map snd (ca_queue c) end.
  Definition gathered (osv : st svc -> Z) (own : fut svc -> Z) (x : gsys) : Z :=
    oopt (fun c => oopt osv (with_instance c) + osum own (with_futures c)) (g_ca x) + osum osv (g_out x).

  (** The request stream, the order of polling and the rest of the program leave alone what is counted. *)
  Definition others_leave (live : W -> Z) (ops : list gop) : Prop :=
    (forall t w, live (fst (snext T t w)) = live w) /\ (forall n w, live (fst (sched n w)) = live w) /\
    (forall g, In (GEnv g) ops -> forall w, live (g w) = live w).
End Gather.
