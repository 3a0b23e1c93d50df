(** A recording wrapper that also gives every instance and every future of the
    wrapped service an identity, so that specifications can say *which* instance
    was used.  Part of the specification vocabulary. *)
From Verif Require Import Base.
Set Implicit Arguments.

Inductive tev (Req Resp Err : Type) : Type :=
| TReady (i : nat) (a : poll (result unit Err))   (* poll_ready of instance [i] answered [a] *)
| TCall (i : nat) (r : Req) (j : nat)             (* instance [i] was called, future [j] *)
| TPoll (j : nat) (a : poll (result Resp Err))    (* future [j] was polled, answer [a] *)
| TClone (i i' : nat)                             (* instance [i] was cloned, the clone is [i'] *)
| TDropSvc (i : nat)
| TDropFut (j : nat).
Arguments TReady {Req Resp Err} i a.
Arguments TCall {Req Resp Err} i r j.
Arguments TPoll {Req Resp Err} j a.
Arguments TClone {Req Resp Err} i i'.
Arguments TDropSvc {Req Resp Err} i.
Arguments TDropFut {Req Resp Err} j.

(** Next free identity, and the log, newest event first. *)
Record tk (L : Type) := Tk { tk_next : nat; tk_log : list L }.
Arguments Tk {L} tk_next tk_log.

Section Track.
  Context {W L : Type}.
  Definition tk_lift {A} (m : M W A) : M (W * tk L) A :=
    fun x => match m (fst x) with (w1, o) => ((w1, snd x), o) end.
  Definition tk_emit (e : L) : M (W * tk L) unit :=
    fun x => ((fst x, Tk (tk_next (snd x)) (e :: tk_log (snd x))), Val tt).
  Definition tk_fresh : M (W * tk L) nat :=
    fun x => ((fst x, Tk (S (tk_next (snd x))) (tk_log (snd x))), Val (tk_next (snd x))).
  (** A change of the base world only. *)
  Definition tk_env (g : W -> W) : W * tk L -> W * tk L := fun x => (g (fst x), snd x).
  Definition log_of (x : W * tk L) : list L := tk_log (snd x).

  Definition tracked {Req Resp Err} (inj : tev Req Resp Err -> L)
    (svc : Service W Req Resp Err) : Service (W * tk L) Req Resp Err :=
    MkService (nat * st svc) (nat * fut svc)
      (fun s => '(s1, a) <- tk_lift (poll_ready svc (snd s)) ;;
                tk_emit (inj (TReady (fst s) a)) ;;; ret ((fst s, s1), a))
      (fun s r => '(s1, f) <- tk_lift (call svc (snd s) r) ;;
                  j <- tk_fresh ;;
                  tk_emit (inj (TCall (fst s) r j)) ;;; ret ((fst s, s1), (j, f)))
      (fun f => '(f1, a) <- tk_lift (poll_fut svc (snd f)) ;;
                tk_emit (inj (TPoll (fst f) a)) ;;; ret ((fst f, f1), a))
      (fun s => s1 <- tk_lift (clone svc (snd s)) ;;
                i <- tk_fresh ;;
                tk_emit (inj (TClone (fst s) i)) ;;; ret (i, s1))
      (fun s x => (drop_svc svc (snd s) (fst x),
                   Tk (tk_next (snd x)) (inj (TDropSvc (fst s)) :: tk_log (snd x))))
      (fun f x => (drop_fut svc (snd f) (fst x),
                   Tk (tk_next (snd x)) (inj (TDropFut (fst f)) :: tk_log (snd x)))).
End Track.

(** The same for a history: environment changes that do not touch the log. *)
Definition tk_ops {W L Req} (ops : list ((W -> W) * @sop Req)) : list ((W * tk L -> W * tk L) * @sop Req) :=
  map (fun o => (tk_env (fst o), snd o)) ops.
