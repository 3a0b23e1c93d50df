(** Specifications for C25, C26 (Reconnect) and C27 (Steer). *)
From Verif Require Import Base Middleware Track.
Set Implicit Arguments.

(** ** Steer *)
Section SteerSpec.
  Context {W Req Resp Err P : Type} (svc : Service W Req Resp Err).
  Context (pick : P -> Req -> list (st svc) -> M W (P * nat)) (pclone : P -> M W P).

  (** Events at the services (numbered by position) and runs of the picker. *)
  Inductive stev :=
  | SIn (e : tev Req Resp Err)
  | SPick (p p1 : P) (r : Req) (idx : nat).

  Definition tsteer : Service (W * tk stev) Req Resp Err :=
    steer (tracked (L := stev) SIn svc)
      (fun p r l => '(p1, idx) <- tk_lift (pick p r (map snd l)) ;; tk_emit (SPick p p1 r idx) ;;; ret (p1, idx))
      (fun p => tk_lift (pclone p)).
  (** The initial value: service number [k] at position [k]. *)
  Fixpoint numbered (k : nat) (l : list (st svc)) : list (nat * st svc) :=
    match l with [] => [] | s :: l' => (k, s) :: numbered (S k) l' end.

  (** Has service [k] said it is ready and not been called since?  (newest event first) *)
  Fixpoint ready_now (k : nat) (l : list stev) : bool :=
    match l with
    | [] => false
    | SIn (TReady i a) :: l' =>
        if i =? k then match a with Ready (Ok _) => true | _ => false end else ready_now k l'
    | SIn (TCall i _ _) :: l' => if i =? k then false else ready_now k l'
    | _ :: l' => ready_now k l'
    end.

  Definition steer_entry (n : nat) (x : (W * tk stev) * sobs tsteer * (W * tk stev)) : Prop :=
    match x with
    | (w, o, w1) =>
        match o with
        (* Ready: every one of the services has said so since it was last called *)
        | ObsReady (Ready (Ok _)) => forall k, k < n -> ready_now k (log_of w1) = true
        (* Pending / error: exactly what one of the services has just said *)
        | ObsReady Pending => exists k l, k < n /\ log_of w1 = SIn (TReady k Pending) :: l
        | ObsReady (Ready (Er e)) => exists k l, k < n /\ log_of w1 = SIn (TReady k (Ready (Er e))) :: l
        (* a call: the picker is run once, the service it picked is called once with the request *)
        | ObsCall r f =>
            exists p p1 k, k < n /\
              log_of w1 = SIn (TCall k r (fst f)) :: SPick p p1 r k :: log_of w /\
              ready_now k (log_of w) = true
        | ObsSkip => w1 = w
        | ObsPanic | ObsDiverge => True
        end
    end.
  (** A service is asked only if it is not ready. *)
  Fixpoint no_needless_poll (l : list stev) : Prop :=
    match l with
    | [] => True
    | SIn (TReady k _) :: l' => ready_now k l' = false /\ no_needless_poll l'
    | _ :: l' => no_needless_poll l'
    end.
End SteerSpec.
Arguments SIn {Req Resp Err P} e.
Arguments SPick {Req Resp Err P} p p1 r idx.

(** ** Reconnect *)
Section ReconnectSpec.
  Context {W Tgt Req Resp Err MErr : Type}.
  Context (svc : Service W Req Resp Err) (mk : Service W Tgt (st svc) MErr) (target : Tgt).

  (** Events at the maker (a connection it yields gets a fresh number, which is
      what the event shows) and at the connections. *)
  Inductive cev :=
  | CMk (e : tev Tgt nat MErr)
  | CIn (e : tev Req Resp Err).

  Definition tmk : Service (W * tk cev) Tgt (nat * st svc) MErr :=
    MkService (W := W * tk cev) (st mk) (nat * fut mk)
      (fun s => '(s1, a) <- tk_lift (poll_ready mk s) ;;
                tk_emit (L := cev) (CMk (TReady 0 a)) ;;; ret (s1, a))
      (fun s r => '(s1, f) <- tk_lift (call mk s r) ;;
                  j <- tk_fresh ;;
                  tk_emit (L := cev) (CMk (TCall 0 r j)) ;;; ret (s1, (j, f)))
      (fun f => '(f1, a) <- tk_lift (poll_fut mk (snd f)) ;;
                match a with
                | Pending => tk_emit (L := cev) (CMk (TPoll (fst f) Pending)) ;;; ret ((fst f, f1), Pending)
                | Ready (Ok s) =>
                    c <- tk_fresh ;;
                    tk_emit (L := cev) (CMk (TPoll (fst f) (Ready (Ok c)))) ;;;
                    ret ((fst f, f1), Ready (Ok (c, s)))
                | Ready (Er e) =>
                    tk_emit (L := cev) (CMk (TPoll (fst f) (Ready (Er e)))) ;;;
                    ret ((fst f, f1), Ready (Er e))
                end)
      (fun s => tk_lift (clone mk s))
      (fun s x => (drop_svc mk s (fst x), snd x))
      (fun f x => (drop_fut mk (snd f) (fst x),
                   Tk (tk_next (snd x)) (CMk (TDropFut (fst f)) :: tk_log (snd x)))).

  Definition treconnect (fuel : nat) : Service (W * tk cev) Req Resp (Err + MErr) :=
    reconnect (tracked (L := cev) CIn svc) tmk target fuel.

  Inductive cphase :=
  | CIdle | CMkReady | CConnecting (j : nat) | CMade (j c : nat) | CFailed (j : nat) (e : MErr)
  | CUp (c : nat) | CBroken (c : nat).

  (** Connection life cycle.  Second component: a connection error not yet
      handed out. *)
  Inductive cstep : cphase * option MErr -> cev -> cphase * option MErr -> Prop :=
  | c_mk_pending e : cstep (CIdle, e) (CMk (TReady 0 Pending)) (CIdle, e)
  | c_mk_error e x : cstep (CIdle, e) (CMk (TReady 0 (Ready (Er x)))) (CIdle, e)
  | c_mk_ready e : cstep (CIdle, e) (CMk (TReady 0 (Ready (Ok tt)))) (CMkReady, e)
  | c_mk_call e j : cstep (CMkReady, e) (CMk (TCall 0 target j)) (CConnecting j, e)
  | c_wait e j : cstep (CConnecting j, e) (CMk (TPoll j Pending)) (CConnecting j, e)
  | c_made e j c : cstep (CConnecting j, e) (CMk (TPoll j (Ready (Ok c)))) (CMade j c, e)
  | c_failed e j x : cstep (CConnecting j, e) (CMk (TPoll j (Ready (Er x)))) (CFailed j x, e)
  | c_up e j c : cstep (CMade j c, e) (CMk (TDropFut j)) (CUp c, e)
  | c_down e j x : cstep (CFailed j x, e) (CMk (TDropFut j)) (CIdle, Some x)
  | c_unready e c : cstep (CUp c, e) (CIn (TReady c Pending)) (CUp c, e)
  | c_ready e c : cstep (CUp c, e) (CIn (TReady c (Ready (Ok tt)))) (CUp c, e)
  | c_broken e c x : cstep (CUp c, e) (CIn (TReady c (Ready (Er x)))) (CBroken c, e)
  | c_dropped e c : cstep (CBroken c, e) (CIn (TDropSvc c)) (CIdle, e).
  Inductive csteps : cphase * option MErr -> list cev -> cphase * option MErr -> Prop :=
  | csteps_nil a : csteps a [] a
  | csteps_cons a e b l c : cstep a e b -> csteps b l c -> csteps a (e :: l) c.

  Definition c_pending (e : cev) : Prop :=
    match e with
    | CMk (TReady _ Pending) | CMk (TPoll _ Pending) | CIn (TReady _ Pending) => True
    | _ => False
    end.

  (** One operation of the owner. [a]: situation before, [b] after; [l]: what happened
      at the maker and the connections, oldest first. *)
  Definition rc_op fuel (o : sobs (treconnect fuel)) (a b : cphase * option MErr) (l : list cev) : Prop :=
    match o with
    | ObsReady Pending => csteps a l b /\ exists l0 e, l = l0 ++ [e] /\ c_pending e
    | ObsReady (Ready (Ok _)) =>
        csteps a l b /\
        ((* a live connection has just said it is ready *)
         (exists c l0, fst b = CUp c /\ l = l0 ++ [CIn (TReady c (Ready (Ok tt)))]) \/
         (* or the attempt to connect has just failed *)
         (exists j x l0, b = (CIdle, Some x) /\ l = l0 ++ [CMk (TPoll j (Ready (Er x))); CMk (TDropFut j)]))
    | ObsReady (Ready (Er (inr x))) => csteps a l b /\ exists l0, l = l0 ++ [CMk (TReady 0 (Ready (Er x)))]
    | ObsReady (Ready (Er (inl _))) => False
    (* a connection error waiting: handed out, and nothing else is touched *)
    | ObsCall r (inr (Some x)) => snd a = Some x /\ l = [] /\ b = (fst a, None)
    | ObsCall r (inr None) => False
    (* otherwise the request goes to the live connection *)
    | ObsCall r (inl f) => exists c, a = (CUp c, None) /\ l = [CIn (TCall c r (fst f))] /\ b = a
    | ObsSkip => l = [] /\ b = a
    | ObsPanic | ObsDiverge => csteps a l b
    end.
  Fixpoint rc_history fuel (a : cphase * option MErr)
    (h : list ((W * tk cev) * sobs (treconnect fuel) * (W * tk cev))) : Prop :=
    match h with
    | [] => True
    | (w, o, w1) :: h' =>
        exists l b, log_of w1 = rev l ++ log_of w /\ rc_op o a b l /\ rc_history b h'
    end.

  (** Connection errors handed out in a history, oldest first; failed attempts
      among the events, oldest first. *)
  Fixpoint delivered fuel (h : list ((W * tk cev) * sobs (treconnect fuel) * (W * tk cev))) : list MErr :=
    match h with
    | [] => []
    | (_, ObsCall _ (inr (Some x)), _) :: h' => x :: delivered h'
    | _ :: h' => delivered h'
    end.
  Fixpoint failures (l : list cev) : list MErr :=
    match l with
    | [] => []
    | CMk (TPoll _ (Ready (Er x))) :: l' => x :: failures l'
    | _ :: l' => failures l'
    end.
  (** The log at the end of a history that began in [w]. *)
  Fixpoint final_log fuel (w : W * tk cev) (h : list ((W * tk cev) * sobs (treconnect fuel) * (W * tk cev))) : list cev :=
    match h with
    | [] => log_of w
    | (_, _, w1) :: h' => final_log w1 h'
    end.

  (** The newest failed attempt in a log (newest event first), if there is one; what an operation added to the log. *)
  Fixpoint newest_failure (l : list cev) : option MErr :=
    match l with
    | [] => None
    | CMk (TPoll _ (Ready (Er x))) :: _ => Some x
    | _ :: l' => newest_failure l'
    end.
  Definition news (w w1 : W * tk cev) : list cev := firstn (length (log_of w1) - length (log_of w)) (log_of w1).
  (** The newest failed attempt since the last call. *)
  Definition undelivered fuel (h : list ((W * tk cev) * sobs (treconnect fuel) * (W * tk cev))) : option MErr :=
    fold_left (fun p x => match x with
                          | (_, ObsCall _ _, _) => None
                          | (w, _, w1) => match newest_failure (news w w1) with Some e => Some e | None => p end
                          end) h None.
End ReconnectSpec.

(** [sublist a b]: [a] is [b] with some elements left out. *)
Inductive sublist {A} : list A -> list A -> Prop :=
| sub_nil : sublist [] []
| sub_skip a b x : sublist a b -> sublist a (x :: b)
| sub_keep a b x : sublist a b -> sublist (x :: a) (x :: b).

Arguments CMk {Tgt Req Resp Err MErr} e.
Arguments CIn {Tgt Req Resp Err MErr} e.
Arguments CIdle {MErr}.
Arguments CMkReady {MErr}.
Arguments CConnecting {MErr} j.
Arguments CMade {MErr} j c.
Arguments CUp {MErr} c.
Arguments CBroken {MErr} c.
