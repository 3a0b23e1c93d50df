(** Specification vocabulary for [Buffer] (C40-C45), over logs of what is
    observed ([bobs], newest first). *)
From Verif Require Import Base Limits Buffer.
Set Implicit Arguments.

(** [sublist l m]: [l] is [m] with some elements left out. *)
Inductive sublist {A} : list A -> list A -> Prop :=
| sub_nil : sublist [] []
| sub_skip x l m : sublist l m -> sublist l (x :: m)
| sub_keep x l m : sublist l m -> sublist (x :: l) (x :: m).

Section Vocabulary.
  Context {W Req Resp Err : Type} {svc : Service W Req Resp Err}.
  Notation bobs := (bobs svc).

  (** Requests accepted / passed to the wrapped service, newest first. *)
  Fixpoint sent (l : list bobs) : list (nat * Req) :=
    match l with
    | [] => []
    | OSent _ id r :: l' => (id, r) :: sent l'
    | _ :: l' => sent l'
    end.
  Fixpoint called (l : list bobs) : list (nat * Req) :=
    match l with
    | [] => []
    | WCall id r _ :: l' => (id, r) :: called l'
    | _ :: l' => called l'
    end.

  (** The requests the worker has taken out of the channel, newest first. *)
  Fixpoint taken (l : list bobs) : list nat :=
    match l with
    | [] => []
    | WTook id :: l' => id :: taken l'
    | _ :: l' => taken l'
    end.

  (** How many requests are in the channel: accepted and not taken out.  When
      the worker is destroyed they are gone. *)
  Fixpoint waiting (l : list bobs) : nat :=
    match l with
    | [] => 0
    | OSent _ _ _ :: l' => S (waiting l')
    | WTook _ :: l' => waiting l' - 1
    | WGone :: l' => 0
    | _ :: l' => waiting l'
    end.

  (** Has handle [h] a slot reserved: told to be ready, not used or dropped since. *)
  Fixpoint has_slot (h : nat) (l : list bobs) : bool :=
    match l with
    | [] => false
    | OReady h' (Ready (Ok _)) :: l' => (h' =? h) || has_slot h l'
    | OSent h' _ _ :: l' | ODropped h' :: l' => negb (h' =? h) && has_slot h l'
    | _ :: l' => has_slot h l'
    end.

  (** The last poll of the inner future by response future [id]. *)
  Fixpoint last_inner (id : nat) (l : list bobs) : option (poll (result Resp Err) * fut svc) :=
    match l with
    | [] => None
    | OInner id' _ a f :: l' => if id' =? id then Some (a, f) else last_inner id l'
    | _ :: l' => last_inner id l'
    end.

  (** The wrapped service has failed, with [e]. *)
  Definition failed_with (e : Err) (l : list bobs) : Prop := In (WAsk (Ready (Er e))) l.

  (** The requests accepted before the worker was destroyed. *)
  Fixpoint sent_before_gone (l : list bobs) : list nat :=
    match l with
    | [] => []
    | WGone :: l' => map fst (sent l')
    | _ :: l' => sent_before_gone l'
    end.

  (** What became of request [r], number [id]: found abandoned, passed to the
      wrapped service, or answered with the error of the failed service. *)
  Definition served (id : nat) (r : Req) (l : list bobs) : Prop :=
    In (WSkip id) l \/ (exists f, In (WCall id r f) l) \/ (exists e, In (WAnswer id (Er e)) l).

  (** Every event of the log, given what was logged before it. *)
  Fixpoint hist (P : list bobs -> bobs -> Prop) (l : list bobs) : Prop :=
    match l with [] => True | e :: l' => P l' e /\ hist P l' end.

  (** Is it the worker's doing? *)
  Definition by_worker (e : bobs) : bool :=
    match e with
    | WStart | WTook _ | WSkip _ | WLive _ | WAsk _ | WCall _ _ _ | WAnswer _ _ | WPend | WDone | WPanic | WHang | WGone => true
    | _ => false
    end.

  (** Where the error [x] given to the owner of handle [h] comes from: the wrapped
      service failed with it; or [Closed]: the worker was destroyed without the
      service having failed, or this very handle was misused before. *)
  Definition error_from (h : nat) (l : list bobs) (x : berr) : Prop :=
    match x with
    | BSvc e => failed_with e l
    | BClosed => (In WGone l /\ forall e, ~ failed_with e l) \/ exists r, In (OCallPanic h r) l
    | BInner _ => False
    end.

  (** Where the answer of response future [id] comes from: see C40 and C42.  The
      inner future is first the one its own request's call returned, then the one
      its last poll left; and it is polled only while pending. *)
  Definition answer_from (id : nat) (l : list bobs) (e : bobs) : Prop :=
    match e with
    | OInner _ f _ _ =>
        match last_inner id l with
        | None => exists r, In (WCall id r f) l
        | Some (a, f0) => a = Pending /\ f = f0
        end
    | OPolled _ Pending => True
    | OPolled _ (Ready (Ok x)) => exists f f1 l', l = OInner id f (Ready (Ok x)) f1 :: l'
    | OPolled _ (Ready (Er (BInner e))) => exists f f1 l', l = OInner id f (Ready (Er e)) f1 :: l'
    | OPolled _ (Ready (Er (BSvc e))) => failed_with e l
    | OPolled _ (Ready (Er BClosed)) => In WGone l \/ exists h r, In (ORefused h id r BClosed) l
    | _ => True
    end.

  (** Is the wrapped service used? *)
  Definition uses_inner (e : bobs) : bool := match e with WAsk _ | WCall _ _ _ => true | _ => false end.

  (** Handles that exist: number 0 and the clones, less those dropped. *)
  Fixpoint alive (h : nat) (l : list bobs) : bool :=
    match l with
    | [] => h =? 0
    | OCloned _ h' :: l' => (h' =? h) || alive h l'
    | ODropped h' :: l' => negb (h' =? h) && alive h l'
    | _ :: l' => alive h l'
    end.
End Vocabulary.
