(** Specification vocabulary for C73: waiting in line for a slot of a [Buffer], over logs of what is observed
    (newest first). *)
From Verif Require Import Base Limits Buffer BufferSpec.
Set Implicit Arguments.

Section Vocabulary.
  Context {W Req Resp Err : Type} {svc : Service W Req Resp Err}.
  Notation bobs := (bobs svc).

  (** Since when handle [h] has been waiting for a slot: it was told [Pending], and has been told nothing else, dropped
      or misused since.  The time is the number of events logged before. *)
  Fixpoint since (h : nat) (l : list bobs) : option nat :=
    match l with
    | [] => None
    | OReady h' Pending :: l' =>
        if h' =? h then match since h l' with Some n => Some n | None => Some (length l') end else since h l'
    | OReady h' (Ready _) :: l' | ODropped h' :: l' | OCallPanic h' _ :: l' => if h' =? h then None else since h l'
    | _ :: l' => since h l'
    end.

  (** Handle [h] has been passed by: while it was waiting, some [h'] that had no slot and had not been waiting longer
      was told that it has one; and [h] still waits. *)
  Definition passed_by (h : nat) (l : list bobs) : Prop :=
    exists h' l2 l1 n,
      l = l2 ++ OReady h' (Ready (Ok tt)) :: l1 /\ h' <> h /\ has_slot h' l1 = false /\
      since h l1 = Some n /\ since h l = Some n /\ (forall n', since h' l1 = Some n' -> n < n').

  (** No handle was misused; the wrapped service has not failed; the worker has not been destroyed. *)
  Definition intact (l : list bobs) : Prop :=
    (forall h r, ~ In (OCallPanic h r) l) /\ (forall e, ~ failed_with e l) /\ ~ In WGone l.

  (** tokio's cooperative budget never puts a [poll_ready] off. *)
  Definition never_put_off (ops : list (bop (W := W) (Req := Req))) : Prop := forall h, ~ In (BStep h true) ops.
End Vocabulary.
