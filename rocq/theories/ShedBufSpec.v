(** Specification vocabulary for C79: [LoadShed] over a handle of a [Buffer], over logs of what is observed (newest first). *)
From Verif Require Import Base Limits Buffer BufferSpec RoomSpec.
Set Implicit Arguments.

Section Vocabulary.
  Context {W Req Resp Err : Type} {svc : Service W Req Resp Err}.
  Notation bobs := (bobs svc).

  (** Every place is spoken for, apart from [h] itself: with however short a list [hs] of the handles that hold a slot and
      [ws] of the others that wait for one, these and the requests in the channel make [bound]. *)
  Definition full (bound h : nat) (l : list bobs) : Prop :=
    forall hs ws, (forall j, has_slot j l = true -> In j hs) -> (forall j, j <> h -> since j l <> None -> In j ws) ->
    bound <= length hs + waiting l + length ws.

  (** The first handle is the only one there ever was. *)
  Definition never_cloned (l : list bobs) : Prop := forall h h', ~ In (OCloned h h') l.
End Vocabulary.
