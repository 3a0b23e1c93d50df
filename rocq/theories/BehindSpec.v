(** Specification for C71: a service behind a [Buffer]. *)
From Verif Require Import Base Limits Buffer.
Set Implicit Arguments.

Section Behind.
  Context {W Req Resp Err : Type} (svc : Service W Req Resp Err).

  (** What the log (newest first) says was done with the wrapped service, newest first. *)
  Fixpoint inner_uses (l : list (bobs svc)) : list (sobs svc) :=
    match l with
    | [] => []
    | WAsk a :: l' => ObsReady a :: inner_uses l'
    | WCall _ r f :: l' => ObsCall r f :: inner_uses l'
    | _ :: l' => inner_uses l'
    end.

  (** What happens to the world other than through the wrapped service itself: the moves [BEnv] of the
      program, its response futures being polled and dropped, and sequences of these. *)
  Inductive outside (ops : list (bop (W := W) (Req := Req))) : (W -> W) -> Prop :=
  | out_none : outside ops (fun w => w)
  | out_env g : In (BEnv g) ops -> outside ops g
  | out_poll f : outside ops (fun w => fst (poll_fut svc f w))
  | out_drop f : outside ops (drop_fut svc f)
  | out_then g h : outside ops g -> outside ops h -> outside ops (fun w => h (g w)).
End Behind.

(** A service that notes down the time of every call it receives, newest first. *)
Section Noting.
  Context {W : Type} (rt : Rt W).
  Definition note_rt : Rt (W * list Z) :=
    MkRt (fun x => now rt (fst x)) (fun x d => fired rt (fst x) d) (fun d x => (nap rt d (fst x), snd x))
         (fun x d H => fired_sound rt (fst x) d H)
         (fun x d => now_nap rt (fst x) d) (fun x d d' => fired_nap rt (fst x) d d').
  Definition noting {Req Resp Err} (svc : Service W Req Resp Err) : Service (W * list Z) Req Resp Err :=
    MkService (W := W * list Z) (st svc) (fut svc)
      (fun s => lift_log (poll_ready svc s))
      (fun s r x => let '(w1, o) := call svc s r (fst x) in ((w1, now rt (fst x) :: snd x), o))
      (fun f => lift_log (poll_fut svc f))
      (fun s => lift_log (clone svc s))
      (fun s x => (drop_svc svc s (fst x), snd x))
      (fun f x => (drop_fut svc f (fst x), snd x)).
  (** The clock never runs backwards, whatever is done with the service; and the rest of the program does not turn it
      back nor touch the notes. *)
  Definition time_goes_on {Req Resp Err} (svc : Service W Req Resp Err) : Prop :=
    (forall s w, now rt w <= now rt (fst (poll_ready svc s w)))%Z /\
    (forall s r w, now rt w <= now rt (fst (call svc s r w)))%Z /\
    (forall f w, now rt w <= now rt (fst (poll_fut svc f w)))%Z /\
    (forall f w, now rt w <= now rt (drop_fut svc f w))%Z.
  Definition env_goes_on {Req} (ops : list (bop (W := W * list Z) (Req := Req))) : Prop :=
    forall g, In (BEnv g) ops -> forall x, (now rt (fst x) <= now rt (fst (g x)))%Z /\ snd (g x) = snd x.
End Noting.
