(** Specification of tower-test's Mock (C56): histories of a Mock, its clones, its Handle and all the futures. *)
From Verif Require Import Base Middleware Mock.
Set Implicit Arguments.

(** What can happen, in any order (so: any number of threads).  Mocks are numbered in the order they were made (0: the
    one from [pair]), futures in the order of the calls, replies ([SendResponse]s) in the order they were received.
    [t] is the polling task. *)
Inductive mop (T U E : Type) :=
| MReady (i t : nat) | MCall (i : nat) (r : T) | MClone (i : nat) | MDrop (i : nat) (unwinding : bool)
| MPoll (j t : nat) | MDropFut (j : nat)
| MAllow (n : N) | MSendError (e : E) | MRequest
| MReply (k : nat) (x : result U (@merr E)) | MDropReply (k : nat)
| MDropHandle (unwinding : bool)      (* Handle::drop *)
| MDropRx.                            (* then, its receiver *)
Arguments MReady {T U E} i t.
Arguments MCall {T U E} i r.
Arguments MClone {T U E} i.
Arguments MDrop {T U E} i unwinding.
Arguments MPoll {T U E} j t.
Arguments MDropFut {T U E} j.
Arguments MAllow {T U E} n.
Arguments MSendError {T U E} e.
Arguments MRequest {T U E}.
Arguments MReply {T U E} k x.
Arguments MDropReply {T U E} k.
Arguments MDropHandle {T U E} unwinding.
Arguments MDropRx {T U E}.
Inductive mobs (T U E : Type) :=
| MoReady (a : poll (result unit (@merr E)))
| MoCalled
| MoPolled (a : poll (result U (@merr E)))
| MoRequest (a : poll (option T))
| MoDone
| MoNone                              (* no such object (any more) *)
| MoPanic.
Arguments MoReady {T U E} a.
Arguments MoCalled {T U E}.
Arguments MoPolled {T U E} a.
Arguments MoRequest {T U E} a.
Arguments MoDone {T U E}.
Arguments MoNone {T U E}.
Arguments MoPanic {T U E}.

Section Spec.
  Context {T U E : Type}.
  Notation merr := (@merr E).
  Notation mop := (mop T U E).
  Notation mobs := (mobs T U E).
  Notation mworld := (@mworld T U E).

  (** ** The system built from the model. *)
  Inductive hphase := HOpen | HClosing | HGone.
  Record msys := MSys {
    y_mocks : list (option mock); y_futs : list (option resp_fut); y_replies : list (option nat);
    y_handle : hphase; y_w : mworld }.
  Definition msys0 : msys := MSys [Some (fst (@pair T U E))] [] [] HOpen (snd pair).
  Definition y_set (w : mworld) (y : msys) : msys := MSys (y_mocks y) (y_futs y) (y_replies y) (y_handle y) w.

  Definition mstep (o : mop) (y : msys) : msys * mobs :=
    match o with
    | MReady i t =>
        match nth_error (y_mocks y) i with
        | Some (Some m) =>
            match mock_poll_ready m (set_current t (y_w y)) with
            | (w1, Val (m1, a)) => (MSys (set_nth i (Some m1) (y_mocks y)) (y_futs y) (y_replies y) (y_handle y) w1, MoReady a)
            | (w1, _) => (y_set w1 y, MoPanic)
            end
        | _ => (y, MoNone)
        end
    | MCall i r =>
        match nth_error (y_mocks y) i with
        | Some (Some m) =>
            match mock_call m r (y_w y) with
            | (w1, Val (m1, f)) => (MSys (set_nth i (Some m1) (y_mocks y)) (y_futs y ++ [Some f]) (y_replies y) (y_handle y) w1, MoCalled)
            | (w1, _) => (y_set w1 y, MoPanic)
            end
        | _ => (y, MoNone)
        end
    | MClone i =>
        match nth_error (y_mocks y) i with
        | Some (Some m) =>
            match mock_clone m (y_w y) with
            | (w1, Val m1) => (MSys (y_mocks y ++ [Some m1]) (y_futs y) (y_replies y) (y_handle y) w1, MoDone)
            | (w1, _) => (y_set w1 y, MoPanic)
            end
        | _ => (y, MoNone)
        end
    | MDrop i u =>
        match nth_error (y_mocks y) i with
        | Some (Some m) =>
            let '(w1, v) := mock_drop m u (y_w y) in
            (MSys (set_nth i None (y_mocks y)) (y_futs y) (y_replies y) (y_handle y) w1, match v with Val _ => MoDone | _ => MoPanic end)
        | _ => (y, MoNone)
        end
    | MPoll j t =>
        match nth_error (y_futs y) j with
        | Some (Some f) =>
            match resp_poll f (set_current t (y_w y)) with
            | (w1, Val (f1, a)) => (MSys (y_mocks y) (set_nth j (Some f1) (y_futs y)) (y_replies y) (y_handle y) w1, MoPolled a)
            | (w1, _) => (y_set w1 y, MoPanic)
            end
        | _ => (y, MoNone)
        end
    | MDropFut j =>
        match nth_error (y_futs y) j with
        | Some (Some f) => (MSys (y_mocks y) (set_nth j None (y_futs y)) (y_replies y) (y_handle y) (resp_drop f (y_w y)), MoDone)
        | _ => (y, MoNone)
        end
    | MAllow n =>
        match y_handle y with
        | HOpen => let '(w1, v) := handle_allow n (y_w y) in (y_set w1 y, match v with Val _ => MoDone | _ => MoPanic end)
        | _ => (y, MoNone)
        end
    | MSendError e =>
        match y_handle y with
        | HOpen => let '(w1, v) := handle_send_error e (y_w y) in (y_set w1 y, match v with Val _ => MoDone | _ => MoPanic end)
        | _ => (y, MoNone)
        end
    | MRequest =>
        match y_handle y with
        | HOpen =>
            match handle_poll_request (y_w y) with
            | (w1, Val (Ready (Some (r, j)))) =>
                (MSys (y_mocks y) (y_futs y) (y_replies y ++ [Some j]) (y_handle y) w1, MoRequest (Ready (Some r)))
            | (w1, Val (Ready None)) => (y_set w1 y, MoRequest (Ready None))
            | (w1, Val Pending) => (y_set w1 y, MoRequest Pending)
            | (w1, _) => (y_set w1 y, MoPanic)
            end
        | _ => (y, MoNone)
        end
    | MReply k x =>
        match nth_error (y_replies y) k with
        | Some (Some j) => (MSys (y_mocks y) (y_futs y) (set_nth k None (y_replies y)) (y_handle y) (send_response j x (y_w y)), MoDone)
        | _ => (y, MoNone)
        end
    | MDropReply k =>
        match nth_error (y_replies y) k with
        | Some (Some j) => (MSys (y_mocks y) (y_futs y) (set_nth k None (y_replies y)) (y_handle y) (drop_send_response j (y_w y)), MoDone)
        | _ => (y, MoNone)
        end
    | MDropHandle u =>
        match y_handle y with
        | HOpen =>
            let '(w1, v) := handle_drop u (y_w y) in
            (MSys (y_mocks y) (y_futs y) (y_replies y) HClosing w1, match v with Val true => MoDone | Val false => MoNone | _ => MoPanic end)
        | _ => (y, MoNone)
        end
    | MDropRx =>
        match y_handle y with
        | HClosing => (MSys (y_mocks y) (y_futs y) (y_replies y) HGone (drop_rx (y_w y)), MoDone)
        | _ => (y, MoNone)
        end
    end.
  (** A history: what was done, what was observed, and which tasks were woken by it. *)
  Definition mentry := (mop * mobs * list nat)%type.
  Fixpoint mrun (y : msys) (l : list mop) : list mentry :=
    match l with
    | [] => []
    | o :: l' =>
        let '(y1, b) := mstep o y in
        (o, b, skipn (length (woken (y_w y))) (woken (y_w y1))) :: mrun y1 l'
    end.
  Definition mhistory (l : list mop) : list mentry := mrun msys0 l.

  (** ** What a history tells. *)
  (** The handle has been dropped. *)
  Definition closed (h : list mentry) : bool :=
    existsb (fun e => match fst e with (MDropHandle _, MoDone) => true | _ => false end) h.
  (** The requests accepted: by the calls made while there was a handle. *)
  Fixpoint accepted (h : list mentry) : list T :=
    match h with
    | [] => []
    | (MCall _ r, MoCalled, _) :: h' => r :: accepted h'
    | (MDropHandle _, MoDone, _) :: _ => []
    | _ :: h' => accepted h'
    end.
  (** What the handle has received. *)
  Definition received (h : list mentry) : list T :=
    flat_map (fun e => match fst e with (MRequest, MoRequest (Ready (Some r))) => [r] | _ => [] end) h.
  (** How many more requests the handle allows: what it last said, less one for every call since. *)
  Definition remaining (h : list mentry) : N :=
    fold_left (fun n e => match fst e with
                          | (MAllow m, MoDone) => m
                          | (MCall _ _, MoCalled) => N.pred n
                          | _ => n
                          end) h u64_max.
  (** The error to be handed out, if any: to the first poll after it was sent. *)
  Definition waiting_error (h : list mentry) : option E :=
    fold_left (fun x e => match fst e with
                          | (MSendError e, MoDone) => Some e
                          | (MReady _ _, MoReady (Ready (Er (MUser _)))) => None
                          | _ => x
                          end) h None.
  (** Mock [i] has said ready and has not been called since. *)
  Definition permitted (h : list mentry) (i : nat) : bool :=
    fold_left (fun b e => match fst e with
                          | (MReady i' _, MoReady (Ready (Ok _))) => if i' =? i then true else b
                          | (MCall i' _, MoCalled) => if i' =? i then false else b
                          | _ => b
                          end) h false.
  Definition clones (h : list mentry) : nat :=
    length (List.filter (fun e => match fst e with (MClone _, MoDone) => true | _ => false end) h).

  (** How many mocks there are: the one from [pair] and its clones, without those that were dropped. *)
  Definition drops (h : list mentry) : nat :=
    length (List.filter (fun e => match fst e with (MDrop _ _, MoNone) => false | (MDrop _ _, _) => true | _ => false end) h).
  Definition mocks_left (h : list mentry) : nat := 1 + clones h - drops h.

  (** ** The answer that mock [i] should give to [poll_ready]. *)
  Definition ready_answer (h : list mentry) (i : nat) : poll (result unit merr) :=
    if closed h then Ready (Er MClosed)
    else match waiting_error h with
         | Some e => Ready (Er (MUser e))
         | None => if permitted h i || (0 <? remaining h)%N then Ready (Ok tt) else Pending
         end.
  (** The answer that future [j] should give. *)
  Definition reply (h : list mentry) (k : nat) : option (result U merr) :=
    fold_left (fun a e => match fst e with
                          | (MReply k' x, MoDone) => if k' =? k then Some x else a
                          | _ => a
                          end) h None.
  Definition reply_dropped (h : list mentry) (k : nat) : bool :=
    existsb (fun e => match fst e with (MDropReply k', MoDone) => k' =? k | _ => false end) h.
  Definition rx_dropped (h : list mentry) : bool :=
    existsb (fun e => match fst e with (MDropRx, MoDone) => true | _ => false end) h.
  Definition response (h : list mentry) (j : nat) : poll (result U merr) :=
    if j <? length (accepted h) then
      match reply h j with
      | Some x => Ready x
      | None =>
          if reply_dropped h j || (rx_dropped h && (length (received h) <=? j)) then Ready (Er MClosed)
          else Pending
      end
    else Ready (Er MClosed).
  (** Future [j] has answered. *)
  Definition answered (h : list mentry) (j : nat) : bool :=
    existsb (fun e => match fst e with (MPoll j' _, MoPolled (Ready _)) => j' =? j | _ => false end) h.
  Definition wakes (h : list mentry) : list nat := flat_map snd h.
  (** ** Side conditions *)
  (** A call that should not have been made: there is a handle, and the mock has not said ready (since its last call). *)
  Definition misuse (h : list mentry) : Prop :=
    exists g1 i r d g2, h = g1 ++ (MCall i r, MoPanic, d) :: g2 /\ closed g1 = false /\ permitted g1 i = false.
  (** [allow] is not called. *)
  Definition no_allow (h : list mentry) : Prop := forall n b d, ~ In (MAllow n, b, d) h.
  (** Mock [i] is neither polled nor dropped; future [j] is neither polled nor dropped. *)
  Definition leaves_mock (i : nat) (h : list mentry) : Prop := forall t b d, ~ In (MReady i t, b, d) h /\ forall u, ~ In (MDrop i u, b, d) h.
  Definition leaves_fut (j : nat) (h : list mentry) : Prop := forall b d, (forall t, ~ In (MPoll j t, b, d) h) /\ ~ In (MDropFut j, b, d) h.
End Spec.
