(** For C78: what holds of a [Buffer] at every moment, if its worker and its
    response futures use the wrapped service as its contract demands. *)
From Verif Require Import Base ContractSpec Limits Buffer.
Set Implicit Arguments.

Section Sound.
  Context {W Req Resp Err : Type} (cl : bool) (svc : Service W Req Resp Err) (s0 : st svc).

  (** The worker's hold on the service that was [s0] when the buffer was made; [cell]: the published error. *)
  Definition worker_sound (k : worker svc) (cell : option Err) : Prop :=
    match w_pc k with
    | WHung _ | WClose _ _ => True
    | WReady _ => w_failed k = None /\ cell = None /\ held cl svc s0 Primed (w_svc k)
    | WSend _ f => w_failed k = None /\ cell = None /\ held cl svc s0 Idle (w_svc k) /\ in_flight cl svc s0 f
    | WStore _ _ => cell = None
    | WTell _ => w_failed k <> None
    | WRest | WNext | WRecv | WCheck _ | WGot _ =>
        w_failed k = None -> cell = None /\ exists p, p <> Dead /\ held cl svc s0 p (w_svc k)
    end.

  Record sound (y : bsys svc) : Prop := {
    so_os : forall id f, o_val (y_os y id) = Some (Ok f) -> in_flight cl svc s0 f;
    so_fs : forall id b, y_fs y id = Some (b, false) ->
              match b with BPoll f => in_flight cl svc s0 f | BFailed e => e <> None | BRx => True end;
    so_wk : forall k, y_wk y = Some k -> worker_sound k (y_cell y) }.
End Sound.

(** ** Handles and futures of a program *)
Section Names.
  Context {W Req Resp Err : Type}.
  Notation bop := (@bop W Req).
  (** Does the move belong to handle [h]? to future [id]? *)
  Definition of_handle (h : nat) (o : bop) : bool :=
    match o with
    | BReady i | BCall i _ | BStep i _ | BClone i | BDrop i => i =? h
    | _ => false
    end.
  Definition of_future (id : nat) (o : bop) : bool :=
    match o with BPollF i _ | BDropF i => i =? id | _ => false end.
  (** What [h] itself does in a list of moves; nothing but going on with a function already entered. *)
  Definition own (h : nat) (ops : list bop) : list bop := List.filter (of_handle h) ops.
  Definition steps_only (h : nat) (l : list bop) : Prop := forall o, In o l -> exists c, o = BStep h c.

  Definition psend_eq (a b : psend) : {a = b} + {a <> b}.
  Proof. repeat decide equality. Defined.

  Context {svc : Service W Req Resp Err}.
  (** A handle outside: its number and its [PollSender]'s state. *)
  Definition bst : Type := nat * psend.
  (** It stands in the program [y], at rest, with this very state. *)
  Definition standing (s : bst) (y : bsys svc) : bool :=
    match y_hs y (fst s) with
    | Some (Hd p HRest) => if psend_eq p (snd s) then fst s <? y_hnext y else false
    | _ => false
    end.
  (** A future of the program, not completed. *)
  Definition awaited (id : nat) (y : bsys svc) : Prop := (exists b, y_fs y id = Some (b, false)) /\ id < y_fnext y.

  (** Nothing in a log says that a task or a future panicked; that one never returned. *)
  Definition no_panic (l : list (bobs svc)) : Prop := ~ In WPanic l /\ forall id, ~ In (OPollPanic id) l.
  Definition no_hang (l : list (bobs svc)) : Prop := ~ In WHang l /\ forall id, ~ In (OPollHang id) l.
End Names.
