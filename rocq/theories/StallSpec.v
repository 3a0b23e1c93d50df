(** Specification for C75: a [Buffer] together with the wakers of its worker, its handles and its response futures.

    What is assumed of tokio: a channel, semaphore or oneshot that answered [Pending] keeps the waker, and fires it when
    what was waited for happens; if the answer was [Pending] only because tokio's cooperative budget was used up, the
    task is woken at once.  (tokio fires the worker's waker in one more case, see [AWake].)  The wrapped service and its response futures keep wakers too, and fire them when they like. *)
From Verif Require Import Base Limits Buffer BufferSpec BufferTop RoomSpec.
Set Implicit Arguments.

Section Stall.
  Context {W Req Resp Err : Type} (svc : Service W Req Resp Err).
  Notation bsys := (bsys svc).
  Notation bobs := (bobs svc).
  Notation bop := (bop (W := W) (Req := Req)).

  (** [k_worker], [k_handle], [k_fut]: the task has been woken since it last began to poll.  [k_rx]: the channel has the
      worker's waker; [k_svc]: the wrapped service has it, having answered [Pending] when last asked; [k_os], [k_in]: the
      oneshot, or the inner future, has the waker of this response future. *)
  Record wakers := Wakers {
    k_worker : bool; k_rx : bool; k_svc : bool;
    k_handle : nat -> bool; k_fut : nat -> bool; k_os : nat -> bool; k_in : nat -> bool }.
  (** A task that has been spawned is scheduled; nobody else has polled yet. *)
  Definition wakers0 : wakers := Wakers true false false (fun _ => false) (fun _ => false) (fun _ => false) (fun _ => false).

  (** ** When tokio fires a waker it has *)
  (** The receiver's: something was sent, or the last sender is gone. *)
  Definition rx_fires (y y1 : bsys) : bool :=
    (length (y_queue y) <? length (y_queue y1)) || (no_senders y1 && negb (no_senders y)).
  (** That of a handle in line: it left the line, with a permit or because the channel was closed. *)
  Definition sem_fires (h : nat) (y y1 : bsys) : bool :=
    match y_hs y h with
    | Some (Hd (PsAcquiring (Some t)) _) => mem_nat t (sem_queue (y_sem y)) && negb (mem_nat t (sem_queue (y_sem y1)))
    | _ => false
    end.
  (** A oneshot's: the sender is used or gone. *)
  Definition os_fires (id : nat) (y y1 : bsys) : bool := o_tx (y_os y id) && negb (o_tx (y_os y1 id)).

  (** ** What a step means for the wakers *)
  Definition coop_of (o : bop) : bool := match o with BStep _ c | BPollF _ c | BWork c => c | _ => false end.
  Definition begins_handle (h : nat) (o : bop) (y : bsys) : bool :=
    match o with BReady h' => (h' =? h) && match y_hs y h with Some d => at_rest d | None => false end | _ => false end.
  Definition begins_fut (id : nat) (o : bop) (y : bsys) : bool :=
    match o with BPollF id' _ => (id' =? id) && match y_fs y id with Some (_, false) => true | _ => false end | _ => false end.
  Definition started (l : list bobs) : bool := existsb (fun e => match e with WStart => true | _ => false end) l.
  (** The poll of the worker ends, [Pending], without the service having been asked: the channel was. *)
  Definition rx_pending (l : list bobs) : bool := match l with [WPend] => true | _ => false end.
  Fixpoint svc_pending (l : list bobs) (k : bool) : bool :=
    match l with
    | [] => k
    | WAsk Pending :: l' => svc_pending l' true
    | WAsk (Ready _) :: l' => svc_pending l' false
    | _ :: l' => svc_pending l' k
    end.
  Definition handle_pending (h : nat) (l : list bobs) : bool := match l with [OReady h' Pending] => h' =? h | _ => false end.
  Definition os_pending (id : nat) (l : list bobs) : bool := match l with [OPolled id' Pending] => id' =? id | _ => false end.
  Definition in_pending (id : nat) (l : list bobs) (k : bool) : bool :=
    match l with
    | OInner id' _ a _ :: _ => if id' =? id then match a with Pending => true | Ready _ => false end else k
    | _ => k
    end.
  (** [y], [y1]: the state before and after; [l]: what was observed. *)
  Definition wake_step (o : bop) (y y1 : bsys) (l : list bobs) (k : wakers) : wakers :=
    Wakers
      ((k_worker k && negb (started l)) || (k_rx k && rx_fires y y1) || (coop_of o && rx_pending l))
      ((k_rx k && negb (rx_fires y y1)) || (negb (coop_of o) && rx_pending l))
      (svc_pending l (k_svc k))
      (fun h => (k_handle k h && negb (begins_handle h o y)) || sem_fires h y y1 || (coop_of o && handle_pending h l))
      (fun id => (k_fut k id && negb (begins_fut id o y)) || (k_os k id && os_fires id y y1) || (coop_of o && os_pending id l))
      (fun id => (k_os k id && negb (os_fires id y y1)) || (negb (coop_of o) && os_pending id l))
      (fun id => in_pending id l (k_in k id)).

  (** ** Programs *)
  Inductive aop :=
  | ADo (o : bop)
  | ARing | ARingF (id : nat)                               (* the wrapped service, an inner future fires the waker it has *)
  | AWake | AWakeH (h : nat) | AWakeF (id : nat).           (* a task is woken for no reason listed above *)
  Record asys := ASys { a_y : bsys; a_l : list bobs; a_k : wakers }.
  Definition set_worker b k := Wakers b (k_rx k) (k_svc k) (k_handle k) (k_fut k) (k_os k) (k_in k).
  Definition astep (o : aop) (x : asys) : asys :=
    let k := a_k x in
    match o with
    | ADo o => let '(y1, l) := bstep o (a_y x) in ASys y1 (rev l ++ a_l x) (wake_step o (a_y x) y1 l k)
    | ARing => ASys (a_y x) (a_l x) (Wakers (k_worker k || k_svc k) (k_rx k) false (k_handle k) (k_fut k) (k_os k) (k_in k))
    | ARingF id => ASys (a_y x) (a_l x) (Wakers (k_worker k) (k_rx k) (k_svc k) (k_handle k)
                     (upd (k_fut k) id (k_fut k id || k_in k id)) (k_os k) (upd (k_in k) id false))
    | AWake => ASys (a_y x) (a_l x) (set_worker true k)
    | AWakeH h => ASys (a_y x) (a_l x) (Wakers (k_worker k) (k_rx k) (k_svc k) (upd (k_handle k) h true) (k_fut k) (k_os k) (k_in k))
    | AWakeF id => ASys (a_y x) (a_l x) (Wakers (k_worker k) (k_rx k) (k_svc k) (k_handle k) (upd (k_fut k) id true) (k_os k) (k_in k))
    end.
  Definition arun (bound : nat) (s : st svc) (w : W) (ops : list aop) : asys :=
    fold_left (fun x o => astep o x) ops (ASys (bsys0 svc bound s w) [] wakers0).

  (** The same program without the wakers. *)
  Definition moves (ops : list aop) : list bop := flat_map (fun o => match o with ADo o => [o] | _ => [] end) ops.

  (** ** Who sleeps *)
  (** The worker: the last thing it did was to return [Pending]. *)
  Definition worker_sleeps (l : list bobs) : Prop := exists rest, List.filter (@by_worker _ _ _ _ svc) l = WPend :: rest.
  (** Response future [id]: polled, last with [Pending], and not dropped since. *)
  Fixpoint fut_waits (id : nat) (l : list bobs) : bool :=
    match l with
    | [] => false
    | OPolled id' a :: l' => if id' =? id then match a with Pending => true | Ready _ => false end else fut_waits id l'
    | OPollPanic id' :: l' | OPollHang id' :: l' | ODropFut id' :: l' => if id' =? id then false else fut_waits id l'
    | _ :: l' => fut_waits id l'
    end.
End Stall.
Arguments ADo {W Req} o.
Arguments ARing {W Req}.
Arguments ARingF {W Req} id.
Arguments AWake {W Req}.
Arguments AWakeH {W Req} h.
Arguments AWakeF {W Req} id.
Arguments ASys {W Req Resp Err svc} _ _ _.
