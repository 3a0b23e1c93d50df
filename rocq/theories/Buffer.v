(** Model of [Buffer] (tower/src/buffer/): the handles, the worker task and the
    response futures, running concurrently.

    The pieces of the program share an mpsc channel, one oneshot channel per
    request and the cell holding the worker's error.  Every function is cut into
    steps that each touch the shared state once, and the steps of different
    objects interleave arbitrarily ([bop] names the object that moves).  An
    object in the middle of a function remembers where it is (its "pc").

    tokio is not part of the repository; the primitives below state what is
    assumed of it. *)
From Verif Require Import Base Limits.
Set Implicit Arguments.

(** Finite maps from numbers. *)
Definition upd {A} (f : nat -> A) (i : nat) (x : A) : nat -> A := fun j => if j =? i then x else f j.

Section Buffer.
  Context {W Req Resp Err : Type} (svc : Service W Req Resp Err).

  (** buffer/error.rs: [BSvc] is [ServiceError], [BClosed] is [Closed]; [BInner]
      is the wrapped service's own error ([Into<BoxError>]). *)
  Inductive berr := BSvc (e : Err) | BClosed | BInner (e : Err).

  (** tokio::sync::oneshot: is the sender / the receiver still there, and the
      value sent and not yet taken. *)
  Record oneshot := Os { o_tx : bool; o_val : option (result (fut svc) Err); o_rx : bool }.

  (** buffer/message.rs:6-10.  [m_id] names the oneshot whose sender this is. *)
  Record msg := Msg { m_req : Req; m_id : nat }.

  (** buffer/worker.rs:28-38 and the place in [poll] (148-207). *)
  Inductive wpc :=
  | WRest                                  (* not being polled *)
  | WNext                                  (* worker.rs:154: about to call [poll_next_msg] *)
  | WRecv                                  (* worker.rs:94: about to receive *)
  | WCheck (m : msg)                       (* worker.rs:95: received; has it been cancelled? *)
  | WGot (m : msg)                         (* worker.rs:157: a live message *)
  | WReady (m : msg)                       (* worker.rs:172: the service is ready: call it *)
  | WSend (m : msg) (f : fut svc)          (* worker.rs:179: hand the response future over *)
  | WStore (m : msg) (e : Err)             (* worker.rs:120: expose the error *)
  | WClose (m : msg) (e : Err)             (* worker.rs:131: close the channel *)
  | WTell (m : msg)                        (* worker.rs:192: report the error *)
  | WHung (m : msg).                       (* the wrapped service never returned *)
  Record worker := Wk {
    w_cur : option msg; w_svc : st svc; w_finish : bool; w_failed : option Err; w_pc : wpc }.

  (** tokio_util::sync::PollSender's state, and the place in [poll_ready] /
      [call] (buffer/service.rs:97-131). *)
  Inductive psend := PsIdle | PsAcquiring (ticket : option nat) | PsReady | PsClosed.
  Inductive hpc :=
  | HRest
  | HReserve            (* service.rs:104: not closed; about to reserve *)
  | HErrReady           (* service.rs:101, 107: about to read the worker's error *)
  | HErrCall (r : Req). (* service.rs:129: likewise, in [call] *)
  Record handle := Hd { h_ps : psend; h_pc : hpc }.

  (** buffer/future.rs:25-39. *)
  Inductive bfut := BFailed (e : option berr) | BRx | BPoll (f : fut svc).

  Record bsys := BSys {
    y_sem : sem; y_bound : nat; y_closed : bool; y_queue : list msg;  (* the mpsc channel *)
    y_cell : option Err;                                              (* worker.rs:41-44 *)
    y_os : nat -> oneshot;
    y_hs : nat -> option handle; y_hnext : nat;
    y_fs : nat -> option (bfut * bool); y_fnext : nat;   (* futures; the flag: completed *)
    y_wk : option worker;
    y_w : W }.

  Definition set_sem x y := BSys x (y_bound y) (y_closed y) (y_queue y) (y_cell y) (y_os y) (y_hs y) (y_hnext y) (y_fs y) (y_fnext y) (y_wk y) (y_w y).
  Definition set_closed x y := BSys (y_sem y) (y_bound y) x (y_queue y) (y_cell y) (y_os y) (y_hs y) (y_hnext y) (y_fs y) (y_fnext y) (y_wk y) (y_w y).
  Definition set_queue x y := BSys (y_sem y) (y_bound y) (y_closed y) x (y_cell y) (y_os y) (y_hs y) (y_hnext y) (y_fs y) (y_fnext y) (y_wk y) (y_w y).
  Definition set_cell x y := BSys (y_sem y) (y_bound y) (y_closed y) (y_queue y) x (y_os y) (y_hs y) (y_hnext y) (y_fs y) (y_fnext y) (y_wk y) (y_w y).
  Definition set_os x y := BSys (y_sem y) (y_bound y) (y_closed y) (y_queue y) (y_cell y) x (y_hs y) (y_hnext y) (y_fs y) (y_fnext y) (y_wk y) (y_w y).
  Definition set_hs x y := BSys (y_sem y) (y_bound y) (y_closed y) (y_queue y) (y_cell y) (y_os y) x (y_hnext y) (y_fs y) (y_fnext y) (y_wk y) (y_w y).
  Definition set_hnext x y := BSys (y_sem y) (y_bound y) (y_closed y) (y_queue y) (y_cell y) (y_os y) (y_hs y) x (y_fs y) (y_fnext y) (y_wk y) (y_w y).
  Definition set_fs x y := BSys (y_sem y) (y_bound y) (y_closed y) (y_queue y) (y_cell y) (y_os y) (y_hs y) (y_hnext y) x (y_fnext y) (y_wk y) (y_w y).
  Definition set_fnext x y := BSys (y_sem y) (y_bound y) (y_closed y) (y_queue y) (y_cell y) (y_os y) (y_hs y) (y_hnext y) (y_fs y) x (y_wk y) (y_w y).
  Definition set_wk x y := BSys (y_sem y) (y_bound y) (y_closed y) (y_queue y) (y_cell y) (y_os y) (y_hs y) (y_hnext y) (y_fs y) (y_fnext y) x (y_w y).
  Definition set_w x y := BSys (y_sem y) (y_bound y) (y_closed y) (y_queue y) (y_cell y) (y_os y) (y_hs y) (y_hnext y) (y_fs y) (y_fnext y) (y_wk y) x.

  (** What can be observed. *)
  Inductive bobs :=
  | OReady (h : nat) (a : poll (result unit berr))      (* [poll_ready] of handle [h] returned [a] *)
  | OSent (h id : nat) (r : Req)                        (* [call] returned future [id], request accepted *)
  | ORefused (h id : nat) (r : Req) (e : berr)          (* [call] returned a failed future *)
  | OCallPanic (h : nat) (r : Req)
  | OCloned (h h' : nat)
  | ODropped (h : nat)
  | OInner (id : nat) (f : fut svc) (a : poll (result Resp Err)) (f' : fut svc)
                                                        (* future [id] polled the inner future *)
  | OPolled (id : nat) (a : poll (result Resp berr))    (* future [id] was polled *)
  | OPollPanic (id : nat) | OPollHang (id : nat)
  | ODropFut (id : nat)
  | WStart                                              (* the worker is polled ... *)
  | WTook (id : nat)                                    (* ... takes a request out of the channel *)
  | WSkip (id : nat)                                    (* ... drops a cancelled request *)
  | WLive (id : nat)                                    (* ... finds it has not been cancelled *)
  | WAsk (a : poll (result unit Err))                   (* ... asks the service for readiness *)
  | WCall (id : nat) (r : Req) (f : fut svc)            (* ... calls the service *)
  | WAnswer (id : nat) (a : result (fut svc) Err)       (* ... answers the request *)
  | WPend | WDone                                       (* ... and its poll returns *)
  | WPanic | WHang
  | WGone.                                              (* the worker is destroyed *)

  (** ** tokio primitives *)

  (** [mpsc::Sender::is_closed] *)
  Definition tx_is_closed (y : bsys) : bool := y_closed y.

  (** A permit comes back.  (Closing has emptied the line of waiters.) *)
  Definition add_permit (y : bsys) : bsys := set_sem (sem_release (y_sem y)) y.

  (** [PollSender::poll_reserve], [reserve_owned] on a closed channel fails even
      if the waiter had been given a permit.  [coop]: tokio's budget is used up,
      the poll is put off. *)
  Definition poll_reserve (coop : bool) (p : psend) (y : bsys) : bsys * psend * poll (result unit unit) :=
    match p with
    | PsReady => (y, PsReady, Ready (Ok tt))
    | PsClosed => (y, PsClosed, Ready (Er tt))
    | PsIdle | PsAcquiring _ =>
        let t := match p with PsAcquiring t => t | _ => None end in
        if coop then (y, PsAcquiring t, Pending)
        else if y_closed y then (set_sem (sem_forget t (y_sem y)) y, PsClosed, Ready (Er tt))
        else let '(m, t1, got) := sem_poll t (y_sem y) in
             if got then (set_sem m y, PsReady, Ready (Ok tt))
             else (set_sem m y, PsAcquiring t1, Pending)
    end.

  (** [PollSender::send_item]: a permit lets the message in even if the channel
      has been closed meanwhile.  [None]: panic. *)
  Definition send_item (p : psend) (m : msg) (y : bsys) : option (bsys * psend * bool) :=
    match p with
    | PsIdle | PsAcquiring _ => None
    | PsReady => Some (set_queue (y_queue y ++ [m]) y, PsIdle, true)
    | PsClosed => Some (y, PsClosed, false)
    end.

  (** Dropping a [PollSender]. *)
  Definition drop_sender (p : psend) (y : bsys) : bsys :=
    match p with
    | PsIdle | PsClosed => y
    | PsAcquiring t => set_sem (sem_forget t (y_sem y)) y
    | PsReady => add_permit y
    end.

  (** Are there no senders left?  Every handle owns one. *)
  Definition no_senders (y : bsys) : bool :=
    forallb (fun i => match y_hs y i with None => true | Some _ => false end) (seq 0 (y_hnext y)).

  (** [Receiver::poll_recv]: a received message gives its permit back.  [None]
      when nothing can come any more: no senders, or closed and no permit out. *)
  Definition poll_recv (coop : bool) (y : bsys) : bsys * poll (option msg) :=
    if coop then (y, Pending)
    else match y_queue y with
         | m :: q => (add_permit (set_queue q y), Ready (Some m))
         | [] => if no_senders y || (y_closed y && (sem_avail (y_sem y) =? y_bound y)) then (y, Ready None)
                 else (y, Pending)
         end.

  (** [Receiver::close]: nobody waits any more; permits out stay valid. *)
  Definition rx_close (y : bsys) : bsys :=
    set_closed true (set_sem (Sem (sem_avail (y_sem y)) [] (sem_granted (y_sem y)) (sem_next (y_sem y))) y).

  (** Dropping an unused oneshot sender. *)
  Definition os_drop_tx (id : nat) (y : bsys) : bsys :=
    set_os (upd (y_os y) id (Os false (o_val (y_os y id)) (o_rx (y_os y id)))) y.
  Definition os_is_closed (id : nat) (y : bsys) : bool := negb (o_rx (y_os y id)).
  (** [Sender::send]: the value is dropped if the receiver is gone. *)
  Definition os_send (id : nat) (v : result (fut svc) Err) (y : bsys) : bsys :=
    if o_rx (y_os y id)
    then set_os (upd (y_os y) id (Os false (Some v) true)) y
    else let y1 := set_os (upd (y_os y) id (Os false (o_val (y_os y id)) false)) y in
         match v with Ok f => set_w (drop_fut svc f (y_w y1)) y1 | Er _ => y1 end.
  (** Dropping the receiver drops a value not taken. *)
  Definition os_drop_rx (id : nat) (y : bsys) : bsys :=
    let y1 := set_os (upd (y_os y) id (Os (o_tx (y_os y id)) None false)) y in
    match o_val (y_os y id) with Some (Ok f) => set_w (drop_fut svc f (y_w y1)) y1 | _ => y1 end.

  (** Dropping the [Receiver]: close, and drop what is queued (each message with
      its oneshot sender), giving the permits back.  What is sent later with a
      permit still out stays in the channel. *)
  Fixpoint drain (q : list msg) (y : bsys) : bsys :=
    match q with
    | [] => y
    | m :: q' => drain q' (os_drop_tx (m_id m) (add_permit y))
    end.
  Definition rx_drop (y : bsys) : bsys := set_queue [] (drain (y_queue y) (rx_close y)).

  (** ** The worker *)

  (** Dropping the worker: fields in order (worker.rs:28-38). *)
  Definition drop_worker (k : worker) (y : bsys) : bsys :=
    let y1 := match w_cur k with Some m => os_drop_tx (m_id m) y | None => y end in
    let y2 := rx_drop y1 in
    let y3 := set_w (drop_svc svc (w_svc k) (y_w y2)) y2 in
    set_wk None y3.

  (** The wrapped service panicked while [m] was in hand: the task dies. *)
  Definition die (k : worker) (id : nat) (y : bsys) : bsys := drop_worker k (os_drop_tx id y).

  Definition at_pc (k : worker) (p : wpc) : worker := Wk (w_cur k) (w_svc k) (w_finish k) (w_failed k) p.
  Definition with_svc (k : worker) (s : st svc) : worker := Wk (w_cur k) s (w_finish k) (w_failed k) (w_pc k).
  Definition go (k : worker) (p : wpc) (y : bsys) : bsys := set_wk (Some (at_pc k p)) y.

  (** One step of [Worker::poll] (worker.rs:148-207) and of the functions it
      calls, [poll_next_msg] (72-105) and [failed] (107-138). *)
  Definition worker_step (coop : bool) (k : worker) (y : bsys) : bsys * list bobs :=
    match w_pc k with
    | WRest =>                                                             (* worker.rs:149-151 *)
        if w_finish k then (y, [WStart; WDone]) else (go k WNext y, [WStart])
    | WNext =>                                                             (* worker.rs:83-91 *)
        match w_cur k with
        | None => (go k WRecv y, [])
        | Some m =>
            let k1 := Wk None (w_svc k) (w_finish k) (w_failed k) (w_pc k) in
            if os_is_closed (m_id m) y
            then (go k1 WRecv (os_drop_tx (m_id m) y), [WSkip (m_id m)])
            else (go k1 (WGot m) y, [WLive (m_id m)])
        end
    | WRecv =>                                                             (* worker.rs:94, 199-203 *)
        match poll_recv coop y with
        | (y1, Pending) => (go k WRest y1, [WPend])
        | (y1, Ready (Some m)) => (go k (WCheck m) y1, [WTook (m_id m)])
        | (y1, Ready None) => (set_wk (Some (Wk (w_cur k) (w_svc k) true (w_failed k) WRest)) y1, [WDone])
        end
    | WCheck m =>                                                          (* worker.rs:95-101 *)
        if os_is_closed (m_id m) y
        then (go k WRecv (os_drop_tx (m_id m) y), [WSkip (m_id m)])
        else (go k (WGot m) y, [WLive (m_id m)])
    | WGot m =>                                                            (* worker.rs:157-188 *)
        match w_failed k with
        | Some e => (go k WNext (os_send (m_id m) (Er e) y), [WAnswer (m_id m) (Er e)])
        | None =>
            match poll_ready svc (w_svc k) (y_w y) with
            | (w1, Val (s1, a)) =>
                let y1 := set_w w1 y in
                let k1 := with_svc k s1 in
                match a with
                | Ready (Ok _) => (go k1 (WReady m) y1, [WAsk a])
                | Pending => (set_wk (Some (Wk (Some m) s1 (w_finish k) (w_failed k) WRest)) y1, [WAsk a; WPend])
                | Ready (Er e) => (go k1 (WStore m e) y1, [WAsk a])
                end
            | (w1, Panic) => (die k (m_id m) (set_w w1 y), [WPanic; WGone])
            | (w1, Diverge) => (go k (WHung m) (set_w w1 y), [WHang])
            end
        end
    | WReady m =>                                                          (* worker.rs:172 *)
        match call svc (w_svc k) (m_req m) (y_w y) with
        | (w1, Val (s1, f)) => (go (with_svc k s1) (WSend m f) (set_w w1 y), [WCall (m_id m) (m_req m) f])
        | (w1, Panic) => (die k (m_id m) (set_w w1 y), [WPanic; WGone])
        | (w1, Diverge) => (go k (WHung m) (set_w w1 y), [WHang])
        end
    | WSend m f =>                                                         (* worker.rs:179 *)
        (go k WNext (os_send (m_id m) (Ok f) y), [WAnswer (m_id m) (Ok f)])
    | WStore m e =>                                                        (* worker.rs:120-129 *)
        match y_cell y with
        | Some _ => (go k (WTell m) y, [])
        | None => (go k (WClose m e) (set_cell (Some e) y), [])
        end
    | WClose m e =>                                                        (* worker.rs:131-137 *)
        (set_wk (Some (Wk (w_cur k) (w_svc k) (w_finish k) (Some e) (WTell m))) (rx_close y), [])
    | WTell m =>                                                           (* worker.rs:192-196 *)
        match w_failed k with
        | None => (die k (m_id m) y, [WPanic; WGone])
        | Some e => (go k WNext (os_send (m_id m) (Er e) y), [WAnswer (m_id m) (Er e)])
        end
    | WHung _ => (y, [])
    end.

  (** ** The handles (buffer/service.rs) *)

  (** worker.rs:211-218 *)
  Definition get_error_on_closed (y : bsys) : berr :=
    match y_cell y with Some e => BSvc e | None => BClosed end.

  Definition put_handle (h : nat) (d : handle) (y : bsys) : bsys := set_hs (upd (y_hs y) h (Some d)) y.

  (** One step of a [poll_ready] or [call] in progress (97-131). *)
  Definition handle_step (coop : bool) (h : nat) (d : handle) (y : bsys) : bsys * list bobs :=
    match h_pc d with
    | HRest => (y, [])
    | HReserve =>                                                          (* service.rs:104-107 *)
        match poll_reserve coop (h_ps d) y with
        | (y1, p, Pending) => (put_handle h (Hd p HRest) y1, [OReady h Pending])
        | (y1, p, Ready (Ok _)) => (put_handle h (Hd p HRest) y1, [OReady h (Ready (Ok tt))])
        | (y1, p, Ready (Er _)) => (put_handle h (Hd p HErrReady) y1, [])
        end
    | HErrReady =>
        (put_handle h (Hd (h_ps d) HRest) y, [OReady h (Ready (Er (get_error_on_closed y)))])
    | HErrCall r =>                                                        (* service.rs:127-130 *)
        let id := y_fnext y in
        let e := get_error_on_closed y in
        let y1 := put_handle h (Hd (h_ps d) HRest) y in
        let y2 := set_os (upd (y_os y1) id (Os false None false)) y1 in
        (set_fnext (S id) (set_fs (upd (y_fs y2) id (Some (BFailed (Some e), false))) y2), [ORefused h id r e])
    end.

  (** [poll_ready] is entered (97-102). *)
  Definition handle_ready (h : nat) (d : handle) (y : bsys) : bsys * list bobs :=
    (put_handle h (Hd (h_ps d) (if tx_is_closed y then HErrReady else HReserve)) y, []).

  (** [call] is entered (110-126): the oneshot is made, the message sent.
      Simplification, for a handle misused by calling without a slot ([OCallPanic]):
      it still counts as a sender and is out of the line (in tokio-util an idle
      [PollSender] loses its sender, a waiting one keeps its place in line). *)
  Definition handle_call (h : nat) (d : handle) (r : Req) (y : bsys) : bsys * list bobs :=
    let id := y_fnext y in
    match send_item (h_ps d) (Msg r id) y with
    | None => (put_handle h (Hd PsClosed HRest) y, [OCallPanic h r])
    | Some (y1, p, true) =>
        let y2 := put_handle h (Hd p HRest) y1 in
        let y3 := set_os (upd (y_os y2) id (Os true None true)) y2 in
        (set_fnext (S id) (set_fs (upd (y_fs y3) id (Some (BRx, false))) y3), [OSent h id r])
    | Some (y1, p, false) => (put_handle h (Hd p (HErrCall r)) y1, [])
    end.

  (** service.rs:134-144: [PollSender::clone] starts idle. *)
  Definition handle_clone (h : nat) (y : bsys) : bsys * list bobs :=
    let h' := y_hnext y in
    (set_hnext (S h') (set_hs (upd (y_hs y) h' (Some (Hd PsIdle HRest))) y), [OCloned h h']).

  (** With the last sender gone and no receiver, the channel itself is freed,
      with whatever is still in it. *)
  Definition handle_drop (h : nat) (d : handle) (y : bsys) : bsys * list bobs :=
    let y1 := drop_sender (h_ps d) y in
    let y2 := set_hs (upd (y_hs y1) h None) y1 in
    (match y_wk y2 with
     | None => if no_senders y2 then set_queue [] (drain (y_queue y2) y2) else y2
     | Some _ => y2
     end, [ODropped h]).

  (** ** The response futures (buffer/future.rs:62-78)

      Taking the inner future out of the oneshot and polling it for the first
      time is one step here: nobody else can touch either.  A poll that never
      returns ([OPollHang]) leaves the future as one that is not polled again. *)
  Definition put_fut (id : nat) (f : bfut) (done : bool) (y : bsys) : bsys :=
    set_fs (upd (y_fs y) id (Some (f, done))) y.
  Definition poll_inner (id : nat) (f : fut svc) (y : bsys) : bsys * list bobs :=
    match poll_fut svc f (y_w y) with
    | (w1, Val (f1, a)) =>
        (put_fut id (BPoll f1) (match a with Pending => false | Ready _ => true end) (set_w w1 y),
         [OInner id f a f1; OPolled id (poll_map (map_er BInner) a)])
    | (w1, Panic) => (put_fut id (BPoll f) true (set_w w1 y), [OPollPanic id])
    | (w1, Diverge) => (put_fut id (BPoll f) true (set_w w1 y), [OPollHang id])
    end.
  Definition fut_poll (coop : bool) (id : nat) (f : bfut) (y : bsys) : bsys * list bobs :=
    match f with
    | BFailed None => (put_fut id f true y, [OPollPanic id])
    | BFailed (Some e) => (put_fut id (BFailed None) true y, [OPolled id (Ready (Er e))])
    | BRx =>
        if coop then (y, [OPolled id Pending])
        else match o_val (y_os y id) with
             | Some (Ok f) => poll_inner id f (set_os (upd (y_os y) id (Os false None false)) y)
             | Some (Er e) => (put_fut id BRx true (set_os (upd (y_os y) id (Os false None true)) y),
                               [OPolled id (Ready (Er (BSvc e)))])
             | None => if o_tx (y_os y id) then (y, [OPolled id Pending])
                       else (put_fut id BRx true y, [OPolled id (Ready (Er BClosed))])
             end
    | BPoll f => poll_inner id f y
    end.
  Definition fut_drop (id : nat) (f : bfut) (y : bsys) : bsys * list bobs :=
    let y1 := match f with
              | BFailed _ => y
              | BRx => os_drop_rx id y
              | BPoll f => set_w (drop_fut svc f (y_w y)) y
              end in
    (set_fs (upd (y_fs y1) id None) y1, [ODropFut id]).

  (** ** The program *)
  Inductive bop :=
  | BReady (h : nat) | BCall (h : nat) (r : Req)    (* start the function, if the handle is at rest *)
  | BStep (h : nat) (coop : bool)                   (* go on with it *)
  | BClone (h : nat) | BDrop (h : nat)              (* (at rest) *)
  | BPollF (id : nat) (coop : bool) | BDropF (id : nat)
  | BWork (coop : bool)                             (* the worker moves *)
  | BKill                                           (* the worker, at rest, is dropped *)
  | BEnv (g : W -> W).                              (* anything else *)

  Definition at_rest (d : handle) : bool := match h_pc d with HRest => true | _ => false end.
  Definition worker_rests (k : worker) : bool := match w_pc k with WRest => true | _ => false end.

  (** Impossible moves do nothing.  A completed future is not polled again. *)
  Definition bstep (o : bop) (y : bsys) : bsys * list bobs :=
    match o with
    | BReady h => match y_hs y h with Some d => if at_rest d then handle_ready h d y else (y, []) | None => (y, []) end
    | BCall h r => match y_hs y h with Some d => if at_rest d then handle_call h d r y else (y, []) | None => (y, []) end
    | BStep h c => match y_hs y h with Some d => handle_step c h d y | None => (y, []) end
    | BClone h => match y_hs y h with Some d => if at_rest d then handle_clone h y else (y, []) | None => (y, []) end
    | BDrop h => match y_hs y h with Some d => if at_rest d then handle_drop h d y else (y, []) | None => (y, []) end
    | BPollF id c => match y_fs y id with Some (f, false) => fut_poll c id f y | _ => (y, []) end
    | BDropF id => match y_fs y id with Some (f, _) => fut_drop id f y | None => (y, []) end
    | BWork c => match y_wk y with Some k => worker_step c k y | None => (y, []) end
    | BKill => match y_wk y with Some k => if worker_rests k then (drop_worker k y, [WGone]) else (y, []) | None => (y, []) end
    | BEnv g => (set_w (g (y_w y)) y, [])
    end.

  (** buffer/service.rs:66-80, worker.rs:51-70.  [mpsc::channel(0)] panics. *)
  Definition bsys0 (bound : nat) (s : st svc) (w : W) : bsys :=
    BSys (sem_new bound) bound false [] None (fun _ => Os false None false)
      (upd (fun _ => None) 0 (Some (Hd PsIdle HRest))) 1 (fun _ => None) 0
      (Some (Wk None s false None WRest)) w.
  Definition buffer_pair (bound : nat) (s : st svc) : M W bsys :=
    fun w => match bound with O => (w, Panic) | _ => (w, Val (bsys0 bound s w)) end.

  (** A run: the final state and the log, newest first. *)
  Fixpoint brun (y : bsys) (log : list bobs) (ops : list bop) : bsys * list bobs :=
    match ops with
    | [] => (y, log)
    | o :: ops' => let '(y1, l) := bstep o y in brun y1 (rev l ++ log) ops'
    end.
End Buffer.
Arguments Os {W Req Resp Err svc} o_tx o_val o_rx.
Arguments WRest {W Req Resp Err svc}.
Arguments WNext {W Req Resp Err svc}.
Arguments WRecv {W Req Resp Err svc}.
Arguments WCheck {W Req Resp Err svc} m.
Arguments WGot {W Req Resp Err svc} m.
Arguments WReady {W Req Resp Err svc} m.
Arguments WSend {W Req Resp Err svc} m f.
Arguments WStore {W Req Resp Err svc} m e.
Arguments WClose {W Req Resp Err svc} m e.
Arguments WTell {W Req Resp Err svc} m.
Arguments WHung {W Req Resp Err svc} m.
Arguments Wk {W Req Resp Err svc} w_cur w_svc w_finish w_failed w_pc.
Arguments BSvc {Err} e.
Arguments BClosed {Err}.
Arguments BInner {Err} e.
Arguments HRest {Req}.
Arguments HReserve {Req}.
Arguments HErrReady {Req}.
Arguments HErrCall {Req} r.
Arguments BFailed {W Req Resp Err svc} e.
Arguments BRx {W Req Resp Err svc}.
Arguments BPoll {W Req Resp Err svc} f.
Arguments BSys {W Req Resp Err svc} _ _ _ _ _ _ _ _ _ _ _ _.
Arguments OReady {W Req Resp Err svc} h a.
Arguments OSent {W Req Resp Err svc} h id r.
Arguments ORefused {W Req Resp Err svc} h id r e.
Arguments OCallPanic {W Req Resp Err svc} h r.
Arguments OCloned {W Req Resp Err svc} h h'.
Arguments ODropped {W Req Resp Err svc} h.
Arguments OInner {W Req Resp Err svc} id f a f'.
Arguments OPolled {W Req Resp Err svc} id a.
Arguments OPollPanic {W Req Resp Err svc} id.
Arguments OPollHang {W Req Resp Err svc} id.
Arguments ODropFut {W Req Resp Err svc} id.
Arguments WStart {W Req Resp Err svc}.
Arguments WTook {W Req Resp Err svc} id.
Arguments WSkip {W Req Resp Err svc} id.
Arguments WLive {W Req Resp Err svc} id.
Arguments WAsk {W Req Resp Err svc} a.
Arguments WCall {W Req Resp Err svc} id r f.
Arguments WAnswer {W Req Resp Err svc} id a.
Arguments WPend {W Req Resp Err svc}.
Arguments WDone {W Req Resp Err svc}.
Arguments WPanic {W Req Resp Err svc}.
Arguments WHang {W Req Resp Err svc}.
Arguments WGone {W Req Resp Err svc}.
Arguments BReady {W Req} h.
Arguments BCall {W Req} h r.
Arguments BStep {W Req} h coop.
Arguments BClone {W Req} h.
Arguments BDrop {W Req} h.
Arguments BPollF {W Req} id coop.
Arguments BDropF {W Req} id.
Arguments BWork {W Req} coop.
Arguments BKill {W Req}.
Arguments BEnv {W Req} g.
