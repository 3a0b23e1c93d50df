(** Model of SpawnReady (tower/src/spawn_ready/service.rs). *)
From Verif Require Import Base Util.
Set Implicit Arguments.

Section SpawnReady.
  Context {W Req Resp Err : Type} (svc : Service W Req Resp Err).
  (** Other threads: how many times the runtime polls the background task right
      before the owner looks at its JoinHandle (it may also be polled in between,
      see [task_poll]). *)
  Context (bg : W -> W * nat).

  (** A task spawned with [tokio::spawn(svc.ready_oneshot().map_err(Into::into))],
      service.rs:71-73, behind its JoinHandle: still running, finished (its output
      not yet taken), lost (it panicked, or the runtime cancelled it), or finished
      and taken. *)
  Inductive rtask := TRun (s : st svc) | TDone (r : result (st svc) Err) | TLost | TTaken.
  (** BoxError: the service's own error or a JoinError. *)
  Inductive sr_err := SrInner (e : Err) | SrJoin.

  (** service.rs:16-25 ([Inner::Service(None)] exists only inside [poll_ready]). *)
  Inductive sr_st := SrSvc (s : st svc) | SrFut (t : rtask).
  (** service.rs:27-33 *)
  Definition spawn_ready_new (s : st svc) : sr_st := SrSvc s.

  (** One poll of the task by the runtime: util/ready.rs [ReadyOneshot::poll].
      When it fails the service is dropped with the future; a panic is caught by the runtime. *)
  Definition task_poll (t : rtask) : M W rtask :=
    fun w => match t with
    | TRun s =>
        match poll_ready svc s w with
        | (w1, Val (s1, Pending)) => (w1, Val (TRun s1))
        | (w1, Val (s1, Ready (Ok _))) => (w1, Val (TDone (Ok s1)))
        | (w1, Val (s1, Ready (Er e))) => (drop_svc svc s1 w1, Val (TDone (Er e)))
        | (w1, Panic) => (drop_svc svc s w1, Val TLost)
        | (w1, Diverge) => (w1, Diverge)
        end
    | _ => (w, Val t)
    end.
  Fixpoint task_polls (n : nat) (t : rtask) : M W rtask :=
    match n with
    | 0 => ret t
    | S n' => t1 <- task_poll t ;; task_polls n' t1
    end.
  (** The runtime shuts down, or the task is aborted: its future is dropped. *)
  Definition task_cancel (t : rtask) : M W rtask :=
    match t with
    | TRun s => modify (drop_svc svc s) ;;; ret TLost
    | _ => ret t
    end.

  (** service.rs:61-83.  Every turn of the loop that does not return hands the
      service over or takes it back; nothing bounds their number. *)
  Fixpoint sr_ready (fuel : nat) (s : sr_st) : M W (sr_st * poll (result unit sr_err)) :=
    match fuel with
    | 0 => diverge
    | S n =>
        match s with
        | SrSvc x =>
            '(x1, a) <- poll_ready svc x ;;
            match a with
            | Ready r => ret (SrSvc x1, Ready (map_er SrInner r))
            | Pending => sr_ready n (SrFut (TRun x1))
            end
        | SrFut t =>
            k <- (fun w => let '(w1, k) := bg w in (w1, Val k)) ;;
            t1 <- task_polls k t ;;
            match t1 with
            | TRun _ => ret (SrFut t1, Pending)
            | TDone (Ok x) => sr_ready n (SrSvc x)
            | TDone (Er e) => ret (SrFut TTaken, Ready (Er (SrInner e)))
            | TLost => ret (SrFut TTaken, Ready (Er SrJoin))
            | TTaken => panic          (* JoinHandle polled after completion *)
            end
        end
    end.

  (** service.rs:85-92 *)
  Definition sr_call (s : sr_st) (r : Req) : M W (sr_st * fut svc) :=
    match s with
    | SrSvc x => '(x1, f) <- call svc x r ;; ret (SrSvc x1, f)
    | SrFut _ => panic
    end.

  (** service.rs:41-47 and the drop of the fields: abort the task, if any. *)
  Definition sr_drop (s : sr_st) (w : W) : W :=
    match s with
    | SrSvc x => drop_svc svc x w
    | SrFut (TRun x) => drop_svc svc x w
    | SrFut (TDone (Ok x)) => drop_svc svc x w
    | SrFut _ => w
    end.

  (** service.rs:49-92.  The response future is futures' [MapErr].  SpawnReady is not [Clone]. *)
  Definition spawn_ready (fuel : nat) : Service W Req Resp sr_err :=
    MkService sr_st (option (fut svc)) (sr_ready fuel)
      (fun s r => '(s1, f) <- sr_call s r ;; ret (s1, Some f))
      (map_poll (poll_fut svc) (drop_fut svc) (fun r => ret (map_er SrInner r)))
      (fun _ => panic) sr_drop (map_drop (drop_fut svc)).
End SpawnReady.
Arguments SrInner {Err} e.
Arguments SrJoin {Err}.
Arguments TRun {W Req Resp Err svc} s.
Arguments TDone {W Req Resp Err svc} r.
Arguments TLost {W Req Resp Err svc}.
Arguments TTaken {W Req Resp Err svc}.
Arguments SrSvc {W Req Resp Err svc} s.
Arguments SrFut {W Req Resp Err svc} t.
