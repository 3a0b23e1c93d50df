(** Model of SpawnReady (tower/src/spawn_ready/service.rs) with wakers: when the runtime polls the background task is
    not left to an oracle (as in SpawnReady.v) but follows from which wakers fired.  Wakers and events are those of
    WakeCache.v: [WkTask] is the waker of the task that owns the SpawnReady, [WkChild t] that of background task [t];
    the only service has number 0. *)
From Verif Require Import Base Util WakeCache SpawnReady.
Set Implicit Arguments.

Section WakeSpawn.
  Context {W Req Resp Err : Type} (svc : Service W Req Resp Err).
  (** Any waker can fire at any time.  [rings w]: those that fire while the service is being used, given the world afterwards. *)
  Context (rings : W -> list waker).
  (** What other threads do right before the owner looks at its JoinHandle: the runtime polls the task, if it is to be
      polled, or a waker fires. *)
  Inductive gmove := GRun | GRing (k : waker).
  Context (gap : W -> W * list gmove).
  (** tokio's cooperative budget may put the look at the JoinHandle off: it then answers [Pending] and wakes the owner at once. *)
  Context (coop : W -> bool).

  (** [WsFut t task queued join]: the background task with number [t] and its state (SpawnReady.v); whether it is in the run queue;
      whether its JoinHandle has the owner's waker. *)
  Inductive ws_inner := WsSvc (s : st svc) | WsFut (t : nat) (task : rtask svc) (queued join : bool).
  (** [ws_woken]: the owner has been woken since it last began to poll. *)
  Record wspawn := WSpawn { ws_in : ws_inner; ws_next : nat; ws_woken : bool; ws_log : list wevent }.
  (** service.rs:27-33 *)
  Definition wspawn_new (s : st svc) : wspawn := WSpawn (WsSvc s) 0 false [].

  Definition sput (i : ws_inner) (c : wspawn) : wspawn := WSpawn i (ws_next c) (ws_woken c) (ws_log c).
  Definition swoken (b : bool) (c : wspawn) : wspawn := WSpawn (ws_in c) (ws_next c) b (ws_log c).
  Definition slogged (e : wevent) (c : wspawn) : wspawn := WSpawn (ws_in c) (ws_next c) (ws_woken c) (e :: ws_log c).

  (** A waker fires.  That of a task puts it into the run queue, if it is still there and not in it. *)
  Definition sring (k : waker) (c : wspawn) : wspawn :=
    slogged (ERing k)
      match k with
      | WkTask => swoken true c
      | WkChild t =>
          match ws_in c with
          | WsFut t' (TRun s) _ join => if t' =? t then sput (WsFut t' (TRun s) true join) c else c
          | _ => c
          end
      end.
  Definition sring_all (l : list waker) (c : wspawn) : wspawn := fold_left (fun c k => sring k c) l c.

  (** The task has ended: the JoinHandle's waker, if any, is taken and fires. *)
  Definition sfinish (t : nat) (r : rtask svc) (join : bool) (c : wspawn) : wspawn :=
    let c1 := sput (WsFut t r false false) c in if join then swoken true c1 else c1.

  (** The runtime takes the task from the run queue and polls it: see [task_poll] in SpawnReady.v. *)
  Definition srun (c : wspawn) : M W wspawn :=
    fun w => match ws_in c with
    | WsFut t (TRun s) true join =>
        match poll_ready svc s w with
        | (w1, Val (s1, Pending)) =>
            (w1, Val (sring_all (rings w1) (slogged (EPoll 0 (WkChild t) true) (sput (WsFut t (TRun s1) false join) c))))
        | (w1, Val (s1, Ready (Ok _))) =>
            (w1, Val (sring_all (rings w1) (slogged (EPoll 0 (WkChild t) false) (sfinish t (TDone (Ok s1)) join c))))
        | (w1, Val (s1, Ready (Er e))) =>
            (drop_svc svc s1 w1, Val (sring_all (rings w1) (slogged (EPoll 0 (WkChild t) false) (sfinish t (TDone (Er e)) join c))))
        | (w1, Panic) =>
            (drop_svc svc s w1, Val (sring_all (rings w1) (slogged (EPoll 0 (WkChild t) false) (sfinish t TLost join c))))
        | (w1, Diverge) => (w1, Diverge)
        end
    | _ => (w, Val c)
    end.
  (** The runtime drops the task (it shuts down). *)
  Definition skill (c : wspawn) : M W wspawn :=
    match ws_in c with
    | WsFut t (TRun s) _ join => modify (drop_svc svc s) ;;; ret (sfinish t TLost join c)
    | _ => ret c
    end.

  Definition gmove_do (m : gmove) (c : wspawn) : M W wspawn :=
    match m with GRun => srun c | GRing k => ret (sring k c) end.
  Fixpoint gmoves (l : list gmove) (c : wspawn) : M W wspawn :=
    match l with [] => ret c | m :: l' => c1 <- gmove_do m c ;; gmoves l' c1 end.

  (** service.rs:61-83.  A task just spawned is in the run queue. *)
  Fixpoint ws_ready (fuel : nat) (c : wspawn) : M W (wspawn * poll (result unit (sr_err (Err := Err)))) :=
    match fuel with
    | 0 => diverge
    | S n =>
        match ws_in c with
        | WsSvc x =>
            '(x1, a) <- poll_ready svc x ;;
            c1 <- (fun w => (w, Val (sring_all (rings w)
                    (slogged (EPoll 0 WkTask (match a with Pending => true | Ready _ => false end)) (sput (WsSvc x1) c))))) ;;
            match a with
            | Ready r => ret (c1, Ready (map_er SrInner r))
            | Pending => ws_ready n (WSpawn (WsFut (ws_next c1) (TRun x1) true false) (S (ws_next c1)) (ws_woken c1) (ws_log c1))
            end
        | WsFut _ _ _ _ =>
            g <- (fun w => let '(w1, g) := gap w in (w1, Val g)) ;;
            c1 <- gmoves g c ;;
            off <- get coop ;;
            match ws_in c1 with
            | WsSvc _ => panic
            | WsFut t task queued join =>
                if off : bool then ret (swoken true c1, Pending) else
                match task with
                | TRun s => ret (sput (WsFut t (TRun s) queued true) c1, Pending)
                | TDone (Ok x) => ws_ready n (sput (WsSvc x) c1)
                | TDone (Er e) => ret (sput (WsFut t TTaken false false) c1, Ready (Er (SrInner e)))
                | TLost => ret (sput (WsFut t TTaken false false) c1, Ready (Er SrJoin))
                | TTaken => panic
                end
            end
        end
    end.

  (** service.rs:85-92 *)
  Definition ws_call (c : wspawn) (r : Req) : M W (wspawn * fut svc) :=
    match ws_in c with
    | WsSvc x => '(x1, f) <- call svc x r ;; fun w => (w, Val (sring_all (rings w) (sput (WsSvc x1) c), f))
    | WsFut _ _ _ _ => panic
    end.
End WakeSpawn.
Arguments WsSvc {W Req Resp Err svc} s.
Arguments WsFut {W Req Resp Err svc} t task queued join.
Arguments WSpawn {W Req Resp Err svc} ws_in ws_next ws_woken ws_log.
