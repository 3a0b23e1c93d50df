(** Models of RateLimit and ConcurrencyLimit (tower/src/limit/). *)
From Verif Require Import Base.
Set Implicit Arguments.

(** ** RateLimit *)

(** limit/rate/rate.rs:16-21: [Rate::new] panics on a zero count or period. *)
Record rate := Rate { r_num : N; r_per : Z }.
Definition rate_new {W} (num : N) (per : Z) : M W rate :=
  if (0 <? num)%N then if (0 <? per)%Z then ret (Rate num per) else panic else panic.

Section RateLimit.
  Context {W Req Resp Err : Type} (rt : Rt W) (rate : rate) (svc : Service W Req Resp Err).

  (** limit/rate/service.rs:14-26 *)
  Inductive rl_state := RlLimited | RlReady (until : Z) (rem : N).
  Record rate_limit_st := RlSt { rl_inner : st svc; rl_st : rl_state; rl_sleep : Z }.

  (** limit/rate/service.rs:30-46 *)
  Definition rate_limit_new (s : st svc) : M W rate_limit_st :=
    t <- get (now rt) ;; ret (RlSt s (RlReady t (r_num rate)) t).

  (** limit/rate/service.rs:64-119.  Simplification: instants are unbounded
      integers (the Rust addition panics beyond the clock's range: see RateClock.v).
      Not [Clone]. *)
  Definition rate_limit : Service W Req Resp Err :=
    MkService rate_limit_st (fut svc)
      (fun s =>
         match rl_st s with
         | RlReady _ _ =>
             '(s1, a) <- poll_ready svc (rl_inner s) ;;
             ret (RlSt s1 (rl_st s) (rl_sleep s), a)
         | RlLimited =>
             b <- sleep_poll rt (rl_sleep s) ;;
             if b then
               t <- get (now rt) ;;
               '(s1, a) <- poll_ready svc (rl_inner s) ;;
               ret (RlSt s1 (RlReady (t + r_per rate) (r_num rate)) (rl_sleep s), a)
             else ret (s, Pending)
         end)
      (fun s r =>
         match rl_st s with
         | RlReady until0 rem0 =>
             t <- get (now rt) ;;
             let reset := (until0 <=? t)%Z in
             let until := if reset then (t + r_per rate)%Z else until0 in
             let rem := if reset then r_num rate else rem0 in
             let '(st1, sleep1) :=
               if (1 <? rem)%N then (RlReady until (rem - 1)%N, rl_sleep s)
               else (RlLimited, until) in
             '(s1, f) <- call svc (rl_inner s) r ;;
             ret (RlSt s1 st1 sleep1, f)
         | RlLimited => panic
         end)
      (poll_fut svc)
      (fun _ => panic)
      (fun s => drop_svc svc (rl_inner s))
      (drop_fut svc).
End RateLimit.

(** ** tokio's fair semaphore, as used through [PollSemaphore]

    [sem_avail] free permits; [sem_queue] waiters in arrival order;
    [sem_granted] waiters that have been handed a permit by a release but whose
    task has not polled again yet. *)
Record sem := Sem { sem_avail : nat; sem_queue : list nat; sem_granted : list nat; sem_next : nat }.

Definition sem_new (max : nat) : sem := Sem max [] [] 0.

(** Dropping a permit: the oldest waiter gets it, else it becomes free. *)
Definition sem_release (m : sem) : sem :=
  match sem_queue m with
  | [] => Sem (S (sem_avail m)) [] (sem_granted m) (sem_next m)
  | i :: q => Sem (sem_avail m) q (i :: sem_granted m) (sem_next m)
  end.

Fixpoint remove_nat (i : nat) (l : list nat) : list nat :=
  match l with [] => [] | j :: l' => if i =? j then l' else j :: remove_nat i l' end.
Definition mem_nat (i : nat) (l : list nat) : bool := existsb (Nat.eqb i) l.

(** PollSemaphore::poll_acquire with an open semaphore.  [wait] is the ticket
    of the acquire future kept inside the [PollSemaphore], if any. *)
Definition sem_poll (wait : option nat) (m : sem) : sem * option nat * bool :=
  match wait with
  | None =>
      match sem_avail m with
      | S a => (Sem a (sem_queue m) (sem_granted m) (sem_next m), None, true)
      | O => (Sem 0 (sem_queue m ++ [sem_next m]) (sem_granted m) (S (sem_next m)),
              Some (sem_next m), false)
      end
  | Some i =>
      if mem_nat i (sem_granted m)
      then (Sem (sem_avail m) (sem_queue m) (remove_nat i (sem_granted m)) (sem_next m), None, true)
      else (m, Some i, false)
  end.

(** Dropping a pending acquire future: leave the queue, or give the permit back. *)
Definition sem_forget (wait : option nat) (m : sem) : sem :=
  match wait with
  | None => m
  | Some i =>
      if mem_nat i (sem_granted m)
      then sem_release (Sem (sem_avail m) (sem_queue m) (remove_nat i (sem_granted m)) (sem_next m))
      else Sem (sem_avail m) (remove_nat i (sem_queue m)) (sem_granted m) (sem_next m)
  end.

(** ** ConcurrencyLimit *)
Section ConcurrencyLimit.
  Context {W Req Resp Err : Type} (svc : Service W Req Resp Err).

  (** The shared semaphore is part of the world. *)
  Definition lift_snd {A} (m : M W A) : M (sem * W) A :=
    fun x => match m (snd x) with (w1, o) => ((fst x, w1), o) end.

  (** limit/concurrency/service.rs:15-24: [cl_wait] is the [PollSemaphore]'s
      own state, [cl_permit] says whether the permit is held. *)
  Record conc_st := ConcSt { cl_inner : st svc; cl_wait : option nat; cl_permit : bool }.
  (** limit/concurrency/service.rs:28-39 *)
  Definition conc_new (s : st svc) : conc_st := ConcSt s None false.

  (** limit/concurrency/service.rs:57-107, limit/concurrency/future.rs.
      The response future owns the permit and releases it when *dropped*.
      [closed w]: has the user closed the semaphore (possible only through
      [with_semaphore]); [debug]: are [debug_assert!]s compiled in.
      Field drop order: service (inner, PollSemaphore, permit), future (inner,
      permit). *)
  Definition conc_limit (closed : W -> bool) (debug : bool) : Service (sem * W) Req Resp Err :=
    MkService conc_st (fut svc)
      (fun s =>
         let poll_inner wait permit :=
           '(s1, a) <- lift_snd (poll_ready svc (cl_inner s)) ;;
           ret (ConcSt s1 wait permit, a) in
         if cl_permit s then poll_inner (cl_wait s) true
         else
           cl <- get (fun x => closed (snd x)) ;;
           if cl then
             if debug then panic
             else poll_inner None false
           else
             m <- get fst ;;
             let '(m1, wait1, got) := sem_poll (cl_wait s) m in
             modify (fun x => (m1, snd x)) ;;;
             if got then poll_inner wait1 true
             else ret (ConcSt (cl_inner s) wait1 false, Pending))
      (fun s r =>
         if cl_permit s then
           '(s1, f) <- lift_snd (call svc (cl_inner s) r) ;;
           ret (ConcSt s1 (cl_wait s) false, f)
         else panic)
      (fun f => lift_snd (poll_fut svc f))
      (fun s => s1 <- lift_snd (clone svc (cl_inner s)) ;; ret (ConcSt s1 None false))
      (fun s x =>
         let w1 := drop_svc svc (cl_inner s) (snd x) in
         let m1 := sem_forget (cl_wait s) (fst x) in
         let m2 := if cl_permit s then sem_release m1 else m1 in
         (m2, w1))
      (fun f x => (sem_release (fst x), drop_fut svc f (snd x))).
End ConcurrencyLimit.
