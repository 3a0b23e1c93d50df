(** Model of RateLimit once more, with the range of the clock: Limits.v computes with unbounded integers, but
    [Instant + Duration] panics when the result cannot be represented ("overflow when adding duration to instant"). *)
From Verif Require Import Base Limits.
Set Implicit Arguments.

Section RateClock.
  Context {W Req Resp Err : Type} (rt : Rt W) (rate : rate) (svc : Service W Req Resp Err).
  (** The last instant the platform's clock can represent. *)
  Context (top : Z).

  (** [Instant::now() + self.rate.per()] *)
  Definition next_window : M W Z :=
    t <- get (now rt) ;; if (t + r_per rate <=? top)%Z then ret (t + r_per rate)%Z else panic.

  (** limit/rate/service.rs:64-119.  In [poll_ready] the sum is computed after the timer has fired and before the
      wrapped service is asked, in [call] before anything is changed. *)
  Definition rate_limit_clock : Service W Req Resp Err :=
    MkService (rate_limit_st svc) (fut svc)
      (fun s =>
         match rl_st s with
         | RlReady _ _ =>
             '(s1, a) <- poll_ready svc (rl_inner s) ;;
             ret (RlSt svc s1 (rl_st s) (rl_sleep s), a)
         | RlLimited =>
             b <- sleep_poll rt (rl_sleep s) ;;
             if b then
               until <- next_window ;;
               '(s1, a) <- poll_ready svc (rl_inner s) ;;
               ret (RlSt svc s1 (RlReady until (r_num rate)) (rl_sleep s), a)
             else ret (s, Pending)
         end)
      (fun s r =>
         match rl_st s with
         | RlReady until0 rem0 =>
             t <- get (now rt) ;;
             let go until rem :=
               let '(st1, sleep1) :=
                 if (1 <? rem)%N then (RlReady until (rem - 1)%N, rl_sleep s)
                 else (RlLimited, until) in
               '(s1, f) <- call svc (rl_inner s) r ;;
               ret (RlSt svc s1 st1 sleep1, f) in
             if (until0 <=? t)%Z then until <- next_window ;; go until (r_num rate) else go until0 rem0
         | RlLimited => panic
         end)
      (poll_fut svc)
      (fun _ => panic)
      (fun s => drop_svc svc (rl_inner s))
      (drop_fut svc).
End RateClock.
