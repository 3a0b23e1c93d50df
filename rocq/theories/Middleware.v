(** Models of the per-request middleware in tower/src/: Timeout, LoadShed,
    Filter, AsyncFilter, Retry, Steer, Reconnect, SpawnReady. *)
From Verif Require Import Base Util.
Set Implicit Arguments.

(** ** Timeout *)
Section Timeout.
  Context {W Req Resp Err : Type} (rt : Rt W) (dur : Z) (svc : Service W Req Resp Err).

  (** tower/src/timeout/future.rs:13-24: the inner future and the deadline of
      its [Sleep]. *)
  Record timeout_fut := TimeoutFut { to_inner : fut svc; to_deadline : Z }.

  (** timeout/mod.rs:49-70 and timeout/future.rs:32-53.  The deadline is taken
      *after* the inner [call] returned.  Errors: [inl e] inner, [inr tt] Elapsed.
      Simplification: durations and instants are unbounded integers (tokio caps
      an overflowing deadline at "far future"). *)
  Definition timeout : Service W Req Resp (Err + unit) :=
    MkService (st svc) timeout_fut
      (fun s => '(s1, a) <- poll_ready svc s ;; ret (s1, poll_map (map_er inl) a))
      (fun s r =>
         '(s1, f) <- call svc s r ;;
         t <- get (now rt) ;;
         ret (s1, TimeoutFut f (t + dur)%Z))
      (fun f =>
         x <- poll_fut svc (to_inner f) ;;
         match x with
         | (f1, Ready v) => ret (TimeoutFut f1 (to_deadline f), Ready (map_er inl v))
         | (f1, Pending) =>
             b <- sleep_poll rt (to_deadline f) ;;
             if b then ret (TimeoutFut f1 (to_deadline f), Ready (Er (inr tt)))
             else ret (TimeoutFut f1 (to_deadline f), Pending)
         end)
      (fun s => clone svc s)
      (fun s => drop_svc svc s)
      (fun f => drop_fut svc (to_inner f)).
End Timeout.

(** ** LoadShed *)
Section LoadShed.
  Context {W Req Resp Err : Type} (svc : Service W Req Resp Err).

  (** load_shed/mod.rs:15-22 *)
  Record load_shed_st := LoadShedSt { ls_inner : st svc; ls_ready : bool }.
  (** load_shed/mod.rs:27-34 *)
  Definition load_shed_new (s : st svc) : load_shed_st := LoadShedSt s false.

  (** load_shed/mod.rs:36-76, load_shed/future.rs:48-63.  [Some f] is
      [ResponseState::Called], [None] is [Overloaded].  Errors: [inl e] inner,
      [inr tt] Overloaded. *)
  Definition load_shed : Service W Req Resp (Err + unit) :=
    MkService load_shed_st (option (fut svc))
      (fun s =>
         '(s1, a) <- poll_ready svc (ls_inner s) ;;
         match a with
         | Ready (Er e) => ret (LoadShedSt s1 (ls_ready s), Ready (Er (inl e)))
         | Ready (Ok _) => ret (LoadShedSt s1 true, Ready (Ok tt))
         | Pending => ret (LoadShedSt s1 false, Ready (Ok tt))
         end)
      (fun s r =>
         if ls_ready s
         then '(s1, f) <- call svc (ls_inner s) r ;; ret (LoadShedSt s1 false, Some f)
         else ret (s, None))
      (fun f =>
         match f with
         | Some f0 => '(f1, p) <- poll_fut svc f0 ;; ret (Some f1, poll_map (map_er inl) p)
         | None => ret (None, Ready (Er (inr tt)))
         end)
      (fun s => s1 <- clone svc (ls_inner s) ;; ret (LoadShedSt s1 false))
      (fun s => drop_svc svc (ls_inner s))
      (fun f => match f with Some f0 => drop_fut svc f0 | None => fun w => w end).
End LoadShed.

(** ** Filter and AsyncFilter *)
Section Filter.
  Context {W Req Req' Resp Err PErr : Type} (svc : Service W Req Resp Err).

  (** filter/mod.rs:99-120, filter/predicate.rs.  The predicate has its own
      state [P] ([check] takes [&mut self]; cloned by [pclone]).
      The rejected case is [futures_util::future::Ready] ([inl]); the accepted
      one is [ErrInto] around the inner future ([inr]), a [Map]-like future.
      Errors: [inl e] inner, [inr e] the predicate's. *)
  Definition filter {P : Type} (check : P -> Req' -> M W (P * result Req PErr))
    (pclone : P -> M W P)
    : Service W Req' Resp (Err + PErr) :=
    MkService (st svc * P) (option PErr + option (fut svc))
      (fun s => '(s1, a) <- poll_ready svc (fst s) ;; ret ((s1, snd s), poll_map (map_er inl) a))
      (fun s r =>
         '(p1, v) <- check (snd s) r ;;
         match v with
         | Ok r1 => '(s1, f) <- call svc (fst s) r1 ;; ret ((s1, p1), inr (Some f))
         | Er e => ret ((fst s, p1), inl (Some e))
         end)
      (fun f =>
         match f with
         | inl (Some e) => ret (inl None, Ready (Er (inr e)))
         | inl None => panic
         | inr f0 =>
             '(f1, p) <- map_poll (poll_fut svc) (drop_fut svc) (fun r => ret (map_er inl r)) f0 ;;
             ret (inr f1, p)
         end)
      (fun s => s1 <- clone svc (fst s) ;; p1 <- pclone (snd s) ;; ret (s1, p1))
      (fun s => drop_svc svc (fst s))
      (fun f => match f with inl _ => fun w => w | inr f0 => map_drop (drop_fut svc) f0 end).

  (** filter/future.rs:19-56 *)
  Inductive afilter_state (C : Type) := AfCheck (c : C) | AfWait (f : fut svc).
  Arguments AfCheck {C} c.
  Arguments AfWait {C} f.
  Record afilter_fut (C : Type) := AfFut { af_state : afilter_state C; af_svc : st svc }.

  (** filter/mod.rs:155-191 and filter/future.rs:71-98.  [call] clones the inner
      service, moves the *ready* original into the future and keeps the clone.
      The loop of [poll] runs at most twice, so it is unrolled. *)
  Definition async_filter {P : Type} (T : Task W (result Req PErr))
    (check : P -> Req' -> M W (P * tst T)) (pclone : P -> M W P)
    : Service W Req' Resp (Err + PErr) :=
    MkService (st svc * P) (afilter_fut (tst T))
      (fun s => '(s1, a) <- poll_ready svc (fst s) ;; ret ((s1, snd s), poll_map (map_er inl) a))
      (fun s r =>
         s1 <- clone svc (fst s) ;;
         '(p1, c) <- check (snd s) r ;;
         ret ((s1, p1), AfFut (AfCheck c) (fst s)))
      (fun f =>
         let wait x s :=
           '(x1, p) <- poll_fut svc x ;; ret (AfFut (AfWait x1) s, poll_map (map_er inl) p) in
         match af_state f with
         | AfCheck c =>
             '(c1, p) <- tpoll T c ;;
             match p with
             | Pending => ret (AfFut (AfCheck c1) (af_svc f), Pending)
             | Ready (Er e) => ret (AfFut (AfCheck c1) (af_svc f), Ready (Er (inr e)))
             | Ready (Ok r) =>
                 '(s1, x) <- call svc (af_svc f) r ;;
                 modify (tdrop T c1) ;;;
                 wait x s1
             end
         | AfWait x => wait x (af_svc f)
         end)
      (fun s => s1 <- clone svc (fst s) ;; p1 <- pclone (snd s) ;; ret (s1, p1))
      (fun s => drop_svc svc (fst s))
      (fun f w =>
         drop_svc svc (af_svc f)
           (match af_state f with AfCheck c => tdrop T c w | AfWait x => drop_fut svc x w end)).
End Filter.
Arguments AfCheck {W Req Resp Err svc C} c.
Arguments AfWait {W Req Resp Err svc C} f.

(** ** Retry *)

(** tower/src/retry/policy.rs:47-94, trait [Policy].  [retry] may change both
    the stored request and the result. *)
Record Policy (W Req Resp Err : Type) := MkPolicy {
  pst : Type;
  pfut : Task W unit;
  clone_request : pst -> Req -> M W (pst * option Req);
  retry_decide : pst -> Req -> result Resp Err ->
                 M W (pst * Req * result Resp Err * option (tst pfut));
  pol_clone : pst -> M W pst
}.

Section Retry.
  Context {W Req Resp Err : Type} (pol : Policy W Req Resp Err) (svc : Service W Req Resp Err).

  (** retry/future.rs:27-44 *)
  Inductive retry_state :=
  | RCalled (f : fut svc)
  | RWaiting (t : tst (pfut pol))
  | RRetrying.
  (** retry/future.rs:12-25: [request], the cloned [Retry] (policy and service)
      and the state. *)
  Record retry_fut := RetryFut {
    rf_req : option Req; rf_pol : pst pol; rf_svc : st svc; rf_state : retry_state }.

  (** One iteration of the loop, retry/future.rs:74-118.  [inl] = the loop goes
      around again, [inr] = [poll] returns. *)
  Definition retry_iter (f : retry_fut)
    : M W (retry_fut + retry_fut * poll (result Resp Err)) :=
    match rf_state f with
    | RCalled x =>
        '(x1, p) <- poll_fut svc x ;;
        match p with
        | Pending => ret (inr (RetryFut (rf_req f) (rf_pol f) (rf_svc f) (RCalled x1), Pending))
        | Ready res =>
            match rf_req f with
            | Some req =>
                '(p1, req1, res1, dec) <- retry_decide pol (rf_pol f) req res ;;
                match dec with
                | Some t =>
                    modify (drop_fut svc x1) ;;;
                    ret (inl (RetryFut (Some req1) p1 (rf_svc f) (RWaiting t)))
                | None =>
                    ret (inr (RetryFut (Some req1) p1 (rf_svc f) (RCalled x1), Ready res1))
                end
            | None => ret (inr (RetryFut None (rf_pol f) (rf_svc f) (RCalled x1), Ready res))
            end
        end
    | RWaiting t =>
        '(t1, p) <- tpoll (pfut pol) t ;;
        match p with
        | Pending => ret (inr (RetryFut (rf_req f) (rf_pol f) (rf_svc f) (RWaiting t1), Pending))
        | Ready _ =>
            modify (tdrop (pfut pol) t1) ;;;
            ret (inl (RetryFut (rf_req f) (rf_pol f) (rf_svc f) RRetrying))
        end
    | RRetrying =>
        '(s1, p) <- poll_ready svc (rf_svc f) ;;
        match p with
        | Pending => ret (inr (RetryFut (rf_req f) (rf_pol f) s1 RRetrying, Pending))
        | Ready (Er e) => ret (inr (RetryFut (rf_req f) (rf_pol f) s1 RRetrying, Ready (Er e)))
        | Ready (Ok _) =>
            match rf_req f with
            | None => panic
            | Some req =>
                '(p1, saved) <- clone_request pol (rf_pol f) req ;;
                '(s2, x) <- call svc s1 req ;;
                ret (inl (RetryFut saved p1 s2 (RCalled x)))
            end
        end
    end.

  (** The loop itself; it is unbounded in Rust, so it runs on fuel here. *)
  Fixpoint retry_poll (fuel : nat) (f : retry_fut) : M W (retry_fut * poll (result Resp Err)) :=
    match fuel with
    | O => diverge
    | S n =>
        x <- retry_iter f ;;
        match x with
        | inl f1 => retry_poll n f1
        | inr r => ret r
        end
    end.

  (** retry/mod.rs:72-94 *)
  Definition retry (fuel : nat) : Service W Req Resp Err :=
    MkService (pst pol * st svc) retry_fut
      (fun s => '(s1, a) <- poll_ready svc (snd s) ;; ret ((fst s, s1), a))
      (fun s r =>
         '(p1, saved) <- clone_request pol (fst s) r ;;
         '(s1, x) <- call svc (snd s) r ;;
         p2 <- pol_clone pol p1 ;;
         s2 <- clone svc s1 ;;
         ret ((p1, s1), RetryFut saved p2 s2 (RCalled x)))
      (retry_poll fuel)
      (fun s => p1 <- pol_clone pol (fst s) ;; s1 <- clone svc (snd s) ;; ret (p1, s1))
      (fun s => drop_svc svc (snd s))
      (fun f w =>
         let w1 := drop_svc svc (rf_svc f) w in
         match rf_state f with
         | RCalled x => drop_fut svc x w1
         | RWaiting t => tdrop (pfut pol) t w1
         | RRetrying => w1
         end).
End Retry.
Arguments RCalled {W Req Resp Err pol svc} f.
Arguments RWaiting {W Req Resp Err pol svc} t.
Arguments RRetrying {W Req Resp Err pol svc}.

(** ** Steer *)
Section Steer.
  Context {W Req Resp Err : Type} (svc : Service W Req Resp Err).

  (** steer/mod.rs:107-112.  [P] is the router's own state. *)
  Record steer_st (P : Type) := SteerSt {
    sr_router : P; sr_services : list (st svc); sr_not_ready : list nat }.

  (** Vec update in place. *)
  Fixpoint set_nth {A} (i : nat) (x : A) (l : list A) : list A :=
    match l, i with
    | [], _ => []
    | _ :: l', O => x :: l'
    | y :: l', S i' => y :: set_nth i' x l'
    end.

  (** steer/mod.rs:118-127: initially every service is not ready. *)
  Definition steer_new {P} (services : list (st svc)) (router : P) : steer_st P :=
    SteerSt router services (seq 0 (length services)).

  (** steer/mod.rs:139-156.  Each iteration either returns or pops one index,
      so the recursion is on the [not_ready] queue.  Indexing out of range
      panics. *)
  Fixpoint steer_poll (services : list (st svc)) (nr : list nat)
    : M W (list (st svc) * list nat * poll (result unit Err)) :=
    match nr with
    | [] => ret (services, [], Ready (Ok tt))
    | i :: nr' =>
        match nth_error services i with
        | None => panic
        | Some s =>
            '(s1, p) <- poll_ready svc s ;;
            let services1 := set_nth i s1 services in
            match p with
            | Ready (Er e) => ret (services1, nr, Ready (Er e))
            | Pending => ret (services1, nr, Pending)
            | Ready (Ok _) => steer_poll services1 nr'
            end
        end
    end.

  Fixpoint clone_all (l : list (st svc)) : M W (list (st svc)) :=
    match l with
    | [] => ret []
    | s :: l' => s1 <- clone svc s ;; l1 <- clone_all l' ;; ret (s1 :: l1)
    end.

  (** steer/mod.rs:130-184.  [pick] is [Picker::pick]; it sees the request and
      the services.  [clone] copies [not_ready] as it is. *)
  Definition steer {P} (pick : P -> Req -> list (st svc) -> M W (P * nat))
    (pclone : P -> M W P) : Service W Req Resp Err :=
    MkService (steer_st P) (fut svc)
      (fun s =>
         '(services, nr, p) <- steer_poll (sr_services s) (sr_not_ready s) ;;
         ret (SteerSt (sr_router s) services nr, p))
      (fun s r =>
         match sr_not_ready s with
         | _ :: _ => panic
         | [] =>
             '(p1, idx) <- pick (sr_router s) r (sr_services s) ;;
             match nth_error (sr_services s) idx with
             | None => panic
             | Some x =>
                 '(x1, f) <- call svc x r ;;
                 ret (SteerSt p1 (set_nth idx x1 (sr_services s)) [idx], f)
             end
         end)
      (poll_fut svc)
      (fun s =>
         p1 <- pclone (sr_router s) ;;
         l1 <- clone_all (sr_services s) ;;
         ret (SteerSt p1 l1 (sr_not_ready s)))
      (fun s w => fold_left (fun w x => drop_svc svc x w) (sr_services s) w)
      (drop_fut svc).
End Steer.

(** ** Reconnect *)
Section Reconnect.
  Context {W Tgt Req Resp Err MErr : Type}.
  Context (svc : Service W Req Resp Err) (mk : Service W Tgt (st svc) MErr) (target : Tgt).

  (** reconnect/mod.rs:30-45 *)
  Inductive rc_state := RcIdle | RcConnecting (f : fut mk) | RcConnected (s : st svc).
  Record reconnect_st := RcSt { rc_mk : st mk; rc_st : rc_state; rc_err : option MErr }.

  (** reconnect/mod.rs:52-69 *)
  Definition reconnect_new (m : st mk) : reconnect_st := RcSt m RcIdle None.
  Definition reconnect_with_connection (c : st svc) (m : st mk) : reconnect_st :=
    RcSt m (RcConnected c) None.

  (** One iteration of the loop, reconnect/mod.rs:85-137; [inl] = go around
      again.  [inl e]/[inr e] errors: the inner service's / the connector's. *)
  Definition reconnect_iter (s : reconnect_st)
    : M W (reconnect_st + reconnect_st * poll (result unit (Err + MErr))) :=
    match rc_st s with
    | RcIdle =>
        '(m1, p) <- poll_ready mk (rc_mk s) ;;
        match p with
        | Pending => ret (inr (RcSt m1 RcIdle (rc_err s), Pending))
        | Ready (Er e) => ret (inr (RcSt m1 RcIdle (rc_err s), Ready (Er (inr e))))
        | Ready (Ok _) =>
            '(m2, f) <- call mk m1 target ;;
            ret (inl (RcSt m2 (RcConnecting f) (rc_err s)))
        end
    | RcConnecting f =>
        '(f1, p) <- poll_fut mk f ;;
        match p with
        | Pending => ret (inr (RcSt (rc_mk s) (RcConnecting f1) (rc_err s), Pending))
        | Ready (Ok c) =>
            modify (drop_fut mk f1) ;;;
            ret (inl (RcSt (rc_mk s) (RcConnected c) (rc_err s)))
        | Ready (Er e) =>
            modify (drop_fut mk f1) ;;;
            ret (inr (RcSt (rc_mk s) RcIdle (Some e), Ready (Ok tt)))
        end
    | RcConnected c =>
        '(c1, p) <- poll_ready svc c ;;
        match p with
        | Ready (Ok _) => ret (inr (RcSt (rc_mk s) (RcConnected c1) (rc_err s), Ready (Ok tt)))
        | Pending => ret (inr (RcSt (rc_mk s) (RcConnected c1) (rc_err s), Pending))
        | Ready (Er _) =>
            modify (drop_svc svc c1) ;;;
            ret (inl (RcSt (rc_mk s) RcIdle (rc_err s)))
        end
    end.

  Fixpoint reconnect_poll (fuel : nat) (s : reconnect_st)
    : M W (reconnect_st * poll (result unit (Err + MErr))) :=
    match fuel with
    | O => diverge
    | S n =>
        x <- reconnect_iter s ;;
        match x with inl s1 => reconnect_poll n s1 | inr r => ret r end
    end.

  (** reconnect/mod.rs:72-155 and reconnect/future.rs:55-73.  A [Reconnect] is
      not [Clone]; [clone] below is unused and panics. *)
  Definition reconnect (fuel : nat) : Service W Req Resp (Err + MErr) :=
    MkService reconnect_st (fut svc + option MErr)
      (reconnect_poll fuel)
      (fun s r =>
         match rc_err s with
         | Some e => ret (RcSt (rc_mk s) (rc_st s) None, inr (Some e))
         | None =>
             match rc_st s with
             | RcConnected c =>
                 '(c1, f) <- call svc c r ;;
                 ret (RcSt (rc_mk s) (RcConnected c1) None, inl f)
             | _ => panic
             end
         end)
      (fun f =>
         match f with
         | inl x => '(x1, p) <- poll_fut svc x ;; ret (inl x1, poll_map (map_er inl) p)
         | inr (Some e) => ret (inr None, Ready (Er (inr e)))
         | inr None => panic
         end)
      (fun _ => panic)
      (fun s w =>
         let w1 := drop_svc mk (rc_mk s) w in
         match rc_st s with
         | RcIdle => w1
         | RcConnecting f => drop_fut mk f w1
         | RcConnected c => drop_svc svc c w1
         end)
      (fun f => match f with inl x => drop_fut svc x | inr _ => fun w => w end).
End Reconnect.
Arguments RcIdle {W Tgt Req Resp Err MErr svc mk}.
Arguments RcConnecting {W Tgt Req Resp Err MErr svc mk} f.
Arguments RcConnected {W Tgt Req Resp Err MErr svc mk} s.
