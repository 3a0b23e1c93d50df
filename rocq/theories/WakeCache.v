(** Model of tower/src/ready_cache/cache.rs and tower/src/balance/p2c/service.rs with wakers: which services
    FuturesUnordered polls is not left to an oracle (as in ReadyCache.v) but follows from which wakers fired. *)
From Verif Require Import Base Util Middleware ReadyCache.
Set Implicit Arguments.

(** A waker handed to a service with [poll_ready]: that of the task that owns the cache, or the one which
    FuturesUnordered makes for its child number [t]. *)
Inductive waker := WkTask | WkChild (t : nat).
(** History variable: a service (by number) was asked for readiness with a waker, and whether it answered
    [Pending]; a waker fired; discovery was polled (with the waker of the task), and whether it answered with a
    change ([DChange]), with [Pending] or with the end of the stream. *)
Inductive disc_ans := DChange | DPending | DEnd.
Inductive wevent := EPoll (i : nat) (k : waker) (pending : bool) | ERing (k : waker) | EDisc (a : disc_ans).

Section WakeCache.
  Context {W K Req Resp Err : Type} (keq : forall a b : K, {a = b} + {a <> b}).
  Context (svc : Service W Req Resp Err).
  (** Any waker can fire at any time, from any thread, with or without a reason.  [rings w]: those that fire
      while FuturesUnordered polls or drops one child, or during another operation of the cache, given the world
      afterwards. *)
  Context (rings : W -> list waker).
  (** FuturesUnordered gives up before its queue is empty if too many children woke themselves, or enough were
      polled: a rule on those two numbers and the number of children.  It then wakes the task. *)
  Context (stop : nat -> nat -> nat -> bool).

  (** cache.rs:97-108 as a child of FuturesUnordered; see [pend] in ReadyCache.v.  [wt_sid] numbers the services. *)
  Record wtask := WTask { wt_id : nat; wt_sid : nat; wt_key : K; wt_pair : nat; wt_svc : st svc }.
  (** futures-util's FuturesUnordered: its children, the queue of those to poll (a child that is gone can still
      stand in it), the next number, and whether its AtomicWaker holds the waker of the task. *)
  Record wfu := Fu { fu_tasks : list wtask; fu_queue : list nat; fu_next : nat; fu_parent : bool }.
  (** cache.rs:58-92 without [pending]: the maps, the cancelation flags that are set, for each cancelation pair
      the child whose waker its AtomicWaker holds, and the next pair and service. *)
  Record windex := Ix {
    ix_txs : list (K * nat); ix_ready : list (K * (nat * st svc * nat));
    ix_canceled : list nat; ix_regs : list (nat * nat); ix_fresh : nat; ix_sids : nat }.
  (** [wc_woken]: the task has been woken since it last began to poll the cache. *)
  Record wcache := WCache { wc_fu : wfu; wc_ix : windex; wc_woken : bool; wc_log : list wevent }.
  (** cache.rs:112-123 *)
  Definition wcache_new : wcache := WCache (Fu [] [] 0 false) (Ix [] [] [] [] 0 0) false [].

  Definition memn (t : nat) (l : list nat) : bool := existsb (Nat.eqb t) l.
  Definition live (t : nat) (l : list wtask) : bool := memn t (map wt_id l).
  Fixpoint find_task (t : nat) (l : list wtask) : option wtask :=
    match l with [] => None | p :: l' => if wt_id p =? t then Some p else find_task t l' end.
  Definition del_task (t : nat) (l : list wtask) : list wtask := List.filter (fun p => negb (wt_id p =? t)) l.
  Definition put_svc (t : nat) (s : st svc) (l : list wtask) : list wtask :=
    map (fun p => if wt_id p =? t then WTask t (wt_sid p) (wt_key p) (wt_pair p) s else p) l.
  Fixpoint find_reg (x : nat) (l : list (nat * nat)) : option nat :=
    match l with [] => None | (y, t) :: l' => if y =? x then Some t else find_reg x l' end.
  Definition del_reg (x : nat) (l : list (nat * nat)) : list (nat * nat) := List.filter (fun e => negb (fst e =? x)) l.

  Definition with_fu (f : wfu) (c : wcache) : wcache := WCache f (wc_ix c) (wc_woken c) (wc_log c).
  Definition with_ix (x : windex) (c : wcache) : wcache := WCache (wc_fu c) x (wc_woken c) (wc_log c).
  Definition with_woken (b : bool) (c : wcache) : wcache := WCache (wc_fu c) (wc_ix c) b (wc_log c).
  Definition logged (e : wevent) (c : wcache) : wcache := WCache (wc_fu c) (wc_ix c) (wc_woken c) (e :: wc_log c).

  (** A waker fires.  That of a child (futures-util, [Task::wake_by_ref]): a child that still exists and is not
      queued is put into the queue, and the waker in FuturesUnordered's AtomicWaker, if any, is taken and fires. *)
  Definition ring (k : waker) (c : wcache) : wcache :=
    match k with
    | WkTask => logged (ERing k) (with_woken true c)
    | WkChild t =>
        let f := wc_fu c in
        if live t (fu_tasks f) && negb (memn t (fu_queue f))
        then logged (ERing k) (WCache (Fu (fu_tasks f) (fu_queue f ++ [t]) (fu_next f) false) (wc_ix c)
                                 (wc_woken c || fu_parent f) (wc_log c))
        else logged (ERing k) c
    end.
  Definition ring_all (l : list waker) (c : wcache) : wcache := fold_left (fun c k => ring k c) l c.

  (** cache.rs:426-431, [CancelTx::cancel]: set the flag; [AtomicWaker::wake] takes the waker and fires it. *)
  Definition cancel (x : nat) (c : wcache) : wcache :=
    let i := wc_ix c in
    let c1 := with_ix (Ix (ix_txs i) (ix_ready i) (x :: ix_canceled i) (del_reg x (ix_regs i)) (ix_fresh i) (ix_sids i)) c in
    match find_reg x (ix_regs i) with None => c1 | Some t => ring (WkChild t) c1 end.
  (** cache.rs:463-464, [AtomicWaker::register]: replaces the waker. *)
  Definition register (x t : nat) (c : wcache) : wcache :=
    let i := wc_ix c in
    with_ix (Ix (ix_txs i) (ix_ready i) (ix_canceled i) ((x, t) :: del_reg x (ix_regs i)) (ix_fresh i) (ix_sids i)) c.
  Definition set_maps (txs : list (K * nat)) (ready : list (K * (nat * st svc * nat))) (c : wcache) : wcache :=
    let i := wc_ix c in
    with_ix (Ix txs ready (ix_canceled i) (ix_regs i) (ix_fresh i) (ix_sids i)) c.

  Definition fired (c : wcache) : M W wcache := fun w => (w, Val (ring_all (rings w) c)).

  (** cache.rs:151-173 *)
  Definition wready_len (c : wcache) : nat := length (ix_ready (wc_ix c)).
  Definition wpending_len (c : wcache) : nat := length (fu_tasks (wc_fu c)).
  Definition wpending_contains (c : wcache) (k : K) : bool :=
    match im_find keq k (ix_txs (wc_ix c)) with Some _ => true | None => false end.

  (** cache.rs:217-229 *)
  Definition wevict (c : wcache) (k : K) : M W (wcache * bool) :=
    let '(c1, hit) :=
      match im_swap_remove keq k (ix_txs (wc_ix c)) with
      | Some (x, txs1) => (cancel x (set_maps txs1 (ix_ready (wc_ix c)) c), true)
      | None => (c, false)
      end in
    match im_swap_remove keq k (ix_ready (wc_ix c1)) with
    | Some ((_, s, _), ready1) =>
        modify (drop_svc svc s) ;;; c2 <- fired (set_maps (ix_txs (wc_ix c1)) ready1 c1) ;; ret (c2, true)
    | None => ret (c1, hit)
    end.

  (** cache.rs:254-265; FuturesUnordered::push: the new child is queued, nothing is woken. *)
  Definition wpush_pending (c : wcache) (k : K) (sid : nat) (s : st svc) (x : nat) : wcache :=
    let '(txs1, old) := im_insert keq k x (ix_txs (wc_ix c)) in
    let c1 := set_maps txs1 (ix_ready (wc_ix c)) c in
    let c2 := match old with Some x0 => cancel x0 c1 | None => c1 end in
    let f := wc_fu c2 in
    with_fu (Fu (fu_tasks f ++ [WTask (fu_next f) sid k x s]) (fu_queue f ++ [fu_next f]) (S (fu_next f)) (fu_parent f)) c2.
  (** cache.rs:249-252 *)
  Definition wpush (c : wcache) (k : K) (s : st svc) : wcache :=
    let i := wc_ix c in
    wpush_pending (with_ix (Ix (ix_txs i) (ix_ready i) (ix_canceled i) (ix_regs i) (S (ix_fresh i)) (S (ix_sids i))) c)
      k (ix_sids i) s (ix_fresh i).

  (** See [pend_out] in ReadyCache.v. *)
  Inductive wout := WoReady (k : K) (sid : nat) (s : st svc) (x : nat) | WoCanceled (k : K) | WoFailed (k : K) (e : Err).

  (** FuturesUnordered::poll_next after registering the task's waker, with [Pending::poll] (cache.rs:441-482)
      inlined.  [yielded]: how many children woke themselves while polled; [polled]: how many answered [Pending]. *)
  Fixpoint fu_loop (fuel yielded polled len : nat) (c : wcache) : M W (wcache * poll (option wout)) :=
    match fuel with
    | O => diverge
    | S n =>
        let f := wc_fu c in
        match fu_queue f with
        | [] => ret (c, match fu_tasks f with [] => Ready None | _ => Pending end)
        | t :: q =>
            let c1 := with_fu (Fu (fu_tasks f) q (fu_next f) (fu_parent f)) c in
            match find_task t (fu_tasks f) with
            | None => fu_loop n yielded polled len c1
            | Some p =>
                let gone := with_fu (Fu (del_task t (fu_tasks f)) q (fu_next f) (fu_parent f)) c in
                if memn (wt_pair p) (ix_canceled (wc_ix c)) then
                  modify (drop_svc svc (wt_svc p)) ;;;
                  c2 <- fired gone ;; ret (c2, Ready (Some (WoCanceled (wt_key p))))
                else
                  '(s1, a) <- poll_ready svc (wt_svc p) ;;
                  let polled_with b c := logged (EPoll (wt_sid p) (WkChild t) b) c in
                  match a with
                  | Pending =>
                      c3 <- fired (register (wt_pair p) t (polled_with true
                              (with_fu (Fu (put_svc t s1 (fu_tasks f)) q (fu_next f) (fu_parent f)) c))) ;;
                      let y := if memn t (fu_queue (wc_fu c3)) then S yielded else yielded in
                      if stop y (S polled) len then ret (with_woken true c3, Pending)
                      else fu_loop n y (S polled) len c3
                  | Ready (Ok _) =>
                      c2 <- fired (polled_with false gone) ;;
                      ret (c2, Ready (Some (WoReady (wt_key p) (wt_sid p) s1 (wt_pair p))))
                  | Ready (Er e) =>
                      modify (drop_svc svc s1) ;;;
                      c2 <- fired (polled_with false gone) ;; ret (c2, Ready (Some (WoFailed (wt_key p) e)))
                  end
            end
        end
    end.
  Definition wpoll_next (c : wcache) : M W (wcache * poll (option wout)) :=
    let f := wc_fu c in
    fu_loop (S (length (fu_queue f) + length (fu_tasks f))) 0 0 (length (fu_tasks f))
      (with_fu (Fu (fu_tasks f) (fu_queue f) (fu_next f) true) c).

  (** cache.rs:281-315 *)
  Fixpoint wpoll_pending_loop (fuel : nat) (c : wcache) : M W (wcache * poll (result unit (K * Err))) :=
    match fuel with
    | O => diverge
    | S n =>
        '(c1, p) <- wpoll_next c ;;
        let i := wc_ix c1 in
        match p with
        | Pending => ret (c1, Pending)
        | Ready None => ret (c1, Ready (Ok tt))
        | Ready (Some (WoReady k sid s x)) =>
            match im_swap_remove keq k (ix_txs i) with
            | None => panic
            | Some (tx, txs1) =>
                let '(ready1, old) := im_insert keq k (sid, s, tx) (ix_ready i) in
                modify (match old with Some (_, s0, _) => drop_svc svc s0 | None => fun w => w end) ;;;
                wpoll_pending_loop n (set_maps txs1 ready1 c1)
            end
        | Ready (Some (WoCanceled _)) => wpoll_pending_loop n c1
        | Ready (Some (WoFailed k e)) =>
            match im_swap_remove keq k (ix_txs i) with
            | None => panic
            | Some (_, txs1) => ret (set_maps txs1 (ix_ready i) c1, Ready (Er (k, e)))
            end
        end
    end.
  (** Every iteration that does not return removes a child. *)
  Definition wpoll_pending (c : wcache) : M W (wcache * poll (result unit (K * Err))) :=
    wpoll_pending_loop (S (wpending_len c)) c.

  (** cache.rs:338-373: here the service is polled with the waker of the task. *)
  Definition wcheck_ready_index (c : wcache) (n : nat) : M W (wcache * result bool (K * Err)) :=
    match nth_error (ix_ready (wc_ix c)) n with
    | None => ret (c, Ok false)
    | Some (k, (sid, s, x)) =>
        '(s1, a) <- poll_ready svc s ;;
        let ready1 := set_nth n (k, (sid, s1, x)) (ix_ready (wc_ix c)) in
        let c1 b := logged (EPoll sid WkTask b) (set_maps (ix_txs (wc_ix c)) ready1 c) in
        match a with
        | Ready (Ok _) => c2 <- fired (c1 false) ;; ret (c2, Ok true)
        | Pending =>
            match swap_remove n ready1 with
            | None => panic
            | Some ((key, (sd, sv, xk)), ready2) =>
                let c2 := set_maps (ix_txs (wc_ix c)) ready2 (c1 true) in
                if wpending_contains c2 key
                then modify (drop_svc svc sv) ;;; c3 <- fired c2 ;; ret (c3, Ok false)
                else c3 <- fired (wpush_pending c2 key sd sv xk) ;; ret (c3, Ok false)
            end
        | Ready (Er e) =>
            match swap_remove n ready1 with
            | None => panic
            | Some ((key, (_, sv, _)), ready2) =>
                modify (drop_svc svc sv) ;;;
                c2 <- fired (set_maps (ix_txs (wc_ix c)) ready2 (c1 false)) ;; ret (c2, Er (key, e))
            end
        end
    end.

  (** cache.rs:393-408 *)
  Definition wcall_ready_index (c : wcache) (n : nat) (r : Req) : M W (wcache * fut svc) :=
    match swap_remove n (ix_ready (wc_ix c)) with
    | None => panic
    | Some ((k, (sid, s, x)), ready1) =>
        '(s1, f) <- call svc s r ;;
        let c1 := set_maps (ix_txs (wc_ix c)) ready1 c in
        if wpending_contains c1 k
        then modify (drop_svc svc s1) ;;; c2 <- fired c1 ;; ret (c2, f)
        else c2 <- fired (wpush_pending c1 k sid s1 x) ;; ret (c2, f)
    end.

  (** ** Balance on top of it: as in ReadyCache.v. *)
  Context {DErr Metric R : Type} (D : Discover W K (st svc) DErr).
  Context (next_u64 : R -> M W (R * Z)) (debug : bool).
  Context (load : st svc -> M W Metric) (le : Metric -> Metric -> bool).
  (** service.rs:28-41 *)
  Record wbalance_st := WBalSt { wb_disc : dst D; wb_cache : wcache; wb_index : option nat; wb_rng : R }.
  (** service.rs:70-80 *)
  Definition wbalance_new (d : dst D) (g : R) : wbalance_st := WBalSt d wcache_new None g.

  (** service.rs:106-129 *)
  Fixpoint wupdate_from_discover (fuel : nat) (d : dst D) (c : wcache) : M W (dst D * wcache * option DErr) :=
    match fuel with
    | O => diverge
    | S n =>
        '(d1, p) <- poll_discover D d ;;
        match p with
        | Pending => c1 <- fired (logged (EDisc DPending) c) ;; ret (d1, c1, None)
        | Ready None => c1 <- fired (logged (EDisc DEnd) c) ;; ret (d1, c1, None)
        | Ready (Some (Er e)) => c1 <- fired (logged (EDisc DChange) c) ;; ret (d1, c1, Some e)
        | Ready (Some (Ok (Remove k))) =>
            c1 <- fired (logged (EDisc DChange) c) ;; '(c2, _) <- wevict c1 k ;; wupdate_from_discover n d1 c2
        | Ready (Some (Ok (Insert k s))) =>
            c1 <- fired (logged (EDisc DChange) c) ;; wupdate_from_discover n d1 (wpush c1 k s)
        end
    end.

  (** service.rs:131-156 *)
  Fixpoint wpromote_loop (fuel : nat) (c : wcache) : M W wcache :=
    match fuel with
    | O => diverge
    | S n =>
        '(c1, p) <- wpoll_pending c ;;
        match p with
        | Ready (Ok _) => if debug && negb (wpending_len c1 =? 0) then panic else ret c1
        | Pending => if debug && (wpending_len c1 =? 0) then panic else ret c1
        | Ready (Er _) => wpromote_loop n c1
        end
    end.
  Definition wpromote_pending (c : wcache) : M W wcache := wpromote_loop (S (wpending_len c)) c.

  (** service.rs:187-190 *)
  Definition wready_index_load (c : wcache) (i : nat) : M W Metric :=
    match nth_error (ix_ready (wc_ix c)) i with
    | None => panic
    | Some (_, (_, s, _)) => load s
    end.
  (** service.rs:159-184 *)
  Definition wp2c_ready_index (c : wcache) (g : R) : M W (R * option nat) :=
    match wready_len c with
    | 0 => ret (g, None)
    | 1 => ret (g, Some 0)
    | n =>
        '(g1, ab) <- sample_floyd2 next_u64 debug g (Z.of_nat n) ;;
        let a := Z.to_nat (fst ab) in
        let b := Z.to_nat (snd ab) in
        if debug && (a =? b) then panic
        else
          la <- wready_index_load c a ;;
          lb <- wready_index_load c b ;;
          ret (g1, Some (if le la lb then a else b))
    end.

  (** service.rs:214-250 *)
  Fixpoint wbalance_loop (fuel : nat) (d : dst D) (c : wcache) (idx : option nat) (g : R)
    : M W (wbalance_st * poll (result unit (Err + DErr))) :=
    match fuel with
    | O => diverge
    | S n =>
        let select c :=
          '(g1, o) <- wp2c_ready_index c g ;;
          match o with
          | None =>
              if debug && negb (wready_len c =? 0) then panic
              else ret (WBalSt d c None g1, Pending)
          | Some i => wbalance_loop n d c (Some i) g1
          end in
        match idx with
        | Some i =>
            '(c1, a) <- wcheck_ready_index c i ;;
            match a with
            | Ok true => ret (WBalSt d c1 (Some i) g, Ready (Ok tt))
            | Ok false => select c1
            | Er _ => select c1
            end
        | None => select c
        end
    end.
  (** service.rs:200-251.  The task begins a poll: it is woken no longer. *)
  Definition wbalance_poll_ready (fuel : nat) (s : wbalance_st) : M W (wbalance_st * poll (result unit (Err + DErr))) :=
    '(d1, c1, e) <- wupdate_from_discover fuel (wb_disc s) (with_woken false (wb_cache s)) ;;
    match e with
    | Some x => ret (WBalSt d1 c1 (wb_index s) (wb_rng s), Ready (Er (inr x)))
    | None =>
        c2 <- wpromote_pending c1 ;;
        wbalance_loop (wready_len c2 + 3) d1 c2 (wb_index s) (wb_rng s)
    end.
  (** service.rs:253-258 *)
  Definition wbalance_call (s : wbalance_st) (r : Req) : M W (wbalance_st * fut svc) :=
    match wb_index s with
    | None => panic
    | Some i =>
        '(c1, f) <- wcall_ready_index (wb_cache s) i r ;;
        ret (WBalSt (wb_disc s) c1 None (wb_rng s), f)
    end.
End WakeCache.
Arguments wbalance_st {W K Req Resp Err svc DErr R} D.
Arguments wbalance_new {W K Req Resp Err svc DErr R} D d g.
Arguments wtask {W K Req Resp Err} svc.
Arguments WBalSt {W K Req Resp Err svc DErr R D} _ _ _ _.
Arguments WTask {W K Req Resp Err svc} _ _ _ _ _.
Arguments Fu {W K Req Resp Err svc} _ _ _ _.
Arguments Ix {W K Req Resp Err svc} _ _ _ _ _ _.
Arguments WCache {W K Req Resp Err svc} _ _ _ _.
Arguments WoReady {W K Req Resp Err svc} _ _ _ _.
Arguments WoCanceled {W K Req Resp Err svc} _.
Arguments WoFailed {W K Req Resp Err svc} _ _.
