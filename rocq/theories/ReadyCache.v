(** Models of tower/src/ready_cache/cache.rs, tower/src/util/rng.rs,
    tower/src/discover/ and tower/src/balance/p2c/. *)
From Verif Require Import Base Util Middleware.
Set Implicit Arguments.

(** ** indexmap::IndexMap: entries in index order, keys distinct. *)
Section IndexMap.
  Context {K V : Type} (keq : forall a b : K, {a = b} + {a <> b}).

  (** [get_full]: index and value *)
  Fixpoint im_find (k : K) (m : list (K * V)) : option (nat * V) :=
    match m with
    | [] => None
    | (k1, v) :: m' =>
        if keq k1 k then Some (0, v)
        else match im_find k m' with Some (i, v1) => Some (S i, v1) | None => None end
    end.
  (** [insert]: an existing entry is replaced in place (its old value is handed
      back), a new one is appended. *)
  Fixpoint im_insert (k : K) (v : V) (m : list (K * V)) : list (K * V) * option V :=
    match m with
    | [] => ([(k, v)], None)
    | (k1, v1) :: m' =>
        if keq k1 k then ((k1, v) :: m', Some v1)
        else let '(m1, o) := im_insert k v m' in ((k1, v1) :: m1, o)
    end.
  (** [swap_remove_index]: the last entry takes the place of the removed one. *)
  Definition swap_remove {A} (i : nat) (m : list A) : option (A * list A) :=
    match nth_error m i with
    | None => None
    | Some x =>
        match rev m with
        | [] => None
        | z :: _ => Some (x, if S i =? length m then removelast m else set_nth i z (removelast m))
        end
    end.
  (** [swap_remove] / [swap_remove_full] *)
  Definition im_swap_remove (k : K) (m : list (K * V)) : option (V * list (K * V)) :=
    match im_find k m with
    | None => None
    | Some (i, _) => match swap_remove i m with Some (x, m1) => Some (snd x, m1) | None => None end
    end.
End IndexMap.

(** ** ReadyCache *)
Section ReadyCache.
  Context {W K Req Resp Err : Type} (keq : forall a b : K, {a = b} + {a <> b}).
  Context (svc : Service W Req Resp Err).
  (** FuturesUnordered polls the futures that were woken, in the order they were
      woken, and may stop early; which ones that are is not modelled but left to
      an arbitrary oracle: the positions to poll, given how many there are. *)
  Context (sched : nat -> W -> W * list nat).

  (** cache.rs:97-108, [Pending].  The [Option]s are gone: a completed [Pending]
      is dropped by FuturesUnordered and never polled again.  A cancelation pair
      (cache.rs:80-92, 418-424) is a number, which stands for both its halves: the
      [rx] in a [Pending] and the [tx] in [rc_txs] or beside a ready service.  That
      the two halves are never separated is invariant [i_act] of CacheProof.v. *)
  Record pend := Pend { pd_key : K; pd_cancel : nat; pd_svc : st svc }.

  (** cache.rs:58-74; [rc_canceled] are the cancelation flags that have been set
      (a stale flag can stay set: flags are never reset), [rc_fresh] the next pair. *)
  Record cache := Cache {
    rc_pending : list pend;
    rc_txs : list (K * nat);
    rc_ready : list (K * (st svc * nat));
    rc_canceled : list nat;
    rc_fresh : nat }.

  (** cache.rs:112-123 *)
  Definition cache_new : cache := Cache [] [] [] [] 0.

  (** cache.rs:151-173, 176-199 *)
  Definition ready_len (c : cache) : nat := length (rc_ready c).
  Definition pending_len (c : cache) : nat := length (rc_pending c).
  Definition cache_len (c : cache) : nat := ready_len c + pending_len c.
  Definition cache_is_empty (c : cache) : bool :=
    match rc_ready c, rc_pending c with [], [] => true | _, _ => false end.
  Definition pending_contains (c : cache) (k : K) : bool :=
    match im_find keq k (rc_txs c) with Some _ => true | None => false end.
  Definition get_ready (c : cache) (k : K) : option (nat * st svc) :=
    match im_find keq k (rc_ready c) with Some (i, (s, _)) => Some (i, s) | None => None end.
  Definition get_ready_index (c : cache) (i : nat) : option (K * st svc) :=
    match nth_error (rc_ready c) i with Some (k, (s, _)) => Some (k, s) | None => None end.

  (** cache.rs:426-431, [CancelTx::cancel] *)
  Definition set_canceled (t : nat) (l : list nat) : list nat := t :: l.
  Definition is_canceled (c : cache) (t : nat) : bool := existsb (Nat.eqb t) (rc_canceled c).

  (** cache.rs:217-229.  The evicted ready service is dropped here. *)
  Definition evict (c : cache) (k : K) : M W (cache * bool) :=
    let '(txs1, canceled1, hit) :=
      match im_swap_remove keq k (rc_txs c) with
      | Some (t, txs1) => (txs1, set_canceled t (rc_canceled c), true)
      | None => (rc_txs c, rc_canceled c, false)
      end in
    match im_swap_remove keq k (rc_ready c) with
    | Some ((s, _), ready1) =>
        modify (drop_svc svc s) ;;;
        ret (Cache (rc_pending c) txs1 ready1 canceled1 (rc_fresh c), true)
    | None => ret (Cache (rc_pending c) txs1 (rc_ready c) canceled1 (rc_fresh c), hit)
    end.

  (** cache.rs:254-265 *)
  Definition push_pending (c : cache) (k : K) (s : st svc) (t : nat) : cache :=
    let '(txs1, old) := im_insert keq k t (rc_txs c) in
    Cache (rc_pending c ++ [Pend k t s]) txs1 (rc_ready c)
      (match old with Some t0 => set_canceled t0 (rc_canceled c) | None => rc_canceled c end)
      (rc_fresh c).
  (** cache.rs:249-252 *)
  Definition push (c : cache) (k : K) (s : st svc) : cache :=
    let c1 := push_pending c k s (rc_fresh c) in
    Cache (rc_pending c1) (rc_txs c1) (rc_ready c1) (rc_canceled c1) (S (rc_fresh c)).

  Fixpoint remove_nth {A} (i : nat) (l : list A) : list A :=
    match l, i with
    | [], _ => []
    | _ :: l', O => l'
    | x :: l', S i' => x :: remove_nth i' l'
    end.

  (** What a [Pending] future can complete with, cache.rs:94-98, 439. *)
  Inductive pend_out :=
  | PoReady (k : K) (s : st svc) (t : nat)
  | PoCanceled (k : K)
  | PoFailed (k : K) (e : Err).

  (** FuturesUnordered::poll_next on a non-empty set, with [Pending::poll]
      (cache.rs:441-482) inlined: poll the positions in [order] one after the
      other until one completes; it is then removed and dropped (with its
      service, unless that was handed out). *)
  Fixpoint fu_poll (cn : nat -> bool) (order : list nat) (l : list pend)
    : M W (list pend * option pend_out) :=
    match order with
    | [] => ret (l, None)
    | i :: order' =>
        match nth_error l i with
        | None => fu_poll cn order' l
        | Some p =>
            if cn (pd_cancel p) then
              modify (drop_svc svc (pd_svc p)) ;;;
              ret (remove_nth i l, Some (PoCanceled (pd_key p)))
            else
              '(s1, a) <- poll_ready svc (pd_svc p) ;;
              match a with
              | Pending => fu_poll cn order' (set_nth i (Pend (pd_key p) (pd_cancel p) s1) l)
              | Ready (Ok _) => ret (remove_nth i l, Some (PoReady (pd_key p) s1 (pd_cancel p)))
              | Ready (Er e) =>
                  modify (drop_svc svc s1) ;;;
                  ret (remove_nth i l, Some (PoFailed (pd_key p) e))
              end
        end
    end.

  (** One [poll_next]: [None] inside [Ready] is the end of the stream. *)
  Definition fu_poll_next (c : cache) : M W (list pend * poll (option pend_out)) :=
    match rc_pending c with
    | [] => ret ([], Ready None)
    | _ =>
        order <- (fun w => let '(w1, o) := sched (length (rc_pending c)) w in (w1, Val o)) ;;
        '(l, o) <- fu_poll (is_canceled c) order (rc_pending c) ;;
        ret (l, match o with None => Pending | Some x => Ready (Some x) end)
    end.

  (** cache.rs:281-315.  Both [assert!]s are modelled as panics. *)
  Fixpoint poll_pending_loop (fuel : nat) (c : cache) : M W (cache * poll (result unit (K * Err))) :=
    match fuel with
    | O => diverge
    | S n =>
        '(l, p) <- fu_poll_next c ;;
        match p with
        | Pending => ret (Cache l (rc_txs c) (rc_ready c) (rc_canceled c) (rc_fresh c), Pending)
        | Ready None => ret (c, Ready (Ok tt))
        | Ready (Some (PoReady k s t)) =>
            match im_swap_remove keq k (rc_txs c) with
            | None => panic
            | Some (tx, txs1) =>
                let '(ready1, old) := im_insert keq k (s, tx) (rc_ready c) in
                modify (match old with Some (s0, _) => drop_svc svc s0 | None => fun w => w end) ;;;
                poll_pending_loop n (Cache l txs1 ready1 (rc_canceled c) (rc_fresh c))
            end
        | Ready (Some (PoCanceled _)) =>
            poll_pending_loop n (Cache l (rc_txs c) (rc_ready c) (rc_canceled c) (rc_fresh c))
        | Ready (Some (PoFailed k e)) =>
            match im_swap_remove keq k (rc_txs c) with
            | None => panic
            | Some (_, txs1) =>
                ret (Cache l txs1 (rc_ready c) (rc_canceled c) (rc_fresh c), Ready (Er (k, e)))
            end
        end
    end.
  (** Every iteration that does not return removes a pending service. *)
  Definition poll_pending (c : cache) : M W (cache * poll (result unit (K * Err))) :=
    poll_pending_loop (S (length (rc_pending c))) c.

  (** cache.rs:338-373 *)
  Definition check_ready_index (c : cache) (i : nat) : M W (cache * result bool (K * Err)) :=
    match nth_error (rc_ready c) i with
    | None => ret (c, Ok false)
    | Some (k, (s, t)) =>
        '(s1, a) <- poll_ready svc s ;;
        let ready1 := set_nth i (k, (s1, t)) (rc_ready c) in
        match a with
        | Ready (Ok _) => ret (Cache (rc_pending c) (rc_txs c) ready1 (rc_canceled c) (rc_fresh c), Ok true)
        | Pending =>
            match swap_remove i ready1 with
            | None => panic
            | Some ((key, (sv, tk)), ready2) =>
                let c2 := Cache (rc_pending c) (rc_txs c) ready2 (rc_canceled c) (rc_fresh c) in
                if pending_contains c2 key
                then modify (drop_svc svc sv) ;;; ret (c2, Ok false)
                else ret (push_pending c2 key sv tk, Ok false)
            end
        | Ready (Er e) =>
            match swap_remove i ready1 with
            | None => panic
            | Some ((key, (sv, _)), ready2) =>
                modify (drop_svc svc sv) ;;;
                ret (Cache (rc_pending c) (rc_txs c) ready2 (rc_canceled c) (rc_fresh c), Er (key, e))
            end
        end
    end.
  (** cache.rs:321-330 *)
  Definition check_ready (c : cache) (k : K) : M W (cache * result bool (K * Err)) :=
    match im_find keq k (rc_ready c) with
    | Some (i, _) => check_ready_index c i
    | None => ret (c, Ok false)
    end.

  (** cache.rs:393-408 *)
  Definition call_ready_index (c : cache) (i : nat) (r : Req) : M W (cache * fut svc) :=
    match swap_remove i (rc_ready c) with
    | None => panic
    | Some ((k, (s, t)), ready1) =>
        '(s1, f) <- call svc s r ;;
        let c1 := Cache (rc_pending c) (rc_txs c) ready1 (rc_canceled c) (rc_fresh c) in
        if pending_contains c1 k
        then modify (drop_svc svc s1) ;;; ret (c1, f)
        else ret (push_pending c1 k s1 t, f)
    end.
  (** cache.rs:380-386 *)
  Definition call_ready (c : cache) (k : K) (r : Req) : M W (cache * fut svc) :=
    match im_find keq k (rc_ready c) with
    | Some (i, _) => call_ready_index c i r
    | None => panic
    end.

  (** Dropping the whole cache (field order: pending, then the ready map). *)
  Definition cache_drop (c : cache) (w : W) : W :=
    fold_left (fun w x => drop_svc svc (fst (snd x)) w) (rc_ready c)
      (fold_left (fun w p => drop_svc svc (pd_svc p) w) (rc_pending c) w).
End ReadyCache.
Arguments Cache {W K Req Resp Err svc} _ _ _ _ _.
Arguments Pend {W K Req Resp Err svc} _ _ _.
Arguments PoCanceled {W K Req Resp Err svc} k.
Arguments PoFailed {W K Req Resp Err svc} k e.
Arguments PoReady {W K Req Resp Err svc} k s t.

(** ** Random numbers (util/rng.rs) *)
Definition u64_mod : Z := (2 ^ 64)%Z.

Section Rng.
  Context {W R : Type} (next_u64 : R -> M W (R * Z)) (debug : bool).

  (** rng.rs:44-57.  Debug builds assert that the range is not empty and check
      the subtraction; release builds wrap.  Remainder by zero panics. *)
  Definition next_range (g : R) (start end_ : Z) : M W (R * Z) :=
    if debug && negb (start <? end_)%Z then panic
    else
      let range := ((end_ - start) mod u64_mod)%Z in
      '(g1, n) <- next_u64 g ;;
      if (range =? 0)%Z then panic
      else ret (g1, ((n mod range + start) mod u64_mod)%Z).

  (** rng.rs:120-126 *)
  Definition sample_floyd2 (g : R) (length : Z) : M W (R * (Z * Z)) :=
    if debug && negb (2 <=? length)%Z then panic
    else
      '(g1, a) <- next_range g 0 ((length - 1) mod u64_mod) ;;
      '(g2, b) <- next_range g1 0 length ;;
      ret (g2, (if (a =? b)%Z then ((length - 1) mod u64_mod)%Z else a, b)).
End Rng.

(** rng.rs:26-37: the value returned is the integer below divided by 2^53
    (exactly representable). *)
Definition next_f64_num (v : Z) : Z := Z.shiftr v 11.

(** rng.rs:104-109: [hash] is what the hasher makes of the counter. *)
Definition hasher_next {W} (hash : Z -> Z) (counter : Z) : M W (Z * Z) :=
  ret (((counter + 1) mod u64_mod)%Z, hash counter).

(** ** Discovery (discover/mod.rs:88-108) *)
Inductive change (K S : Type) := Insert (k : K) (s : S) | Remove (k : K).
Arguments Insert {K S} k s.
Arguments Remove {K S} k.
Record Discover (W K S E : Type) := MkDiscover {
  dst : Type;
  poll_discover : dst -> M W (dst * poll (option (result (change K S) E)));
  ddrop : dst -> W -> W }.
Arguments MkDiscover {W K S E} dst poll_discover ddrop.

(** discover/list.rs:16-57: the next index and the services still to come, which are dropped with it. *)
Definition service_list {W X E} (xdrop : X -> W -> W) : Discover W nat X E :=
  MkDiscover (nat * list X)
    (fun d => match snd d with
              | [] => ret (d, Ready None)
              | s :: l => ret ((S (fst d), l), Ready (Some (Ok (Insert (fst d) s))))
              end)
    (fun d w => fold_left (fun w x => xdrop x w) (snd d) w).
Definition service_list_new {X} (l : list X) : nat * list X := (0, l).

(** ** Balance (balance/p2c/service.rs) *)
Section Balance.
  Context {W K Req Resp Err DErr Metric R : Type} (keq : forall a b : K, {a = b} + {a <> b}).
  Context (svc : Service W Req Resp Err) (D : Discover W K (st svc) DErr).
  Context (sched : nat -> W -> W * list nat).
  Context (next_u64 : R -> M W (R * Z)) (debug : bool).
  (** [Load::load] (may update interior state) and the metric's [<=] *)
  Context (load : st svc -> M W Metric) (le : Metric -> Metric -> bool).

  (** service.rs:28-41 *)
  Record balance_st := BalSt {
    bl_disc : dst D; bl_cache : cache (K := K) svc; bl_index : option nat; bl_rng : R }.
  (** service.rs:70-80 *)
  Definition balance_new (d : dst D) (g : R) : balance_st := BalSt d (cache_new svc) None g.

  (** service.rs:83-90 *)
  Definition balance_len (s : balance_st) : nat := cache_len (bl_cache s).

  (** service.rs:106-129.  Unbounded: a discovery that always has a change keeps
      it busy for ever.  The error is the only answer [poll_ready] looks at. *)
  Fixpoint update_from_discover (fuel : nat) (d : dst D) (c : cache (K := K) svc)
    : M W (dst D * cache (K := K) svc * option DErr) :=
    match fuel with
    | O => diverge
    | S n =>
        '(d1, p) <- poll_discover D d ;;
        match p with
        | Pending | Ready None => ret (d1, c, None)
        | Ready (Some (Er e)) => ret (d1, c, Some e)
        | Ready (Some (Ok (Remove k))) =>
            '(c1, _) <- evict keq c k ;; update_from_discover n d1 c1
        | Ready (Some (Ok (Insert k s))) => update_from_discover n d1 (push keq c k s)
        end
    end.

  (** service.rs:131-156, with its [debug_assert]s.  Every failure reported by
      [poll_pending] has removed a pending service, hence the fuel. *)
  Fixpoint promote_loop (fuel : nat) (c : cache (K := K) svc) : M W (cache (K := K) svc) :=
    match fuel with
    | O => diverge
    | S n =>
        '(c1, p) <- poll_pending keq sched c ;;
        match p with
        | Ready (Ok _) => if debug && negb (pending_len c1 =? 0) then panic else ret c1
        | Pending => if debug && (pending_len c1 =? 0) then panic else ret c1
        | Ready (Er _) => promote_loop n c1
        end
    end.
  Definition promote_pending (c : cache (K := K) svc) : M W (cache (K := K) svc) :=
    promote_loop (S (length (rc_pending c))) c.

  (** service.rs:187-190 *)
  Definition ready_index_load (c : cache (K := K) svc) (i : nat) : M W Metric :=
    match get_ready_index c i with
    | None => panic
    | Some (_, s) => load s
    end.

  (** service.rs:159-184 *)
  Definition p2c_ready_index (c : cache (K := K) svc) (g : R) : M W (R * option nat) :=
    match ready_len c with
    | 0 => ret (g, None)
    | 1 => ret (g, Some 0)
    | n =>
        '(g1, ab) <- sample_floyd2 next_u64 debug g (Z.of_nat n) ;;
        let a := Z.to_nat (fst ab) in
        let b := Z.to_nat (snd ab) in
        if debug && (a =? b) then panic
        else
          la <- ready_index_load c a ;;
          lb <- ready_index_load c b ;;
          ret (g1, Some (if le la lb then a else b))
    end.

  (** service.rs:214-250: the loop of [poll_ready]. *)
  Fixpoint balance_loop (fuel : nat) (d : dst D) (c : cache (K := K) svc) (idx : option nat) (g : R)
    : M W (balance_st * poll (result unit (Err + DErr))) :=
    match fuel with
    | O => diverge
    | S n =>
        let select c :=
          '(g1, o) <- p2c_ready_index c g ;;
          match o with
          | None =>
              if debug && negb (ready_len c =? 0) then panic
              else ret (BalSt d c None g1, Pending)
          | Some i => balance_loop n d c (Some i) g1
          end in
        match idx with
        | Some i =>
            '(c1, a) <- check_ready_index keq c i ;;
            match a with
            | Ok true => ret (BalSt d c1 (Some i) g, Ready (Ok tt))
            | Ok false => select c1
            | Er _ => select c1
            end
        | None => select c
        end
    end.

  (** service.rs:192-259.  The response future is futures' [MapErr].  Errors:
      [inl] an endpoint's, [inr] discovery's.  Not [Clone]. *)
  Definition balance (fuel : nat) : Service W Req Resp (Err + DErr) :=
    MkService balance_st (option (fut svc))
      (fun s =>
         '(d1, c1, e) <- update_from_discover fuel (bl_disc s) (bl_cache s) ;;
         match e with
         | Some x => ret (BalSt d1 c1 (bl_index s) (bl_rng s), Ready (Er (inr x)))
         | None =>
             c2 <- promote_pending c1 ;;
             balance_loop (length (rc_ready c2) + 3) d1 c2 (bl_index s) (bl_rng s)
         end)
      (fun s r =>
         match bl_index s with
         | None => panic
         | Some i =>
             '(c1, f) <- call_ready_index keq (bl_cache s) i r ;;
             ret (BalSt (bl_disc s) c1 None (bl_rng s), Some f)
         end)
      (map_poll (poll_fut svc) (drop_fut svc) (fun r => ret (map_er inl r)))
      (fun _ => panic)
      (fun s w => cache_drop (bl_cache s) (ddrop D (bl_disc s) w))
      (map_drop (drop_fut svc)).
End Balance.
Arguments BalSt {W K Req Resp Err DErr R svc D} _ _ _ _.

(** ** MakeBalance (balance/p2c/make.rs:70-90, 101-119): the made discovery is
    wrapped in a new [Balance]; [g0] stands for the entropy of [Balance::new]. *)
Section MakeBalance.
  Context {W K Req Resp Err DErr R Tgt MErr : Type} (svc : Service W Req Resp Err).
  Context (D : Discover W K (st svc) DErr) (mk : Service W Tgt (dst D) MErr) (g0 : M W R).
  Definition make_balance : Service W Tgt (balance_st (R := R) svc D) MErr :=
    MkService (st mk) (fut mk)
      (fun s => poll_ready mk s)
      (fun s t => call mk s t)
      (fun f =>
         '(f1, p) <- poll_fut mk f ;;
         match p with
         | Pending => ret (f1, Pending)
         | Ready (Er e) => ret (f1, Ready (Er e))
         | Ready (Ok d) => g <- g0 ;; ret (f1, Ready (Ok (balance_new svc D d g)))
         end)
      (fun s => clone mk s)
      (fun s => drop_svc mk s)
      (fun f => drop_fut mk f).
End MakeBalance.
