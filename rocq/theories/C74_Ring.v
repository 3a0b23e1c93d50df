(** C74: ReadyCache and Balance lose no wake-up.  Specification in RingSpec.v: [whistory], a history of a cache, of
    wakers that fire at any time (also while the cache is being polled: [rings]) and of its task; [waiting log i k]:
    service [i] was last given waker [k], answered [Pending], and [k] has not fired since; [wc_woken]: the task was
    woken since it last began to poll. *)
From Verif Require Import Base ReadyCache WakeCache RingSpec RingProof RingLoop RingTop RingBal RingBal2 RefineSpec RefineProof RefineBal Demo.
Set Implicit Arguments.

(** Once [poll_pending] has answered [Pending], and whatever wakers fire, keys are evicted and services change after it:
    the task is woken, or every pending service waits. *)
Theorem C74_cache_pending :
  forall W K Req Resp Err (keq : forall a b : K, {a = b} + {a <> b}) (svc : Service W Req Resp Err) (rings : W -> list waker) (stop : nat -> nat -> nat -> bool)
    w0 (l : list (wop svc)) i ci wi n b (c : wcache svc) w,
  nth_error (whistory keq rings stop w0 l) i = Some (OPolled Pending, ci, wi) -> i <= n ->
  (forall j o, i < j <= n -> nth_error l j = Some o -> match o with CRing _ | CEnv _ | CEvict _ => True | _ => False end) ->
  nth_error (whistory keq rings stop w0 l) n = Some (b, c, w) ->
  wc_woken c = true \/ forall p, In p (pending_of c) -> exists k, waiting (wc_log c) (wt_sid p) k.
Proof. exact @cache_pending. Qed.
Print Assumptions C74_cache_pending.

(** At any time after the first poll: if the waker of a pending service that waits fires, the task is woken. *)
Theorem C74_cache_ring :
  forall W K Req Resp Err (keq : forall a b : K, {a = b} + {a <> b}) (svc : Service W Req Resp Err) (rings : W -> list waker) (stop : nat -> nat -> nat -> bool)
    w0 (l : list (wop svc)) i a ci wi n b (c : wcache svc) w p k,
  nth_error (whistory keq rings stop w0 l) i = Some (OPolled a, ci, wi) -> i <= n ->
  nth_error (whistory keq rings stop w0 l) n = Some (b, c, w) ->
  In p (pending_of c) -> waiting (wc_log c) (wt_sid p) k -> wc_woken (ring k c) = true.
Proof. exact @cache_ring. Qed.
Print Assumptions C74_cache_ring.

(** When [poll_pending] answers [Pending], evicted and replaced services are gone (dropped), or the task is woken to drop
    them: one service per key is left, and it is not canceled.  When it answers [Ready(Ok)] nothing is left. *)
Theorem C74_cache_clean :
  forall W K Req Resp Err (keq : forall a b : K, {a = b} + {a <> b}) (svc : Service W Req Resp Err) (rings : W -> list waker) (stop : nat -> nat -> nat -> bool)
    w0 (l : list (wop svc)) n a (c : wcache svc) w,
  nth_error (whistory keq rings stop w0 l) n = Some (OPolled a, c, w) ->
  match a with
  | Pending => wc_woken c = true \/
      NoDup (map (fun p => wt_key p) (pending_of c)) /\ (forall p, In p (pending_of c) -> wpending_contains keq c (wt_key p) = true)
  | Ready (Ok _) => pending_of c = []
  | Ready (Er _) => True
  end.
Proof. exact @cache_clean. Qed.
Print Assumptions C74_cache_clean.

(** No busy loop: if every pending service waits, polling the cache asks none of them, changes nothing and wakes nobody. *)
Theorem C74_cache_idle :
  forall W K Req Resp Err (keq : forall a b : K, {a = b} + {a <> b}) (svc : Service W Req Resp Err) (rings : W -> list waker) (stop : nat -> nat -> nat -> bool)
    w0 (l : list (wop svc)) n b (c : wcache svc) w,
  nth_error (whistory keq rings stop w0 l) n = Some (b, c, w) ->
  (forall p, In p (pending_of c) -> exists t, waiting (wc_log c) (wt_sid p) (WkChild t)) ->
  exists c1, wstep keq rings stop CPoll (c, w) = Some (OPolled (match pending_of c with [] => Ready (Ok tt) | _ => Pending end), c1, w) /\
    wc_log c1 = wc_log c /\ wc_woken c1 = false /\ pending_of c1 = pending_of c /\ ix_ready (wc_ix c1) = ix_ready (wc_ix c).
Proof. exact @cache_idle. Qed.
Print Assumptions C74_cache_idle.

(** Polling the cache returns, however often services wake themselves, if asking a service returns. *)
Theorem C74_cache_returns :
  forall W K Req Resp Err (keq : forall a b : K, {a = b} + {a <> b}) (svc : Service W Req Resp Err) (rings : W -> list waker) (stop : nat -> nat -> nat -> bool),
  (forall s w, exists w1 s1 a, poll_ready svc s w = (w1, Val (s1, a))) ->
  (forall yielded n, stop yielded n n = true) ->
  forall w0 (l : list (wop svc)) n b (c : wcache svc) w,
  nth_error (whistory keq rings stop w0 l) n = Some (b, c, w) ->
  exists a c1 w1, wstep keq rings stop CPoll (c, w) = Some (OPolled a, c1, w1).
Proof. exact @cache_returns. Qed.
Print Assumptions C74_cache_returns.

(** A Balance whose [poll_ready] answered [Pending], from then until it is polled again: no endpoint is ready, and the
    task is woken or every endpoint waits and so does discovery. *)
Theorem C74_balance_pending :
  forall W K Req Resp Err (keq : forall a b : K, {a = b} + {a <> b}) (svc : Service W Req Resp Err) (rings : W -> list waker) (stop : nat -> nat -> nat -> bool)
    DErr Metric R (D : Discover W K (st svc) DErr) (next_u64 : R -> M W (R * Z)) (debug : bool)
    (load : st svc -> M W Metric) (le : Metric -> Metric -> bool) fuel d g w0 l i s w n b s1 w1,
  nth_error (bwhistory keq svc rings stop D next_u64 debug load le fuel d g w0 l) i = Some (BwPolled Pending, s, w) -> i <= n ->
  nth_error (bwhistory keq svc rings stop D next_u64 debug load le fuel d g w0 l) n = Some (b, s1, w1) ->
  (forall j b' s' w', i < j <= n ->
    nth_error (bwhistory keq svc rings stop D next_u64 debug load le fuel d g w0 l) j = Some (b', s', w') ->
    b' = @BwRang Err DErr \/ b' = @BwEnved Err DErr) ->
  ix_ready (wc_ix (wb_cache s1)) = [] /\
  (wc_woken (wb_cache s1) = true \/
   (forall p, In p (pending_of (wb_cache s1)) -> exists k, waiting (wc_log (wb_cache s1)) (wt_sid p) k) /\
   disc_waits false (wc_log (wb_cache s1))).
Proof. exact @balance_sleeps. Qed.
Print Assumptions C74_balance_pending.

(** Every history of the cache with wakers is, operation by operation and answer by answer, a history of the cache of
    ReadyCache.v (the one of C46-C52, C58, C59, C69, C70) with the wakers forgotten, for some order of polling: the
    tape [tp].  Likewise for Balance. *)
Theorem C74_cache_refines :
  forall W K Req Resp Err (keq : forall a b : K, {a = b} + {a <> b}) (svc : Service W Req Resp Err) (rings : W -> list waker) (stop : nat -> nat -> nat -> bool)
    w0 (l : list (wop svc)),
  exists tp : tape, forall n b (c : wcache svc) w,
    nth_error (whistory keq rings stop w0 l) n = Some (b, c, w) ->
    exists rest, nth_error (orun keq (cache_new (taped svc), (w0, tp)) l) n = Some (b, forget c, (w, rest)).
Proof. exact @cache_refines. Qed.
Print Assumptions C74_cache_refines.

Theorem C74_balance_refines :
  forall W K Req Resp Err (keq : forall a b : K, {a = b} + {a <> b}) (svc : Service W Req Resp Err) (rings : W -> list waker) (stop : nat -> nat -> nat -> bool)
    DErr Metric R (D : Discover W K (st svc) DErr) (next_u64 : R -> M W (R * Z)) (debug : bool)
    (load : st svc -> M W Metric) (le : Metric -> Metric -> bool) fuel d g w0 l,
  exists tp : tape, forall n b s w,
    nth_error (bwhistory keq svc rings stop D next_u64 debug load le fuel d g w0 l) n = Some (b, s, w) ->
    exists rest, nth_error (borun keq D next_u64 debug load le fuel (balance_new (taped svc) (tdisc D : Discover (W * tape) K (st (taped svc)) DErr) d g, (w0, tp)) l) n =
      Some (b, forget_bal keq D next_u64 debug load le fuel s, (w, rest)).
Proof. exact @balance_refines. Qed.
Print Assumptions C74_balance_refines.

(** ** Non-vacuity *)
(** futures-util's rule. *)
Definition stop74 (yielded polled len : nat) : bool := (2 <=? yielded) || (polled =? len).
Lemma stop74_fair : forall y n, stop74 y n n = true.
Proof. intros y n. unfold stop74. rewrite Nat.eqb_refl. apply orb_true_r. Qed.
(** [warm] answers [Pending] as often as its number says. *)
Lemma warm_prompt : forall s w, exists w1 s1 a, poll_ready warm s w = (w1, Val (s1, a)).
Proof. intros [|s] w; eexists _, _, _; reflexivity. Qed.
Definition ops74 : list (wop (K := nat) warm) :=
  [ CPush (svc := warm) 7 2; CPush (svc := warm) 8 1; CPoll;    (* both wait *)
    CEnv (tick 1); CRing (WkChild 1); CPoll;                     (* 8 is ready *)
    CPush (svc := warm) 7 1; CPoll;                              (* the old 7 is gone, the new one waits *)
    CPoll;                                                       (* nothing to do *)
    CEvict 7; CPoll; CCheck 0; CCall 0 5 ].
Definition hist74 := whistory Nat.eq_dec (fun _ => []) stop74 scr0 ops74.
Definition view74 (x : wobs (K := nat) (Err := nat) * wcache (K := nat) warm * scr) :=
  let '(b, c, _) := x in (b, wc_woken c, map (fun p => (wt_key p, wt_sid p)) (pending_of c), length (wc_log c)).
Example C74_example : map view74 hist74 =
  [ (@OPushed nat nat, false, [(7, 0)], 0); (@OPushed nat nat, false, [(7, 0); (8, 1)], 0);
    (OPolled Pending, true, [(7, 0); (8, 1)], 2);
    (@OEnv nat nat, true, [(7, 0); (8, 1)], 2); (@ORang nat nat, true, [(7, 0); (8, 1)], 3);
    (OPolled Pending, false, [(7, 0)], 4);
    (@OPushed nat nat, true, [(7, 0); (7, 2)], 5);
    (OPolled Pending, true, [(7, 2)], 6);
    (OPolled Pending, false, [(7, 2)], 6);
    (@OEvicted nat nat true, true, [(7, 2)], 7);
    (OPolled (Ready (Ok tt)), false, [], 7);
    (OChecked (Ok true), false, [], 8); (@OCalled nat nat, false, [(8, 1)], 8) ].
Proof. vm_compute. reflexivity. Qed.
(** In that history the service of key 7 waits from the first poll until it is replaced. *)
Example C74_example_waits : map (fun x => let '(_, c, _) := x in map (fun p => (wt_sid p, wt_id p)) (pending_of c)) (firstn 6 (skipn 5 hist74)) =
    [[(0, 0)]; [(0, 0); (2, 2)]; [(2, 2)]; [(2, 2)]; [(2, 2)]; []] /\
  match nth_error hist74 5 with Some (_, c, _) => waiting (wc_log c) 0 (WkChild 0) | None => False end /\
  match nth_error hist74 8 with Some (_, c, _) => waiting (wc_log c) 2 (WkChild 2) | None => False end.
Proof. vm_compute. repeat split; discriminate. Qed.
(** A service that wakes itself whenever it is asked: the poll ends, the task is woken. *)
Definition selfish74 := whistory Nat.eq_dec (fun _ => [WkChild 0; WkChild 1]) stop74 scr0 (firstn 3 ops74).
Example C74_example_selfish : map view74 selfish74 =
  [ (@OPushed nat nat, false, [(7, 0)], 0); (@OPushed nat nat, false, [(7, 0); (8, 1)], 0);
    (OPolled Pending, true, [(7, 0); (8, 1)], 6) ].
Proof. vm_compute. reflexivity. Qed.
(** A Balance over two endpoints. *)
Definition bal74 := bwhistory Nat.eq_dec warm (fun _ => []) stop74 (service_list (W := scr) (E := nat) (drop_svc warm))
  (fun g : nat => ret (g, 1%Z)) true (fun s => ret (W := scr) s) Nat.leb 5 (service_list_new [3; 2]) 0 scr0
  [BwPoll; BwPoll; BwEnv (tick 1); BwRing (WkChild 0); BwPoll; BwRing (WkChild 1); BwPoll; BwCall 4; BwPoll].
Example C74_example_balance :
  map (fun x => let '(b, s, _) := x in (b, wc_woken (wb_cache s), map (fun p => (wt_key p, wt_svc p)) (pending_of (wb_cache s)),
                  length (ix_ready (wc_ix (wb_cache s))))) bal74 =
  [ (BwPolled Pending, true, [(0, 2); (1, 1)], 0);
    (BwPolled Pending, false, [(0, 2); (1, 1)], 0);
    (@BwEnved nat nat, false, [(0, 2); (1, 1)], 0);
    (@BwRang nat nat, true, [(0, 2); (1, 1)], 0);
    (BwPolled Pending, false, [(0, 1); (1, 1)], 0);
    (@BwRang nat nat, true, [(0, 1); (1, 1)], 0);
    (BwPolled Pending, false, [(0, 1); (1, 0)], 0) ].
Proof. vm_compute. reflexivity. Qed.
Example C74_example_asleep :
  match nth_error bal74 4 with
  | Some (_, s, _) => waiting (wc_log (wb_cache s)) 0 (WkChild 0) /\ waiting (wc_log (wb_cache s)) 1 (WkChild 1) /\ disc_waits false (wc_log (wb_cache s))
  | None => False
  end.
Proof. vm_compute. repeat split; discriminate. Qed.
(** The tape for [hist74]: what each round of polling polled, in order. *)
Example C74_example_refines : let tp := [[0; 1]; [1]; []; [0]; [0]; []; [0]] in
  map (fun x => fst (fst x)) (orun Nat.eq_dec (cache_new (taped warm), (scr0, tp)) ops74) = map (fun x => fst (fst x)) hist74 /\
  length hist74 = length ops74.
Proof. vm_compute. split; reflexivity. Qed.
