(** Specification of ReadyCache (C46-C49).

    Every service pushed into the cache gets a number.  The specification knows,
    for every key, at most one service in the ready set and at most one in the
    pending set, and the services that have been replaced or evicted while
    pending and wait to be dropped. *)
From Verif Require Import Base Track ReadyCache.
Set Implicit Arguments.

Section Slots.
  Context {K Req Resp Err L : Type} (keq : forall a b : K, {a = b} + {a <> b}).
  Context (inj : tev Req Resp Err -> L).

  Record slots := Slots { in_ready : K -> option nat; in_pend : K -> option nat; doomed : list nat }.
  Definition slots0 : slots := Slots (fun _ => None) (fun _ => None) [].
  Definition put (k : K) (v : option nat) (m : K -> option nat) : K -> option nat :=
    fun x => if keq x k then v else m x.
  Definition opt_list {A} (o : option A) : list A := match o with Some x => [x] | None => [] end.

  (** A new service [i] for [k]: takes the place of a pending one, which is doomed. *)
  Definition pushed (k : K) (i : nat) (a : slots) : slots :=
    Slots (in_ready a) (put k (Some i) (in_pend a)) (opt_list (in_pend a k) ++ doomed a).
  Definition evicted (k : K) (a : slots) : slots :=
    Slots (put k None (in_ready a)) (put k None (in_pend a)) (opt_list (in_pend a k) ++ doomed a).
  (** Service [i] becomes ready. *)
  Definition promoted (k : K) (i : nat) (a : slots) : slots :=
    Slots (put k (Some i) (in_ready a)) (put k None (in_pend a)) (doomed a).
  (** A service leaves the ready set: it waits to become ready again, unless a
      newer one for the same key already does. *)
  Definition set_aside (k : K) (i : nat) (a : slots) : slots :=
    Slots (put k None (in_ready a))
      (match in_pend a k with None => put k (Some i) (in_pend a) | Some _ => in_pend a end) (doomed a).
  Definition dropped_aside (k : K) (i : nat) (a : slots) : list L :=
    match in_pend a k with None => [] | Some _ => [inj (TDropSvc i)] end.

  (** What may happen inside [poll_pending]; events oldest first. *)
  Inductive pp_step : slots -> list L -> slots -> Prop :=
  | pp_wait a k i : in_pend a k = Some i -> pp_step a [inj (TReady i Pending)] a
  | pp_ready a k i :
      in_pend a k = Some i ->
      pp_step a (inj (TReady i (Ready (Ok tt))) :: map (fun j => inj (TDropSvc j)) (opt_list (in_ready a k)))
        (promoted k i a)
  | pp_gone a i l1 l2 :
      doomed a = l1 ++ i :: l2 -> pp_step a [inj (TDropSvc i)] (Slots (in_ready a) (in_pend a) (l1 ++ l2)).
  Inductive pp_steps : slots -> list L -> slots -> Prop :=
  | pps_nil a : pp_steps a [] a
  | pps_cons a l b m c : pp_step a l b -> pp_steps b m c -> pp_steps a (l ++ m) c.

  Definition nothing_pending (a : slots) : Prop := (forall k, in_pend a k = None) /\ doomed a = [].

  (** The answer of [poll_pending]. *)
  Inductive pp_answer : slots -> list L -> poll (result unit (K * Err)) -> slots -> Prop :=
  | ppa_done a l b : pp_steps a l b -> nothing_pending b -> pp_answer a l (Ready (Ok tt)) b
  | ppa_wait a l b : pp_steps a l b -> ~ nothing_pending b -> pp_answer a l Pending b
  | ppa_failed a l b k i e :
      pp_steps a l b -> in_pend b k = Some i ->
      pp_answer a (l ++ [inj (TReady i (Ready (Er e))); inj (TDropSvc i)]) (Ready (Er (k, e)))
        (Slots (in_ready b) (put k None (in_pend b)) (doomed b)).

  (** [check_ready]. *)
  Inductive check_answer : slots -> K -> list L -> result bool (K * Err) -> slots -> Prop :=
  | ck_absent a k : in_ready a k = None -> check_answer a k [] (Ok false) a
  | ck_ready a k i : in_ready a k = Some i -> check_answer a k [inj (TReady i (Ready (Ok tt)))] (Ok true) a
  | ck_unready a k i :
      in_ready a k = Some i ->
      check_answer a k (inj (TReady i Pending) :: dropped_aside k i a) (Ok false) (set_aside k i a)
  | ck_failed a k i e :
      in_ready a k = Some i ->
      check_answer a k [inj (TReady i (Ready (Er e))); inj (TDropSvc i)] (Er (k, e))
        (Slots (put k None (in_ready a)) (in_pend a) (doomed a)).

  (** [call_ready], handing out future [j]. *)
  Inductive call_answer : slots -> K -> Req -> list L -> nat -> slots -> Prop :=
  | cl_called a k r i j :
      in_ready a k = Some i ->
      call_answer a k r (inj (TCall i r j) :: dropped_aside k i a) j (set_aside k i a).
End Slots.
Arguments slots : clear implicits.
Arguments slots0 {K}.

(** The order in which FuturesUnordered polls does not touch the log. *)
Definition tsched {W L} (sched : nat -> W -> W * list nat) (n : nat) (x : W * tk L) : (W * tk L) * list nat :=
  let '(w1, o) := sched n (fst x) in ((w1, snd x), o).

Section CacheHistory.
  Context {W K Req Resp Err : Type} (keq : forall a b : K, {a = b} + {a <> b}).
  Context (svc : Service W Req Resp Err) (sched : nat -> W -> W * list nat).

  Notation ev := (tev Req Resp Err).
  Notation TW := (W * tk ev)%type.
  Definition tsvc : Service TW Req Resp Err := tracked (L := ev) (fun e => e) svc.

  (** What the owner of a cache can do. *)
  Inductive cache_op :=
  | OPush (k : K) (s : st svc)
  | OEvict (k : K)
  | OPoll
  | OCheck (k : K) | OCheckAt (n : nat)
  | OCall (k : K) (r : Req) | OCallAt (n : nat) (r : Req).
  Inductive cache_obs :=
  | BPushed (k : K) (i : nat)                       (* pushed, as number [i] *)
  | BEvicted (k : K) (hit : bool)
  | BPolled (p : poll (result unit (K * Err)))
  | BChecked (k : option K) (a : result bool (K * Err))   (* [None]: index out of range *)
  | BCalled (k : option K) (r : Req) (j : nat)
  | BPanic (called : option (option K))    (* if it was a call: of which key *)
  | BDiverge.

  Notation tcache := (cache (K := K) tsvc).
  Definition key_at (c : tcache) (n : nat) : option K := option_map fst (get_ready_index c n).

  Definition cache_do (c : tcache) (o : cache_op) (x : TW) : TW * option tcache * cache_obs :=
    let fin {A} (p : option (option K)) (m : TW * out (tcache * A)) (f : A -> cache_obs) :=
      match m with
      | (x1, Val (c1, v)) => (x1, Some c1, f v)
      | (x1, Panic) => (x1, None, BPanic p)
      | (x1, Diverge) => (x1, None, BDiverge)
      end in
    match o with
    | OPush k s =>
        let '(x1, i) := match tk_fresh x with (x1, Val i) => (x1, i) | _ => (x, 0) end in
        (x1, Some (push keq c k (i, s)), BPushed k i)
    | OEvict k => fin None (evict keq c k x) (BEvicted k)
    | OPoll => fin None (poll_pending keq (tsched sched) c x) BPolled
    | OCheck k => fin None (check_ready keq c k x) (BChecked (Some k))
    | OCheckAt n => fin None (check_ready_index keq c n x) (BChecked (key_at c n))
    | OCall k r => fin (Some (Some k)) (call_ready keq c k r x) (fun f => BCalled (Some k) r (fst f))
    | OCallAt n r => fin (Some (key_at c n)) (call_ready_index keq c n r x) (fun f => BCalled (key_at c n) r (fst f))
    end.

  (** A history: before each operation the environment changes the world; it
      ends at a panic.  Entries: world before, observation, world after, and the
      cache after. *)
  Fixpoint cache_run (c : tcache) (x : TW) (ops : list ((W -> W) * cache_op))
    : list (TW * cache_obs * TW * option tcache) :=
    match ops with
    | [] => []
    | (g, o) :: ops' =>
        let x0 := tk_env g x in
        match cache_do c o x0 with
        | (x1, Some c1, b) => (x0, b, x1, Some c1) :: cache_run c1 x1 ops'
        | (x1, None, b) => [(x0, b, x1, None)]
        end
    end.

  (** One completed operation, as specified. *)
  Definition cache_op_ok (b : cache_obs) (a : slots K) (l : list ev) (a1 : slots K) : Prop :=
    match b with
    | BPushed k i => l = [] /\ a1 = pushed keq k i a
    | BEvicted k hit =>
        l = map TDropSvc (opt_list (in_ready a k)) /\ a1 = evicted keq k a /\
        (hit = true <-> in_ready a k <> None \/ in_pend a k <> None)
    | BPolled p => pp_answer keq (fun e => e) a l p a1
    | BChecked (Some k) v => check_answer keq (fun e => e) a k l v a1
    | BChecked None v => l = [] /\ v = Ok false /\ a1 = a
    | BCalled (Some k) r j => call_answer keq (fun e => e) a k r l j a1
    | BCalled None _ _ => False
    | BPanic _ | BDiverge => False
    end.

  (** What the accessors of the cache show. *)
  Record shows (c : tcache) (a : slots K) : Prop := {
    sh_ready : forall k i, (exists n s, get_ready keq c k = Some (n, (i, s))) <-> in_ready a k = Some i;
    sh_index : forall k i, (exists n s, get_ready_index c n = Some (k, (i, s))) <-> in_ready a k = Some i;
    sh_index_unique : forall n m k i j, get_ready_index c n = Some (k, i) -> get_ready_index c m = Some (k, j) -> n = m;
    sh_ready_len : forall n, (exists x, get_ready_index c n = Some x) <-> n < ready_len c;
    sh_pending : forall k, pending_contains keq c k = true <-> in_pend a k <> None;
    sh_pending_len : exists ids, NoDup ids /\ length ids = pending_len c /\
        (forall i, In i ids <-> (exists k, in_pend a k = Some i) \/ In i (doomed a));
    sh_len : cache_len c = ready_len c + pending_len c;
    sh_empty : cache_is_empty c = true <-> (nothing_pending a /\ forall k, in_ready a k = None)
  }.

  (** [pan] and [dv] say when an operation may panic or not return. *)
  Context (pan : slots K -> option (option K) -> Prop) (dv : Prop).
  Fixpoint cache_history (a : slots K) (x0 : TW) (h : list (TW * cache_obs * TW * option tcache)) : Prop :=
    match h with
    | [] => True
    | (x, b, x1, c1) :: h' =>
        snd x = snd x0 /\
        match b, c1 with
        | BPanic q, _ => pan a q
        | BDiverge, _ => dv
        | _, Some c =>
            exists l a1, log_of x1 = rev l ++ log_of x /\ cache_op_ok b a l a1 /\
              tk_next (snd x) <= tk_next (snd x1) /\
              match b with BPushed _ i => i = tk_next (snd x) /\ i < tk_next (snd x1) | _ => True end /\
              shows c a1 /\ cache_history a1 x1 h'
        | _, None => False
        end
    end.

  (** ** Vocabulary for the consequences *)

  (** Events in which service [i] is asked for readiness or called. *)
  Definition uses (i : nat) (e : ev) : bool :=
    match e with TReady j _ | TCall j _ _ => j =? i | _ => false end.

  (** Has service [i] said it is ready and not been asked or called since?  (newest event first) *)
  Fixpoint ready_now (i : nat) (l : list ev) : bool :=
    match l with
    | [] => false
    | TReady j a :: l' =>
        if j =? i then match a with Ready (Ok _) => true | _ => false end else ready_now i l'
    | TCall j _ _ :: l' => if j =? i then false else ready_now i l'
    | _ :: l' => ready_now i l'
    end.

  (** The observations of a history; the world at its end. *)
  Definition obs_of (h : list (TW * cache_obs * TW * option tcache)) : list cache_obs :=
    map (fun e => snd (fst (fst e))) h.
  Fixpoint end_of (x : TW) (h : list (TW * cache_obs * TW * option tcache)) : TW :=
    match h with [] => x | (_, _, x1, _) :: h' => end_of x1 h' end.

  (** Nothing panicked or hung. *)
  Definition completed (h : list (TW * cache_obs * TW * option tcache)) : Prop :=
    forall b, In b (obs_of h) -> match b with BPanic _ | BDiverge => False | _ => True end.
  (** How often service [i] was dropped. *)
  Definition times_dropped (i : nat) (l : list ev) : nat :=
    length (filter (fun e => match e with TDropSvc j => j =? i | _ => false end) l).
  Definition dropped_or_used (i : nat) (e : ev) : bool :=
    uses i e || match e with TDropSvc j => j =? i | _ => false end.
End CacheHistory.
Arguments BPushed {K Req Err} k i.
Arguments BEvicted {K Req Err} k hit.
Arguments BPolled {K Req Err} p.
Arguments BChecked {K Req Err} k a.
Arguments BCalled {K Req Err} k r j.
Arguments BPanic {K Req Err} called.
Arguments BDiverge {K Req Err}.
Arguments OPush {W K Req Resp Err svc} k s.
Arguments OEvict {W K Req Resp Err svc} k.
Arguments OPoll {W K Req Resp Err svc}.
Arguments OCheck {W K Req Resp Err svc} k.
Arguments OCheckAt {W K Req Resp Err svc} n.
Arguments OCall {W K Req Resp Err svc} k r.
Arguments OCallAt {W K Req Resp Err svc} n r.
