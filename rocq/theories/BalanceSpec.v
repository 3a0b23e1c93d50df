(** Specification of the p2c [Balance] (C50-C52).

    Every endpoint announced by discovery gets a number; the log records what
    discovery says, what is done to the endpoints, and the loads read. *)
From Verif Require Import Base Track ReadyCache CacheSpec.
Set Implicit Arguments.

(** ** The balancer, over recorded endpoints, discovery and loads *)
Section Recorded.
  Context {W K Req Resp Err DErr Metric R : Type} (keq : forall a b : K, {a = b} + {a <> b}).
  Context (svc : Service W Req Resp Err) (D : Discover W K (st svc) DErr).
  Context (sched : nat -> W -> W * list nat) (next_u64 : R -> M W (R * Z)) (debug : bool).
  Context (load : st svc -> M W Metric) (le : Metric -> Metric -> bool) (fuel : nat).

  Inductive bev :=
  | BIn (e : tev Req Resp Err)                                (* something done to an endpoint *)
  | BUpd (u : poll (option (result (change K nat) DErr)))     (* discovery polled, and its answer *)
  | BLoad (i : nat) (m : Metric).                             (* load of endpoint [i] read *)
  Notation TW := (W * tk bev)%type.

  Definition bsvc : Service TW Req Resp Err := tracked BIn svc.
  Definition bdisc : Discover TW K (st bsvc) DErr :=
    MkDiscover (dst D)
      (fun d =>
         '(d1, p) <- tk_lift (poll_discover D d) ;;
         match p with
         | Pending => tk_emit (BUpd Pending) ;;; ret (d1, Pending)
         | Ready None => tk_emit (BUpd (Ready None)) ;;; ret (d1, Ready None)
         | Ready (Some (Er e)) => tk_emit (BUpd (Ready (Some (Er e)))) ;;; ret (d1, Ready (Some (Er e)))
         | Ready (Some (Ok (Remove k))) =>
             tk_emit (BUpd (Ready (Some (Ok (Remove k))))) ;;; ret (d1, Ready (Some (Ok (Remove k))))
         | Ready (Some (Ok (Insert k s))) =>
             i <- tk_fresh ;;
             tk_emit (BUpd (Ready (Some (Ok (Insert k i))))) ;;; ret (d1, Ready (Some (Ok (Insert k (i, s)))))
         end)
      (fun d x => (ddrop D d (fst x), snd x)).
  Definition bload (s : st bsvc) : M TW Metric :=
    m <- tk_lift (load (snd s)) ;; tk_emit (BLoad (fst s) m) ;;; ret m.
  Definition bnext (g : R) : M TW (R * Z) := tk_lift (next_u64 g).

  Definition tbalance : Service TW Req Resp (Err + DErr) :=
    balance keq bsvc bdisc (tsched sched) bnext debug bload le fuel.
  Definition tbalance_new (d : dst D) (g : R) : st tbalance := balance_new bsvc bdisc d g.
End Recorded.
Arguments BIn {K Req Resp Err DErr Metric} e.
Arguments BUpd {K Req Resp Err DErr Metric} u.
Arguments BLoad {K Req Resp Err DErr Metric} i m.

(** ** What it must do *)
Section Protocol.
  Context {K Req Resp Err DErr Metric : Type} (keq : forall a b : K, {a = b} + {a <> b}).
  Context (le : Metric -> Metric -> bool).
  Notation bev := (@bev K Req Resp Err DErr Metric).

  Notation inserted k i := (BUpd (Ready (Some (Ok (Insert k i))))).
  Notation removed k := (BUpd (Ready (Some (Ok (Remove k))))).

  (** First all of discovery's news, up to an error; [n] is the next number. *)
  Inductive news : slots K -> nat -> list bev -> option DErr -> slots K -> nat -> Prop :=
  | nw_quiet a n : news a n [BUpd Pending] None a n
  | nw_ended a n : news a n [BUpd (Ready None)] None a n
  | nw_error a n e : news a n [BUpd (Ready (Some (Er e)))] (Some e) a n
  | nw_insert a n k l r b m :
      news (pushed keq k n a) (S n) l r b m -> news a n (inserted k n :: l) r b m
  | nw_remove a n k l r b m :
      news (evicted keq k a) n l r b m ->
      news a n (removed k :: map (fun i => BIn (TDropSvc i)) (opt_list (in_ready a k)) ++ l) r b m.

  (** Then pending endpoints are polled; those that fail are removed. *)
  Inductive promotes : slots K -> list bev -> slots K -> Prop :=
  | pm_done a l p b : pp_answer keq BIn a l p b -> (p = Pending \/ p = Ready (Ok tt)) -> promotes a l b
  | pm_failed a l x b m c : pp_answer keq BIn a l (Ready (Er x)) b -> promotes b m c -> promotes a (l ++ m) c.

  (** Picking an endpoint: the only one ready, or the less loaded of two. *)
  Inductive picks : slots K -> list bev -> K -> nat -> Prop :=
  | pk_only a k i :
      in_ready a k = Some i -> (forall k', k' <> k -> in_ready a k' = None) -> picks a [] k i
  | pk_first a k i m k' i' m' :
      k <> k' -> in_ready a k = Some i -> in_ready a k' = Some i' ->
      le m m' = true -> picks a [BLoad i m; BLoad i' m'] k i
  | pk_second a k i m k' i' m' :
      k <> k' -> in_ready a k = Some i -> in_ready a k' = Some i' ->
      le m m' = false -> picks a [BLoad i m; BLoad i' m'] k' i'.

  (** Pick until one is still ready, or none is left. *)
  Inductive chooses : slots K -> list bev -> option nat -> slots K -> Prop :=
  | ch_none a : (forall k, in_ready a k = None) -> chooses a [] None a
  | ch_ok a l k i lc b :
      picks a l k i -> check_answer keq BIn a k lc (Ok true) b -> chooses a (l ++ lc) (Some i) b
  | ch_again a l k i lc v b m o c :
      picks a l k i -> check_answer keq BIn a k lc v b -> v <> Ok true -> chooses b m o c ->
      chooses a (l ++ lc ++ m) o c.

  Definition answer_of (o : option nat) : poll (result unit (Err + DErr)) :=
    match o with Some _ => Ready (Ok tt) | None => Pending end.

  (** [poll_ready], when [held] had been chosen before and not been called;
      [o] is what is chosen now. *)
  Inductive polls : slots K -> nat -> option nat -> list bev -> poll (result unit (Err + DErr)) ->
                    option nat -> slots K -> nat -> Prop :=
  | po_discovery_failed a n held l e b m :
      news a n l (Some e) b m -> polls a n held l (Ready (Er (inr e))) None b m
  | po_chosen a n held ln b m lp c lc o d :
      news a n ln None b m -> promotes b lp c -> chooses c lc o d ->
      polls a n held (ln ++ lp ++ lc) (answer_of o) o d m
  | po_kept a n h ln b m lp c k i lc d :
      news a n ln None b m -> promotes b lp c ->
      in_ready c k = Some i -> check_answer keq BIn c k lc (Ok true) d ->
      polls a n (Some h) (ln ++ lp ++ lc) (Ready (Ok tt)) (Some i) d m
  | po_lost a n h ln b m lp c k lr v d lc o e :
      news a n ln None b m -> promotes b lp c ->
      check_answer keq BIn c k lr v d -> v <> Ok true -> chooses d lc o e ->
      polls a n (Some h) (ln ++ lp ++ lr ++ lc) (answer_of o) o e m.

  (** How many changes discovery has announced, and nothing else. *)
  Fixpoint only_changes (l : list bev) : option nat :=
    match l with
    | [] => Some 0
    | BUpd (Ready (Some (Ok _))) :: l' => option_map S (only_changes l')
    | BUpd _ :: _ => None
    | _ :: l' => only_changes l'
    end.
End Protocol.

(** ** A history of a balancer *)
Section History.
  Context {W K Req Resp Err DErr Metric R : Type} (keq : forall a b : K, {a = b} + {a <> b}).
  Context (svc : Service W Req Resp Err) (D : Discover W K (st svc) DErr).
  Context (sched : nat -> W -> W * list nat) (next_u64 : R -> M W (R * Z)) (debug : bool).
  Context (load : st svc -> M W Metric) (le : Metric -> Metric -> bool) (fuel : nat).
  Notation bev := (@bev K Req Resp Err DErr Metric).
  Notation TW := (W * tk bev)%type.
  Notation bal := (tbalance keq svc D sched next_u64 debug load le fuel).

  (** Fewer than 2^64 numbers used: a [usize] can count the endpoints. *)
  Definition fits (x : TW) : Prop := (Z.of_nat (tk_next (snd x)) < 2 ^ 64)%Z.

  (** [pan] / [dv]: may it panic / hang because the wrapped objects do?  Apart
      from that it can hang only by discovery announcing changes without end
      ([fuel] of them in one [poll_ready]). *)
  Context (pan dv : Prop).
  Fixpoint bal_history (a : slots K) (held : option nat) (x0 : TW) (h : list (TW * sobs bal * TW)) : Prop :=
    match h with
    | [] => True
    | (x, b, x1) :: h' =>
        snd x = snd x0 /\
        (fits x1 ->
         match b with
         | ObsReady p =>
             exists l held1 a1, log_of x1 = rev l ++ log_of x /\
               polls keq le a (tk_next (snd x)) held l p held1 a1 (tk_next (snd x1)) /\
               bal_history a1 held1 x1 h'
         | ObsCall r f =>
             exists k i l j f0 a1, held = Some i /\ in_ready a k = Some i /\ f = Some (j, f0) /\
               log_of x1 = rev l ++ log_of x /\ call_answer keq BIn a k r l j a1 /\
               tk_next (snd x) <= tk_next (snd x1) /\
               bal_history a1 None x1 h'
         | ObsSkip => snd x1 = snd x /\ bal_history a held x1 h'
         | ObsPanic => pan
         | ObsDiverge => dv \/ exists l, log_of x1 = rev l ++ log_of x /\ only_changes l = Some fuel
         end)
    end.

  Fixpoint bal_end (x : TW) (h : list (TW * sobs bal * TW)) : TW :=
    match h with [] => x | (_, _, x1) :: h' => bal_end x1 h' end.
End History.

(** ** Vocabulary for the consequences *)
Section Vocabulary.
  Context {W K Req Resp Err DErr Metric R : Type} (keq : forall a b : K, {a = b} + {a <> b}).
  Context (svc : Service W Req Resp Err) (D : Discover W K (st svc) DErr).
  Context (sched : nat -> W -> W * list nat) (next_u64 : R -> M W (R * Z)) (debug : bool).
  Context (load : st svc -> M W Metric) (le : Metric -> Metric -> bool) (fuel : nat).
  Notation TW := (W * tk (@bev K Req Resp Err DErr Metric))%type.
  Notation bal := (tbalance keq svc D sched next_u64 debug load le fuel).

  Definition inserted (k : K) (i : nat) : @bev K Req Resp Err DErr Metric := BUpd (Ready (Some (Ok (Insert k i)))).
  Definition removed (k : K) : @bev K Req Resp Err DErr Metric := BUpd (Ready (Some (Ok (Remove k)))).

  (** Nothing panicked or hung, and fewer than 2^64 numbers were used. *)
  Definition bal_completed (h : list (TW * sobs bal * TW)) : Prop :=
    Forall (fun e => fits (snd e) /\ match snd (fst e) with ObsPanic | ObsDiverge => False | _ => True end) h.
End Vocabulary.
