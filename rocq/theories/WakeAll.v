(** Model of CallAll / CallAllUnordered (tower/src/util/call_all) with wakers: which response futures FuturesUnordered
    polls is not left to an oracle (as in CallAll.v) but follows from which wakers fired.  [ca_next] (common.rs:92-140) is
    that of CallAll.v, used with collections of futures that know wakers.  [WkTask]: the waker of the task that polls the
    CallAll; [WkChild t]: the one FuturesUnordered makes for child number [t]. *)
From Verif Require Import Base Middleware ReadyCache CallAll WakeCache.
Set Implicit Arguments.

(** History variable: child [t] was polled, with its waker; the service was asked for readiness, the stream of requests was polled,
    with the waker of the task; and whether the answer was [Pending].  A waker fired. *)
Inductive aevent := AFut (t : nat) (pending : bool) | AReady (pending : bool) | AStream (pending : bool) | ARang (k : waker).

(** What is shared with the wakers.  Of futures-util's FuturesUnordered: the queue of children to poll (one that is gone can still
    stand in it), the children that have a waker, whether the AtomicWaker holds the waker of the task.  [rg_woken]: the task
    has been woken since it last began to poll. *)
Record ringer := Ringer { rg_queue : list nat; rg_live : list nat; rg_parent : bool; rg_woken : bool; rg_log : list aevent }.
Definition ringer0 : ringer := Ringer [] [] false false [].

Definition anote (e : aevent) (r : ringer) : ringer := Ringer (rg_queue r) (rg_live r) (rg_parent r) (rg_woken r) (e :: rg_log r).
(** A waker fires; futures-util, [Task::wake_by_ref]. *)
Definition aring (k : waker) (r : ringer) : ringer :=
  anote (ARang k)
    match k with
    | WkTask => Ringer (rg_queue r) (rg_live r) (rg_parent r) true (rg_log r)
    | WkChild t =>
        if memn t (rg_live r) && negb (memn t (rg_queue r))
        then Ringer (rg_queue r ++ [t]) (rg_live r) false (rg_woken r || rg_parent r) (rg_log r)
        else r
    end.
Definition aring_all (l : list waker) (r : ringer) : ringer := fold_left (fun r k => aring k r) l r.

Section Lift.
  Context {W : Type}.
  (** Any waker can fire at any time.  [rings w]: those that fire during an operation, given the world afterwards. *)
  Context (rings : W -> list waker).
  Definition rung {A} (note : A -> list aevent) (m : M W A) : M (W * ringer) A :=
    fun x => match m (fst x) with
             | (w1, Val a) => ((w1, aring_all (rings w1) (fold_left (fun r e => anote e r) (note a) (snd x))), Val a)
             | (w1, Panic) => ((w1, snd x), Panic)
             | (w1, Diverge) => ((w1, snd x), Diverge)
             end.
  Definition rungw (g : W -> W) (x : W * ringer) : W * ringer := (g (fst x), aring_all (rings (g (fst x))) (snd x)).
  Definition silent {A} (_ : A) : list aevent := [].
  Definition is_pending {A} (a : poll A) : bool := match a with Pending => true | Ready _ => false end.

  Definition rung_svc {Req Resp Err} (svc : Service W Req Resp Err) : Service (W * ringer) Req Resp Err :=
    MkService (st svc) (fut svc)
      (fun s => rung (fun r => [AReady (is_pending (snd r))]) (poll_ready svc s))
      (fun s r => rung silent (call svc s r))
      (fun f => rung silent (poll_fut svc f))
      (fun s => rung silent (clone svc s))
      (fun s => rungw (drop_svc svc s)) (fun f => rungw (drop_fut svc f)).
  Definition rung_stream {A} (S : Stream W A) : Stream (W * ringer) A :=
    MkStream (sst S) (fun t => rung (fun r => [AStream (is_pending (snd r))]) (snext S t)).
End Lift.

Section Fu.
  Context {W F O : Type} (rings : W -> list waker) (fpoll : F -> M W (F * poll O)) (fdrop : F -> W -> W).
  (** FuturesUnordered gives up before its queue is empty if too many children woke themselves, or enough were
      polled: a rule on those two numbers and the number of children.  It then wakes the task. *)
  Context (stop : nat -> nat -> nat -> bool).
  Notation X := (W * ringer)%type.

  Section Tagged.
  Context {T : Type}.
  (** The rest of FuturesUnordered: its children, those pushed since the last poll, the next number. *)
  Record wfu := WFu { wf_tasks : list (nat * (T * F)); wf_fresh : list nat; wf_num : nat }.
  Definition wfu_new : wfu := WFu [] [] 0.
  (** FuturesUnordered::push: the new child is queued, nothing is woken. *)
  Definition wfu_push (q : wfu) (x : T * F) : wfu :=
    WFu (wf_tasks q ++ [(wf_num q, x)]) (wf_fresh q ++ [wf_num q]) (S (wf_num q)).
  Fixpoint wf_find (t : nat) (l : list (nat * (T * F))) : option (T * F) :=
    match l with [] => None | (i, x) :: l' => if i =? t then Some x else wf_find t l' end.
  Definition wf_put (t : nat) (x : T * F) (l : list (nat * (T * F))) : list (nat * (T * F)) :=
    map (fun y => if fst y =? t then (t, x) else y) l.
  Definition wf_del (t : nat) (l : list (nat * (T * F))) : list (nat * (T * F)) := List.filter (fun y => negb (fst y =? t)) l.

  Definition on_ringer (g : ringer -> ringer) : M X unit := modify (fun x => (fst x, g (snd x))).
  Definition set_queue (l : list nat) (r : ringer) : ringer := Ringer l (rg_live r) (rg_parent r) (rg_woken r) (rg_log r).
  Definition forget_child (t : nat) (r : ringer) : ringer :=
    Ringer (rg_queue r) (List.filter (fun i => negb (i =? t)) (rg_live r)) (rg_parent r) (rg_woken r) (rg_log r).
  Definition wake (r : ringer) : ringer := Ringer (rg_queue r) (rg_live r) (rg_parent r) true (rg_log r).

  (** FuturesUnordered::poll_next after registering the task's waker.  [yielded]: how many children woke themselves while
      polled; [polled]: how many answered [Pending]. *)
  Fixpoint wf_loop (fuel yielded polled len : nat) (q : wfu) : M X (wfu * poll (option (T * O))) :=
    match fuel with
    | 0 => diverge
    | S n =>
        queue <- get (fun x => rg_queue (snd x)) ;;
        match queue with
        | [] => ret (q, match wf_tasks q with [] => Ready None | _ => Pending end)
        | t :: rest =>
            on_ringer (set_queue rest) ;;;
            match wf_find t (wf_tasks q) with
            | None => wf_loop n yielded polled len q
            | Some (k, f) =>
                '(f1, a) <- rung rings (fun r => [AFut t (is_pending (snd r))]) (fpoll f) ;;
                match a with
                | Pending =>
                    again <- get (fun x => memn t (rg_queue (snd x))) ;;
                    let q1 := WFu (wf_put t (k, f1) (wf_tasks q)) (wf_fresh q) (wf_num q) in
                    let y := if again : bool then S yielded else yielded in
                    if stop y (S polled) len then on_ringer wake ;;; ret (q1, Pending)
                    else wf_loop n y (S polled) len q1
                | Ready o =>
                    on_ringer (forget_child t) ;;;
                    modify (rungw rings (fdrop f1)) ;;;
                    ret (WFu (wf_del t (wf_tasks q)) (wf_fresh q) (wf_num q), Ready (Some (k, o)))
                end
            end
        end
    end.
  Definition wf_next (q : wfu) : M X (wfu * poll (option (T * O))) :=
    on_ringer (fun r => Ringer (rg_queue r ++ wf_fresh q) (rg_live r ++ wf_fresh q) true (rg_woken r) (rg_log r)) ;;;
    queue <- get (fun x => rg_queue (snd x)) ;;
    wf_loop (S (length queue + length (wf_tasks q))) 0 0 (length (wf_tasks q)) (WFu (wf_tasks q) [] (wf_num q)).
  End Tagged.

  (** unordered.rs:84-97 *)
  Definition wunordered : Drive X F O :=
    MkDrive (wfu (T := unit)) wfu_new (fun q => match wf_tasks q with [] => true | _ => false end)
      (fun q f => wfu_push q (tt, f))
      (fun q => '(q1, a) <- wf_next q ;; ret (q1, poll_map (option_map snd) a)).

  (** FuturesOrdered: see [ordq], [ord_loop] and [ord_next] in CallAll.v. *)
  Record wordq := WOrd { wo_fu : wfu (T := nat); wo_done : list (nat * O); wo_in : nat; wo_out : nat }.
  Fixpoint word_loop (fuel : nat) (q : wordq) : M X (wordq * poll (option O)) :=
    match fuel with
    | 0 => diverge
    | S n =>
        '(l, a) <- wf_next (wo_fu q) ;;
        match a with
        | Pending => ret (WOrd l (wo_done q) (wo_in q) (wo_out q), Pending)
        | Ready None => ret (WOrd l (wo_done q) (wo_in q) (wo_out q), Ready None)
        | Ready (Some (i, o)) =>
            if i =? wo_out q
            then ret (WOrd l (wo_done q) (wo_in q) (S (wo_out q)), Ready (Some o))
            else word_loop n (WOrd l (heap_insert (i, o) (wo_done q)) (wo_in q) (wo_out q))
        end
    end.
  Definition word_next (q : wordq) : M X (wordq * poll (option O)) :=
    match wo_done q with
    | (i, o) :: h => if i =? wo_out q
                     then ret (WOrd (wo_fu q) h (wo_in q) (S (wo_out q)), Ready (Some o))
                     else word_loop (S (length (wf_tasks (wo_fu q)))) q
    | [] => word_loop (S (length (wf_tasks (wo_fu q)))) q
    end.
  (** ordered.rs:165-177 *)
  Definition wordered : Drive X F O :=
    MkDrive wordq (WOrd wfu_new [] 0 0)
      (fun q => match wf_tasks (wo_fu q), wo_done q with [], [] => true | _, _ => false end)
      (fun q f => WOrd (wfu_push (wo_fu q) (wo_in q, f)) (wo_done q) (S (wo_in q)) (wo_out q))
      word_next.
End Fu.
Arguments wfu F T : clear implicits.
Arguments wfu_new {F T}.
