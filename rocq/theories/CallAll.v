(** Model of CallAll / CallAllUnordered (tower/src/util/call_all) and of the
    parts of futures-util they stand on: FuturesUnordered, FuturesOrdered. *)
From Verif Require Import Base Middleware ReadyCache.
Set Implicit Arguments.

(** futures_core::Stream: [Ready None] is the end of the stream. *)
Record Stream (W A : Type) := MkStream {
  sst : Type;
  snext : sst -> M W (sst * poll (option A)) }.
Arguments MkStream {W A} sst snext.

(** common.rs:40-46, trait [Drive]: a collection of futures. *)
Record Drive (W F O : Type) := MkDrive {
  qst : Type;
  q_new : qst;
  q_empty : qst -> bool;
  q_push : qst -> F -> qst;
  q_poll : qst -> M W (qst * poll (option O)) }.
Arguments MkDrive {W F O} qst q_new q_empty q_push q_poll.

Section Queues.
  Context {W F O : Type} (fpoll : F -> M W (F * poll O)) (fdrop : F -> W -> W).
  (** Which of the [n] futures in the set FuturesUnordered polls, and in which
      order, depends on wake-ups: an arbitrary oracle. *)
  Context (sched : nat -> W -> W * list nat).

  (** FuturesUnordered::poll_next on a non-empty set: poll the futures at the
      positions [order]; the first that completes is removed and dropped. *)
  Fixpoint fus_poll {X} (order : list nat) (l : list (X * F)) : M W (list (X * F) * option (X * O)) :=
    match order with
    | [] => ret (l, None)
    | i :: order' =>
        match nth_error l i with
        | None => fus_poll order' l
        | Some (k, f) =>
            '(f1, a) <- fpoll f ;;
            match a with
            | Pending => fus_poll order' (set_nth i (k, f1) l)
            | Ready o => modify (fdrop f1) ;;; ret (remove_nth i l, Some (k, o))
            end
        end
    end.
  Definition fus_next {X} (l : list (X * F)) : M W (list (X * F) * poll (option (X * O))) :=
    match l with
    | [] => ret ([], Ready None)
    | _ =>
        order <- (fun w => let '(w1, o) := sched (length l) w in (w1, Val o)) ;;
        '(l1, o) <- fus_poll order l ;;
        ret (l1, match o with None => Pending | Some x => Ready (Some x) end)
    end.

  (** unordered.rs:84-97 *)
  Definition unordered_drive : Drive W F O :=
    MkDrive (list (unit * F)) [] (fun l => match l with [] => true | _ => false end)
      (fun l f => l ++ [(tt, f)])
      (fun l => '(l1, a) <- fus_next l ;; ret (l1, poll_map (option_map snd) a)).

  (** futures_util FuturesOrdered: futures in progress with their index, outputs
      that came too early (a min-heap on the index; here a list sorted by it),
      the index for the next future and the index to be yielded next.
      Simplification: indices are unbounded (i64 in Rust). *)
  Record ordq := OrdQ {
    oq_prog : list (nat * F); oq_done : list (nat * O); oq_in : nat; oq_out : nat }.
  Fixpoint heap_insert (x : nat * O) (h : list (nat * O)) : list (nat * O) :=
    match h with
    | [] => [x]
    | y :: h' => if fst x <=? fst y then x :: h else y :: heap_insert x h'
    end.
  (** The loop of FuturesOrdered::poll_next. *)
  Fixpoint ord_loop (fuel : nat) (q : ordq) : M W (ordq * poll (option O)) :=
    match fuel with
    | 0 => diverge
    | S n =>
        '(l, a) <- fus_next (oq_prog q) ;;
        match a with
        | Pending => ret (OrdQ l (oq_done q) (oq_in q) (oq_out q), Pending)
        | Ready None => ret (OrdQ l (oq_done q) (oq_in q) (oq_out q), Ready None)
        | Ready (Some (i, o)) =>
            if i =? oq_out q
            then ret (OrdQ l (oq_done q) (oq_in q) (S (oq_out q)), Ready (Some o))
            else ord_loop n (OrdQ l (heap_insert (i, o) (oq_done q)) (oq_in q) (oq_out q))
        end
    end.
  Definition ord_next (q : ordq) : M W (ordq * poll (option O)) :=
    match oq_done q with
    | (i, o) :: h => if i =? oq_out q
                     then ret (OrdQ (oq_prog q) h (oq_in q) (S (oq_out q)), Ready (Some o))
                     else ord_loop (S (length (oq_prog q))) q
    | [] => ord_loop (S (length (oq_prog q))) q
    end.
  (** ordered.rs:165-177 *)
  Definition ordered_drive : Drive W F O :=
    MkDrive ordq (OrdQ [] [] 0 0)
      (fun q => match oq_prog q, oq_done q with [], [] => true | _, _ => false end)
      (fun q f => OrdQ (oq_prog q ++ [(oq_in q, f)]) (oq_done q) (S (oq_in q)) (oq_out q))
      ord_next.
End Queues.

Section CallAll.
  Context {W Req Resp Err : Type} (svc : Service W Req Resp Err) (S : Stream W Req).
  Context (Q : Drive W (fut svc) (result Resp Err)).

  (** common.rs:11-24 *)
  Record call_all := CA {
    ca_svc : option (st svc); ca_stream : sst S; ca_queue : qst Q; ca_eof : bool; ca_req : option Req }.
  (** common.rs:54-62 *)
  Definition ca_new (s : st svc) (t : sst S) : call_all := CA (Some s) t (q_new Q) false None.
  (** common.rs:64-75: [into_inner] and [take_service] *)
  Definition ca_take (c : call_all) : M W (call_all * st svc) :=
    match ca_svc c with
    | None => panic
    | Some s => ret (CA None (ca_stream c) (ca_queue c) (ca_eof c) (ca_req c), s)
    end.

  (** common.rs:92-140.  Every iteration of the loop that does not return has
      taken a request or the end of the stream; a stream that never pauses may
      keep it going forever, hence the fuel. *)
  Fixpoint ca_next (fuel : nat) (c : call_all) : M W (call_all * poll (option (result Resp Err))) :=
    match fuel with
    | 0 => diverge
    | Datatypes.S n =>
        '(q, a) <- q_poll Q (ca_queue c) ;;
        match a with
        | Ready (Some r) => ret (CA (ca_svc c) (ca_stream c) q (ca_eof c) (ca_req c), Ready (Some r))
        | _ =>
            if ca_eof c then
              ret (CA (ca_svc c) (ca_stream c) q true (ca_req c),
                   if q_empty Q q then Ready None else Pending)
            else
              let dispatch (t : sst S) (r : Req) :=
                match ca_svc c with
                | None => panic
                | Some s =>
                    '(s1, b) <- poll_ready svc s ;;
                    match b with
                    | Pending => ret (CA (Some s1) t q false (Some r), Pending)
                    | Ready (Er e) => ret (CA (Some s1) t q true (Some r), Ready (Some (Er e)))
                    | Ready (Ok _) =>
                        '(s2, f) <- call svc s1 r ;;
                        ca_next n (CA (Some s2) t (q_push Q q f) false None)
                    end
                end in
              match ca_req c with
              | Some r => dispatch (ca_stream c) r
              | None =>
                  '(t1, b) <- snext S (ca_stream c) ;;
                  match b with
                  | Pending => ret (CA (ca_svc c) t1 q false None, Pending)
                  | Ready None => ca_next n (CA (ca_svc c) t1 q true None)
                  | Ready (Some r) => dispatch t1 r
                  end
              end
        end
    end.
End CallAll.
Arguments CA {W Req Resp Err svc S Q} ca_svc ca_stream ca_queue ca_eof ca_req.

(** common.rs:77-82: on the ordered variant; the stored request is not carried over. *)
Definition ca_unordered {W Req Resp Err} (svc : Service W Req Resp Err) (S : Stream W Req)
  (Q Q' : Drive W (fut svc) (result Resp Err)) (c : call_all svc S Q) : M W (call_all svc S Q') :=
  if q_empty Q (ca_queue c) && negb (ca_eof c)
  then match ca_svc c with
       | Some s => ret (ca_new svc S Q' s (ca_stream c))
       | None => panic
       end
  else panic.

(** Dropping one (common.rs:11-24: the fields in order).  FuturesUnordered drops its futures newest first, FuturesOrdered
    has one inside.  Simplification: dropping the request stream, a stored request and answers not yet yielded has no effect. *)
Definition fus_drop {W F X} (fdrop : F -> W -> W) (l : list (X * F)) (w : W) : W :=
  fold_left (fun w x => fdrop (snd x) w) (rev l) w.
Definition ca_drop {W Req Resp Err} (svc : Service W Req Resp Err) (S : Stream W Req) (Q : Drive W (fut svc) (result Resp Err))
  (qdrop : qst Q -> W -> W) (c : call_all svc S Q) (w : W) : W :=
  qdrop (ca_queue c) (match ca_svc c with Some s => drop_svc svc s w | None => w end).
