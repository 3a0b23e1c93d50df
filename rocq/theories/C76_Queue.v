(** C76: no wake-up is lost at a ConcurrencyLimit, and nobody who waits is overtaken.  Specification in QueueSpec.v; who
    waits in which order, and how many permits are [unused], is the specification of C36 (ConcSpec.v), run on the same
    history ([line_of]). *)
From Verif Require Import Base Limits ConcSpec QueueSpec QueueProof Demo.
Set Implicit Arguments.

(** When there is a permit for an instance that waits, and for everybody who has been waiting longer, its owner has been
    woken. *)
Theorem C76_turn_is_woken :
  forall W Req Resp Err (svc : Service W Req Resp Err) (max : nat) (s : st svc) (w : W) (ops : list (qop svc)) (i : nat),
  let x := qrun (qsys0 svc max s w) ops in let sp := line_of max s w ops in
  calm x -> In i (p_line sp) -> ahead i (p_line sp) < unused max sp -> q_woken x i = true.
Proof. exact @queue_turn. Qed.
Print Assumptions C76_turn_is_woken.

(** The semaphore wakes nobody else: an operation leaves exactly those woken that were woken before and did not ask in
    it, and those whose turn has come by it. *)
Theorem C76_exactly :
  forall W Req Resp Err (svc : Service W Req Resp Err) (max : nat) (s : st svc) (w : W) (ops : list (qop svc))
    (o : cop svc) (i : nat),
  let x := qrun (qsys0 svc max s w) ops in
  let x1 := qrun (qsys0 svc max s w) (ops ++ [QDo o]) in
  let sp := line_of max s w ops in let sp1 := line_of max s w (ops ++ [QDo o]) in
  calm x1 ->
  (q_woken x1 i = true <->
     (q_woken x i = true /\ asks i o = false) \/
     (~ (In i (p_line sp) /\ ahead i (p_line sp) < unused max sp) /\
      (In i (p_line sp1) /\ ahead i (p_line sp1) < unused max sp1))).
Proof. exact @queue_exact. Qed.
Print Assumptions C76_exactly.

(** It is no use asking again without having been woken: an instance that was told [Pending] and has not been woken since
    either has a permit already, so that it is the wrapped service it waits for, or it would be told [Pending] again, and
    nothing would change. *)
Theorem C76_asking_again :
  forall W Req Resp Err (svc : Service W Req Resp Err) (max : nat) (s : st svc) (w : W) (ops : list (qop svc)) (i : nat),
  let x := qrun (qsys0 svc max s w) ops in
  calm x -> q_told x i = true -> q_woken x i = false ->
  exists c, nth_error (y_insts (q_y x)) i = Some (Some c) /\
    (cl_permit c = true \/ sys_step (CReady i) (q_y x) = (q_y x, CoReady Pending)).
Proof. exact @queue_again. Qed.
Print Assumptions C76_asking_again.

(** If somebody waits for a permit and none of those who wait has been woken, all [max] permits are in use: by requests
    in flight and by instances that have one. *)
Theorem C76_no_stall :
  forall W Req Resp Err (svc : Service W Req Resp Err) (max : nat) (s : st svc) (w : W) (ops : list (qop svc)) (i : nat) c,
  let x := qrun (qsys0 svc max s w) ops in
  calm x -> q_told x i = true -> nth_error (y_insts (q_y x)) i = Some (Some c) -> cl_permit c = false ->
  (forall k, q_told x k = true -> q_woken x k = false) ->
  in_use (q_y x) = max.
Proof. exact @queue_no_stall. Qed.
Print Assumptions C76_no_stall.

(** Nobody starves: whatever else happens, in whatever order, once as many permits have been given back as there are
    instances that have waited longer, and one for itself, an instance that waits has been woken. *)
Theorem C76_served :
  forall W Req Resp Err (svc : Service W Req Resp Err) (max : nat) (s : st svc) (w : W) (ops ops' : list (qop svc)) (i : nat),
  let x := qrun (qsys0 svc max s w) ops in let sp := line_of max s w ops in
  calm (qrun (qsys0 svc max s w) (ops ++ ops')) -> In i (p_line sp) -> Forall (leaves_alone i) ops' ->
  S (ahead i (p_line sp)) <= unused max sp + given_back x ops' ->
  q_woken (qrun (qsys0 svc max s w) (ops ++ ops')) i = true.
Proof. exact @queue_served. Qed.
Print Assumptions C76_served.

(** A limit of one, three instances.  0 has a request in flight, 1 and 2 wait in this order. *)
Definition before : list (qop demo) :=
  [QDo (CClone 0); QDo (CClone 0); QDo (CReady 0); QDo (CCall 0 5); QDo (CReady 1); QDo (CReady 2)].
Example C76_example_waiting :
  let x := qrun (qsys0 demo 1 7 scr0) before in let sp := line_of 1 (svc := demo) 7 scr0 before in
  (p_line sp, unused 1 sp, map (q_told x) [0; 1; 2], map (q_woken x) [0; 1; 2], in_use (q_y x))
  = ([1; 2], 0, [false; true; true], [false; false; false], 1).
Proof. reflexivity. Qed.
(** The request is dropped: 1 is woken, 2 is not; 0 asks too and has to wait behind them. *)
Example C76_example_woken :
  let ops := before ++ [QDo (CDropFut 0); QDo (CReady 0)] in
  let x := qrun (qsys0 demo 1 7 scr0) ops in let sp := line_of 1 (svc := demo) 7 scr0 ops in
  calm x /\
  (p_line sp, unused 1 sp, map (q_told x) [0; 1; 2], map (q_woken x) [0; 1; 2], in_use (q_y x))
  = ([1; 2; 0], 1, [true; true; true], [false; true; false], 0).
Proof. split; [repeat constructor|reflexivity]. Qed.
(** 1 is cut short by its budget and so is woken again; then it is dropped instead of asking: its permit goes to 2, which
    is woken. *)
Example C76_example_dropped :
  let ops := before ++ [QDo (CDropFut 0); QBusy 1; QDo (CDropSvc 1)] in
  let x := qrun (qsys0 demo 1 7 scr0) ops in let sp := line_of 1 (svc := demo) 7 scr0 ops in
  calm x /\
  (p_line sp, unused 1 sp, map (q_told x) [0; 1; 2], map (q_woken x) [0; 1; 2], in_use (q_y x))
  = ([2], 1, [false; false; true], [false; true; true], 0).
Proof. split; [repeat constructor|reflexivity]. Qed.
(** 2 waits behind 1; two permits given back later it has been woken. *)
Example C76_example_served :
  let ops' := [QDo (CDropFut 0); QDo (CReady 1); QDo (CCall 1 6); QDo (CReady 0); QDo (CDropFut 1)] : list (qop demo) in
  let x := qrun (qsys0 demo 1 7 scr0) before in let sp := line_of 1 (svc := demo) 7 scr0 before in
  calm (qrun (qsys0 demo 1 7 scr0) (before ++ ops')) /\ Forall (leaves_alone 2) ops' /\
  (In 2 (p_line sp), ahead 2 (p_line sp), given_back x ops', q_woken (qrun (qsys0 demo 1 7 scr0) (before ++ ops')) 2)
  = (In 2 [1; 2], 1, 2, true).
Proof. split; [repeat constructor|]. split; [repeat constructor; cbn; auto|reflexivity]. Qed.
