(** Models of the middleware that tower's own documentation teaches: the two
    wrappers of "Be careful when cloning inner services" and the [Timeout] of the
    [Service] docs, the log service of the [Layer] docs, and the [Timeout] of the
    guide "Building a middleware from scratch". *)
From Verif Require Import Base Util.
Set Implicit Arguments.

Section Wrapper.
  Context {W Req Resp Err : Type} (svc : Service W Req Resp Err).

  (** tower-service/src/lib.rs:268-271 and 305-307, the block
      [async move { inner.call(req).await }]: not yet polled, it has the instance
      and the request; waiting, the instance and the response future; finished,
      nothing.  Polling it once more panics, as for every async block. *)
  Inductive wrap_fut := WfInit (s : st svc) (r : Req) | WfRun (s : st svc) (x : fut svc) | WfDone.

  (** The [.await]: when the response is there the response future is dropped,
      then the instance. *)
  Definition wrap_await (s : st svc) (x : fut svc) : M W (wrap_fut * poll (result Resp Err)) :=
    '(x1, p) <- poll_fut svc x ;;
    match p with
    | Pending => ret (WfRun s x1, Pending)
    | Ready v => modify (drop_fut svc x1) ;;; modify (drop_svc svc s) ;;; ret (WfDone, Ready v)
    end.
  Definition wrap_poll (f : wrap_fut) : M W (wrap_fut * poll (result Resp Err)) :=
    match f with
    | WfInit s r => '(s1, x) <- call svc s r ;; wrap_await s1 x
    | WfRun s x => wrap_await s x
    | WfDone => panic
    end.
  (** Dropping the block drops what it has, the response future first. *)
  Definition wrap_drop (f : wrap_fut) (w : W) : W :=
    match f with
    | WfInit s _ => drop_svc svc s w
    | WfRun s x => drop_svc svc s (drop_fut svc x w)
    | WfDone => w
    end.

  (** tower-service/src/lib.rs:249-273, the [Wrapper] that "is wrong and might
      panic": the clone goes into the future.  ([Wrapper] is not [Clone].) *)
  Definition wrap_clone : Service W Req Resp Err :=
    MkService (st svc) wrap_fut
      (poll_ready svc)
      (fun s r => c <- clone svc s ;; ret (s, WfInit c r))
      wrap_poll (fun _ => panic) (drop_svc svc) wrap_drop.

  (** tower-service/src/lib.rs:284-310, the right one: the clone stays
      ([mem::replace]), the instance that was ready goes into the future. *)
  Definition wrap_take : Service W Req Resp Err :=
    MkService (st svc) wrap_fut
      (poll_ready svc)
      (fun s r => c <- clone svc s ;; ret (c, WfInit s r))
      wrap_poll (fun _ => panic) (drop_svc svc) wrap_drop.
End Wrapper.
Arguments WfInit {W Req Resp Err svc} s r.
Arguments WfRun {W Req Resp Err svc} s x.
Arguments WfDone {W Req Resp Err svc}.

Section LogService.
  Context {W Req Resp Err : Type} (print : Req -> W -> W) (svc : Service W Req Resp Err).
  (** tower-layer/src/lib.rs:64-87: [print] is the [println!].  Not [Clone]. *)
  Definition log_service : Service W Req Resp Err :=
    MkService (st svc) (fut svc)
      (poll_ready svc)
      (fun s r => modify (print r) ;;; call svc s r)
      (poll_fut svc) (fun _ => panic) (drop_svc svc) (drop_fut svc).
End LogService.

Section Timeouts.
  Context {W Req Resp Err : Type} (rt : Rt W) (dur : Z) (svc : Service W Req Resp Err).

  (** tower-service/src/lib.rs:188-199, [async move { tokio::select! { .. } }]:
      the response future and the deadline of the sleep, until it has finished. *)
  Inductive doc_fut := DfRun (x : fut svc) (dl : Z) | DfDone.

  (** tower-service/src/lib.rs:127-201.  Here the sleep is created *before* the
      inner [call].  [coin] is the random choice [select!] makes at every poll of
      which branch to poll first ([true]: the response).  When a branch has
      completed, the response future is dropped with the block.
      Errors: [inl e] inner, [inr tt] Expired.  Not [Clone]. *)
  Definition timeout_doc (coin : M W bool) : Service W Req Resp (Err + unit) :=
    MkService (st svc) doc_fut
      (fun s => '(s1, a) <- poll_ready svc s ;; ret (s1, poll_map (map_er inl) a))
      (fun s r =>
         t <- get (now rt) ;;
         '(s1, f) <- call svc s r ;;
         ret (s1, DfRun f (t + dur)%Z))
      (fun f =>
         match f with
         | DfDone => panic
         | DfRun x dl =>
             let finish x v := modify (drop_fut svc x) ;;; ret (DfDone, Ready v) in
             first <- coin ;;
             if first then
               '(x1, p) <- poll_fut svc x ;;
               match p with
               | Ready v => finish x1 (map_er inl v)
               | Pending =>
                   b <- sleep_poll rt dl ;;
                   if b then finish x1 (Er (inr tt)) else ret (DfRun x1 dl, Pending)
               end
             else
               b <- sleep_poll rt dl ;;
               if b then finish x (Er (inr tt))
               else
                 '(x1, p) <- poll_fut svc x ;;
                 match p with
                 | Ready v => finish x1 (map_er inl v)
                 | Pending => ret (DfRun x1 dl, Pending)
                 end
         end)
      (fun _ => panic) (drop_svc svc)
      (fun f w => match f with DfRun x _ => drop_fut svc x w | DfDone => w end).

  (** guides/building-a-middleware-from-scratch.md:542-613, its final code. *)
  Record guide_fut := GuideFut { response_future : fut svc; sleep : Z }.
  Definition timeout_guide : Service W Req Resp (Err + unit) :=
    MkService (st svc) guide_fut
      (fun s => '(s1, a) <- poll_ready svc s ;; ret (s1, poll_map (map_er inl) a))
      (fun s r =>
         '(s1, f) <- call svc s r ;;
         t <- get (now rt) ;;
         ret (s1, GuideFut f (t + dur)%Z))
      (fun f =>
         '(f1, p) <- poll_fut svc (response_future f) ;;
         match p with
         | Ready v => ret (GuideFut f1 (sleep f), Ready (map_er inl v))
         | Pending =>
             b <- sleep_poll rt (sleep f) ;;
             ret (GuideFut f1 (sleep f), if b then Ready (Er (inr tt)) else Pending)
         end)
      (clone svc) (drop_svc svc)
      (fun f => drop_fut svc (response_future f)).
End Timeouts.
Arguments DfRun {W Req Resp Err svc} x dl.
Arguments DfDone {W Req Resp Err svc}.
Arguments GuideFut {W Req Resp Err svc} response_future sleep.
