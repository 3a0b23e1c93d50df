(** Models of the small combinators in tower/src/util/. *)
From Verif Require Import Base.
Set Implicit Arguments.

(** futures-util [Map] and friends (used by MapResponse, MapErr, MapResult):
    poll the wrapped future; when it completes, drop it, then transform the
    output with [h].  [None] is the combinator's [Complete] state, whose poll
    panics. *)
Definition map_poll {W A B F} (fpoll : F -> M W (F * poll A)) (fdrop : F -> W -> W)
  (h : A -> M W B) (f : option F) : M W (option F * poll B) :=
  match f with
  | None => panic
  | Some f0 =>
      x <- fpoll f0 ;;
      match x with
      | (f1, Pending) => ret (Some f1, Pending)
      | (f1, Ready a) => modify (fdrop f1) ;;; b <- h a ;; ret (None, Ready b)
      end
  end.
Definition map_drop {W F} (fdrop : F -> W -> W) (f : option F) : W -> W :=
  match f with None => fun w => w | Some f0 => fdrop f0 end.

Section Util.
  Context {W : Type}.

  (** tower-service/src/lib.rs:360-390: [&mut S] and [Box<S>] forward.
      tower/src/util/boxed/sync.rs:59-98, boxed/unsync.rs:27-86,
      boxed_clone.rs:65-109, boxed_clone_sync.rs:26-70: boxing the service and
      its future forwards every operation, [clone] included.
      Simplification: heap allocation and type erasure are invisible. *)
  Definition boxed {Req Resp Err} (svc : Service W Req Resp Err) : Service W Req Resp Err :=
    MkService (st svc) (fut svc)
      (fun s => poll_ready svc s)
      (fun s r => call svc s r)
      (fun f => poll_fut svc f)
      (fun s => clone svc s)
      (fun s => drop_svc svc s)
      (fun f => drop_fut svc f).

  (** tower/src/util/map_request.rs:43-61.  The closure may have effects. *)
  Definition map_request {Req Req' Resp Err} (f : Req' -> M W Req)
    (svc : Service W Req Resp Err) : Service W Req' Resp Err :=
    MkService (st svc) (fut svc)
      (fun s => poll_ready svc s)
      (fun s r => r1 <- f r ;; call svc s r1)
      (fun x => poll_fut svc x)
      (fun s => clone svc s)
      (fun s => drop_svc svc s)
      (fun x => drop_fut svc x).

  (** tower/src/util/map_response.rs:59-77 *)
  Definition map_response {Req Resp Resp' Err} (f : Resp -> M W Resp')
    (svc : Service W Req Resp Err) : Service W Req Resp' Err :=
    MkService (st svc) (option (fut svc))
      (fun s => poll_ready svc s)
      (fun s r => '(s1, x) <- call svc s r ;; ret (s1, Some x))
      (map_poll (poll_fut svc) (drop_fut svc)
         (fun r => match r with
                   | Ok a => b <- f a ;; ret (Ok b)
                   | Er e => ret (Er e)
                   end))
      (fun s => clone svc s)
      (fun s => drop_svc svc s)
      (map_drop (drop_fut svc)).

  (** tower/src/util/map_err.rs:59-77: the closure also maps the errors of
      [poll_ready]. *)
  Definition map_err {Req Resp Err Err'} (f : Err -> M W Err')
    (svc : Service W Req Resp Err) : Service W Req Resp Err' :=
    MkService (st svc) (option (fut svc))
      (fun s => x <- poll_ready svc s ;;
                match x with
                | (s1, Pending) => ret (s1, Pending)
                | (s1, Ready (Ok u)) => ret (s1, Ready (Ok u))
                | (s1, Ready (Er e)) => e1 <- f e ;; ret (s1, Ready (Er e1))
                end)
      (fun s r => '(s1, x) <- call svc s r ;; ret (s1, Some x))
      (map_poll (poll_fut svc) (drop_fut svc)
         (fun r => match r with
                   | Ok a => ret (Ok a)
                   | Er e => e1 <- f e ;; ret (Er e1)
                   end))
      (fun s => clone svc s)
      (fun s => drop_svc svc s)
      (map_drop (drop_fut svc)).

  (** tower/src/util/map_result.rs:59-78; [into] is [S::Error -> Error],
      applied to readiness errors only. *)
  Definition map_result {Req Resp Err Resp' Err'} (into : Err -> Err')
    (f : result Resp Err -> M W (result Resp' Err'))
    (svc : Service W Req Resp Err) : Service W Req Resp' Err' :=
    MkService (st svc) (option (fut svc))
      (fun s => '(s1, a) <- poll_ready svc s ;; ret (s1, poll_map (map_er into) a))
      (fun s r => '(s1, x) <- call svc s r ;; ret (s1, Some x))
      (map_poll (poll_fut svc) (drop_fut svc) f)
      (fun s => clone svc s)
      (fun s => drop_svc svc s)
      (map_drop (drop_fut svc)).

  (** tower/src/util/map_future.rs:49-67.  The closure turns the inner future
      into any other future, here the task [T]. *)
  Definition map_future {Req Resp Err Resp' Err'} (into : Err -> Err')
    (svc : Service W Req Resp Err) (T : Task W (result Resp' Err'))
    (f : fut svc -> M W (tst T)) : Service W Req Resp' Err' :=
    MkService (st svc) (tst T)
      (fun s => '(s1, a) <- poll_ready svc s ;; ret (s1, poll_map (map_er into) a))
      (fun s r => '(s1, x) <- call svc s r ;; t <- f x ;; ret (s1, t))
      (tpoll T)
      (fun s => clone svc s)
      (fun s => drop_svc svc s)
      (tdrop T).

  (** futures-util [Then]/[AndThen] states: First / Second / Empty. *)
  Inductive chain (F G : Type) := First (f : F) | Second (g : G) | Empty.
  Arguments First {F G} f.
  Arguments Second {F G} g.
  Arguments Empty {F G}.

  Definition chain_drop {F G} (fd : F -> W -> W) (gd : G -> W -> W) (c : chain F G)
    : W -> W :=
    match c with First f => fd f | Second g => gd g | Empty => fun w => w end.

  (** tower/src/util/then.rs:62-82: the closure receives the whole result, the
      future it returns then decides the outcome. *)
  Definition then_ {Req Resp Err Resp' Err'} (into : Err -> Err')
    (T : Task W (result Resp' Err')) (f : result Resp Err -> M W (tst T))
    (svc : Service W Req Resp Err) : Service W Req Resp' Err' :=
    MkService (st svc) (chain (fut svc) (tst T))
      (fun s => '(s1, a) <- poll_ready svc s ;; ret (s1, poll_map (map_er into) a))
      (fun s r => '(s1, x) <- call svc s r ;; ret (s1, First x))
      (fun c =>
         let second t :=
           x <- tpoll T t ;;
           match x with
           | (t1, Pending) => ret (Second t1, Pending)
           | (t1, Ready v) => modify (tdrop T t1) ;;; ret (Empty, Ready v)
           end in
         match c with
         | First x =>
             y <- poll_fut svc x ;;
             match y with
             | (x1, Pending) => ret (First x1, Pending)
             | (x1, Ready v) => modify (drop_fut svc x1) ;;; t <- f v ;; second t
             end
         | Second t => second t
         | Empty => panic
         end)
      (fun s => clone svc s)
      (fun s => drop_svc svc s)
      (chain_drop (drop_fut svc) (tdrop T)).

  (** tower/src/util/and_then.rs:91-109: the closure runs on [Ok] only. *)
  Definition and_then {Req Resp Err Resp' Err'} (into : Err -> Err')
    (T : Task W (result Resp' Err')) (f : Resp -> M W (tst T))
    (svc : Service W Req Resp Err) : Service W Req Resp' Err' :=
    MkService (st svc) (chain (fut svc) (tst T))
      (fun s => '(s1, a) <- poll_ready svc s ;; ret (s1, poll_map (map_er into) a))
      (fun s r => '(s1, x) <- call svc s r ;; ret (s1, First x))
      (fun c =>
         let second t :=
           x <- tpoll T t ;;
           match x with
           | (t1, Pending) => ret (Second t1, Pending)
           | (t1, Ready v) => modify (tdrop T t1) ;;; ret (Empty, Ready v)
           end in
         match c with
         | First x =>
             y <- poll_fut svc x ;;
             match y with
             | (x1, Pending) => ret (First x1, Pending)
             | (x1, Ready (Ok v)) => modify (drop_fut svc x1) ;;; t <- f v ;; second t
             | (x1, Ready (Er e)) => modify (drop_fut svc x1) ;;; ret (Empty, Ready (Er (into e)))
             end
         | Second t => second t
         | Empty => panic
         end)
      (fun s => clone svc s)
      (fun s => drop_svc svc s)
      (chain_drop (drop_fut svc) (tdrop T)).

  (** tower/src/util/either.rs:27-88 (also [option_layer], util/mod.rs:1050). *)
  Definition either {Req Resp Err} (a b : Service W Req Resp Err) : Service W Req Resp Err :=
    MkService (st a + st b) (fut a + fut b)
      (fun s => match s with
                | inl x => '(x1, p) <- poll_ready a x ;; ret (inl x1, p)
                | inr y => '(y1, p) <- poll_ready b y ;; ret (inr y1, p)
                end)
      (fun s r => match s with
                  | inl x => '(x1, f) <- call a x r ;; ret (inl x1, inl f)
                  | inr y => '(y1, f) <- call b y r ;; ret (inr y1, inr f)
                  end)
      (fun f => match f with
                | inl x => '(x1, p) <- poll_fut a x ;; ret (inl x1, p)
                | inr y => '(y1, p) <- poll_fut b y ;; ret (inr y1, p)
                end)
      (fun s => match s with
                | inl x => x1 <- clone a x ;; ret (inl x1)
                | inr y => y1 <- clone b y ;; ret (inr y1)
                end)
      (fun s => match s with inl x => drop_svc a x | inr y => drop_svc b y end)
      (fun f => match f with inl x => drop_fut a x | inr y => drop_fut b y end).

  (** tower/src/util/optional/mod.rs:35-59, optional/future.rs:27-40.
      Errors: [inl e] is the wrapped service's, [inr tt] is optional::error::None. *)
  Definition optional {Req Resp Err} (svc : Service W Req Resp Err)
    : Service W Req Resp (Err + unit) :=
    MkService (option (st svc)) (option (fut svc))
      (fun s => match s with
                | Some x => '(x1, p) <- poll_ready svc x ;; ret (Some x1, poll_map (map_er inl) p)
                | None => ret (None, Ready (Ok tt))
                end)
      (fun s r => match s with
                  | Some x => '(x1, f) <- call svc x r ;; ret (Some x1, Some f)
                  | None => ret (None, None)
                  end)
      (fun f => match f with
                | Some x => '(x1, p) <- poll_fut svc x ;; ret (Some x1, poll_map (map_er inl) p)
                | None => ret (None, Ready (Er (inr tt)))
                end)
      (fun s => match s with
                | Some x => x1 <- clone svc x ;; ret (Some x1)
                | None => ret None
                end)
      (fun s => match s with Some x => drop_svc svc x | None => fun w => w end)
      (fun f => match f with Some x => drop_fut svc x | None => fun w => w end).

  (** tower/src/util/service_fn.rs:66-82: always ready; [call] runs the closure. *)
  Definition service_fn {Req Resp Err} (T : Task W (result Resp Err))
    (f : Req -> M W (tst T)) : Service W Req Resp Err :=
    MkService unit (tst T)
      (fun s => ret (s, Ready (Ok tt)))
      (fun s r => t <- f r ;; ret (s, t))
      (tpoll T)
      (fun s => ret s)
      (fun _ w => w)
      (tdrop T).

  (** tower/src/util/future_service.rs:143-172.  The future is the task [T];
      the [loop] of [poll_ready] runs at most twice, so it is unrolled.  The
      resolved future is dropped when the state is overwritten.
      Simplification: cloning the *future* half ([F: Clone]) is the function [tclone]. *)
  Definition future_service {Req Resp Err} (svc : Service W Req Resp Err)
    (T : Task W (result (st svc) Err)) (tclone : tst T -> M W (tst T))
    : Service W Req Resp Err :=
    MkService (tst T + st svc) (fut svc)
      (fun s =>
         match s with
         | inl t =>
             x <- tpoll T t ;;
             match x with
             | (t1, Pending) => ret (inl t1, Pending)
             | (t1, Ready (Er e)) => ret (inl t1, Ready (Er e))
             | (t1, Ready (Ok s0)) =>
                 modify (tdrop T t1) ;;;
                 '(s1, p) <- poll_ready svc s0 ;; ret (inr s1, p)
             end
         | inr s0 => '(s1, p) <- poll_ready svc s0 ;; ret (inr s1, p)
         end)
      (fun s r =>
         match s with
         | inr s0 => '(s1, f) <- call svc s0 r ;; ret (inr s1, f)
         | inl _ => panic
         end)
      (poll_fut svc)
      (fun s => match s with
                | inl t => t1 <- tclone t ;; ret (inl t1)
                | inr s0 => s1 <- clone svc s0 ;; ret (inr s1)
                end)
      (fun s => match s with inl t => tdrop T t | inr s0 => drop_svc svc s0 end)
      (drop_fut svc).
End Util.
Arguments First {F G} f.
Arguments Second {F G} g.
Arguments Empty {F G}.

Section Drivers.
  Context {W Req Resp Err : Type} (svc : Service W Req Resp Err).

  (** tower/src/util/oneshot.rs:22-45, the state of the [Oneshot] future. *)
  Inductive oneshot_st :=
  | OsNotReady (s : st svc) (req : option Req)
  | OsCalled (f : fut svc)
  | OsDone.

  (** oneshot.rs:69-79 *)
  Definition oneshot_new (s : st svc) (r : Req) : oneshot_st := OsNotReady s (Some r).

  (** oneshot.rs:96-100: the [Called] arm. *)
  Definition oneshot_called (f : fut svc) : M W (oneshot_st * poll (result Resp Err)) :=
    x <- poll_fut svc f ;;
    match x with
    | (f1, Pending) => ret (OsCalled f1, Pending)
    | (f1, Ready (Er e)) => ret (OsCalled f1, Ready (Er e))
    | (f1, Ready (Ok a)) => modify (drop_fut svc f1) ;;; ret (OsDone, Ready (Ok a))
    end.

  (** oneshot.rs:87-104: [poll]; the loop runs its body at most twice.  Setting
      the state to [Called] drops the service. *)
  Definition oneshot_poll (o : oneshot_st) : M W (oneshot_st * poll (result Resp Err)) :=
    match o with
    | OsNotReady s req =>
        x <- poll_ready svc s ;;
        match x with
        | (s1, Pending) => ret (OsNotReady s1 req, Pending)
        | (s1, Ready (Er e)) => ret (OsNotReady s1 req, Ready (Er e))
        | (s1, Ready (Ok _)) =>
            match req with
            | None => panic
            | Some r =>
                '(s2, f) <- call svc s1 r ;;
                modify (drop_svc svc s2) ;;;
                oneshot_called f
            end
        end
    | OsCalled f => oneshot_called f
    | OsDone => panic
    end.

  Definition oneshot_drop (o : oneshot_st) : W -> W :=
    match o with
    | OsNotReady s _ => drop_svc svc s
    | OsCalled f => drop_fut svc f
    | OsDone => fun w => w
    end.

  Definition oneshot : Task W (result Resp Err) := MkTask oneshot_st oneshot_poll oneshot_drop.

  (** tower/src/util/ready.rs:37-52: [ReadyOneshot::poll]; [None] = service
      already handed back. *)
  Definition ready_oneshot_poll (o : option (st svc))
    : M W (option (st svc) * poll (result (st svc) Err)) :=
    match o with
    | None => panic
    | Some s =>
        x <- poll_ready svc s ;;
        match x with
        | (s1, Pending) => ret (Some s1, Pending)
        | (s1, Ready (Er e)) => ret (Some s1, Ready (Er e))
        | (s1, Ready (Ok _)) => ret (None, Ready (Ok s1))
        end
    end.
  Definition ready_oneshot : Task W (result (st svc) Err) :=
    MkTask (option (st svc)) ready_oneshot_poll
      (fun o => match o with Some s => drop_svc svc s | None => fun w => w end).
End Drivers.
