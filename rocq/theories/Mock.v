(** Model of tower-test/src/mock: Mock, Handle, SendResponse, ResponseFuture.

    Every method of [Mock] and [Handle] locks the state and holds the lock until it
    returns (except that [clone] then also locks its own sender, and that the drop of a
    [Handle] drops the receiver afterwards), so concurrent use is a sequence of these
    methods.  A panic with the lock held poisons it. *)
From Verif Require Import Base Middleware.
Set Implicit Arguments.

Section Mock.
  Context {T U E : Type}.
  (** tower-test/src/mock/error.rs: [Closed], or the error the test supplied. *)
  Inductive merr := MClosed | MUser (e : E).

  (** mod.rs:56-61.  [tx] and [state] are in the world. *)
  Record mock := Mock { id : nat; can_send : bool }.
  (** mod.rs:79-94.  [tasks] maps ids to wakers (numbers of tasks); the order in which
      [drain] goes through it is not specified. *)
  Record state := State {
    rem : N; tasks : list (nat * nat); is_closed : bool; next_clone_id : nat; err_with : option E }.
  (** tokio::sync::oneshot: what was sent, whether the sender lives, the waker of the receiver. *)
  Record oneshot := Oneshot { os_val : option (result U merr); os_tx : bool; os_waker : option nat }.
  (** Everything that is shared.  [queue]: requests not yet received, each with the number of its
      oneshot.  [senders]: the number of [tx]s.  [current]: the task whose context is passed to
      the poll; [woken]: the tasks woken so far. *)
  Record mworld := MWorld {
    shared : state; poisoned : bool; queue : list (T * nat); rx_live : bool; senders : nat;
    oneshots : list oneshot; current : nat; woken : list nat }.

  Definition set_state (s : state) (w : mworld) : mworld :=
    MWorld s (poisoned w) (queue w) (rx_live w) (senders w) (oneshots w) (current w) (woken w).
  Definition set_poisoned (w : mworld) : mworld :=
    MWorld (shared w) true (queue w) (rx_live w) (senders w) (oneshots w) (current w) (woken w).
  Definition set_queue (q : list (T * nat)) (live : bool) (w : mworld) : mworld :=
    MWorld (shared w) (poisoned w) q live (senders w) (oneshots w) (current w) (woken w).
  Definition set_senders (n : nat) (w : mworld) : mworld :=
    MWorld (shared w) (poisoned w) (queue w) (rx_live w) n (oneshots w) (current w) (woken w).
  Definition set_oneshots (l : list oneshot) (w : mworld) : mworld :=
    MWorld (shared w) (poisoned w) (queue w) (rx_live w) (senders w) l (current w) (woken w).
  Definition set_current (t : nat) (w : mworld) : mworld :=
    MWorld (shared w) (poisoned w) (queue w) (rx_live w) (senders w) (oneshots w) t (woken w).
  Definition wake (ts : list nat) (w : mworld) : mworld :=
    MWorld (shared w) (poisoned w) (queue w) (rx_live w) (senders w) (oneshots w) (current w) (woken w ++ ts).

  (** std HashMap *)
  Definition has_key (i : nat) (l : list (nat * nat)) : bool := existsb (fun p => fst p =? i) l.
  Definition remove_key (i : nat) (l : list (nat * nat)) : list (nat * nat) := List.filter (fun p => negb (fst p =? i)) l.
  Definition insert_key (i t : nat) (l : list (nat * nat)) : list (nat * nat) := (i, t) :: remove_key i l.

  (** mod.rs:100-116 and State::new, 305-313 *)
  Definition u64_max : N := 18446744073709551615.
  Definition pair : mock * mworld :=
    (Mock 0 false, MWorld (State u64_max [] false 1 None) false [] true 1 [] 0 []).

  (** mod.rs:123-154.  A failed [lock().unwrap()], and a failed [assert!], are panics. *)
  Definition mock_poll_ready (m : mock) : M mworld (mock * poll (result unit merr)) :=
    fun w =>
      let s := shared w in
      if poisoned w then (w, Panic)
      else if is_closed s then (w, Val (m, Ready (Er MClosed)))
      else match err_with s with
           | Some e => (set_state (State (rem s) (tasks s) (is_closed s) (next_clone_id s) None) w, Val (m, Ready (Er (MUser e))))
           | None =>
               if can_send m then (w, Val (m, Ready (Ok tt)))
               else if (0 <? rem s)%N then
                 if has_key (id m) (tasks s) then (set_poisoned w, Panic)
                 else (w, Val (Mock (id m) true, Ready (Ok tt)))
               else (set_state (State (rem s) (insert_key (id m) (current w) (tasks s)) (is_closed s) (next_clone_id s) (err_with s)) w,
                     Val (m, Pending))
           end.

  (** future.rs:15-21; [RfDone]: the oneshot's receiver has completed. *)
  Inductive resp_fut := RfClosed | RfWait (j : nat) | RfDone.
  (** mod.rs:156-187 *)
  Definition mock_call (m : mock) (r : T) : M mworld (mock * resp_fut) :=
    fun w =>
      let s := shared w in
      if poisoned w then (w, Panic)
      else if is_closed s then (w, Val (m, RfClosed))
      else if negb (can_send m) then (set_poisoned w, Panic)
      else
        let m1 := Mock (id m) false in
        let s1 := State (if (0 <? rem s)%N then N.pred (rem s) else rem s) (tasks s) (is_closed s) (next_clone_id s) (err_with s) in
        let w1 := set_state s1 w in
        if rx_live w1 then
          let j := length (oneshots w1) in
          (set_oneshots (oneshots w1 ++ [Oneshot None true None]) (set_queue (queue w1 ++ [(r, j)]) true w1), Val (m1, RfWait j))
        else (w1, Val (m1, RfClosed)).

  (** future.rs:36-47.  Polling a completed oneshot receiver panics (tokio). *)
  Definition resp_poll (f : resp_fut) : M mworld (resp_fut * poll (result U merr)) :=
    fun w =>
      match f with
      | RfClosed => (w, Val (RfClosed, Ready (Er MClosed)))
      | RfDone => (w, Panic)
      | RfWait j =>
          match nth_error (oneshots w) j with
          | Some (Oneshot (Some x) _ _) => (w, Val (RfDone, Ready x))
          | Some (Oneshot None true _) =>
              (set_oneshots (set_nth j (Oneshot None true (Some (current w))) (oneshots w)) w, Val (RfWait j, Pending))
          | _ => (w, Val (RfDone, Ready (Er MClosed)))
          end
      end.
  (** The receiver goes: its waker too. *)
  Definition resp_drop (f : resp_fut) (w : mworld) : mworld :=
    match f with
    | RfWait j =>
        match nth_error (oneshots w) j with
        | Some o => set_oneshots (set_nth j (Oneshot (os_val o) (os_tx o) None) (oneshots w)) w
        | None => w
        end
    | _ => w
    end.

  (** mod.rs:190-210.  ([u64] ids: 2^64 clones are not considered.) *)
  Definition mock_clone (_ : mock) : M mworld mock :=
    fun w =>
      let s := shared w in
      if poisoned w then (w, Panic)
      else (set_senders (S (senders w)) (set_state (State (rem s) (tasks s) (is_closed s) (S (next_clone_id s)) (err_with s)) w),
            Val (Mock (next_clone_id s) false)).
  (** mod.rs:212-227, then the drop of [tx].  [unwinding]: is the thread panicking? *)
  Definition mock_drop (m : mock) (unwinding : bool) : M mworld unit :=
    fun w =>
      let s := shared w in
      let w1 := set_senders (Nat.pred (senders w)) w in
      if poisoned w then (w1, if unwinding then Val tt else Panic)
      else (set_state (State (rem s) (remove_key (id m) (tasks s)) (is_closed s) (next_clone_id s) (err_with s)) w1, Val tt).

  Definition mock_service : Service mworld T U merr :=
    MkService mock resp_fut mock_poll_ready mock_call resp_poll mock_clone
      (fun m w => fst (mock_drop m true w)) resp_drop.

  (** mod.rs:233-240.  [Pending] from an empty queue; [None] once all the mocks are gone. *)
  Definition handle_poll_request : M mworld (poll (option (T * nat))) :=
    fun w => match queue w with
             | p :: q => (set_queue q (rx_live w) w, Val (Ready (Some p)))
             | [] => (w, Val (match senders w with 0 => Ready None | _ => Pending end))
             end.
  Definition wake_tasks (w : mworld) : mworld :=
    let s := shared w in
    wake (map snd (tasks s)) (set_state (State (rem s) [] (is_closed s) (next_clone_id s) (err_with s)) w).
  (** mod.rs:243-252 *)
  Definition handle_allow (n : N) : M mworld unit :=
    fun w =>
      let s := shared w in
      if poisoned w then (w, Panic)
      else let w1 := set_state (State n (tasks s) (is_closed s) (next_clone_id s) (err_with s)) w in
           ((if (0 <? n)%N then wake_tasks w1 else w1), Val tt).
  (** mod.rs:255-262 *)
  Definition handle_send_error (e : E) : M mworld unit :=
    fun w =>
      let s := shared w in
      if poisoned w then (w, Panic)
      else (wake_tasks (set_state (State (rem s) (tasks s) (is_closed s) (next_clone_id s) (Some e)) w), Val tt).
  (** mod.rs:265-284; [true]: it marked the state as closed. *)
  Definition handle_drop (unwinding : bool) : M mworld bool :=
    fun w =>
      let s := shared w in
      if poisoned w then (w, if unwinding then Val false else Panic)
      else (wake_tasks (set_state (State (rem s) (tasks s) true (next_clone_id s) (err_with s)) w), Val true).

  (** oneshot::Sender::send and its drop; both wake the receiver. *)
  Definition close_oneshot (x : option (result U merr)) (j : nat) (w : mworld) : mworld :=
    match nth_error (oneshots w) j with
    | Some o =>
        let w1 := set_oneshots (set_nth j (Oneshot x false None) (oneshots w)) w in
        match os_waker o with Some t => wake [t] w1 | None => w1 end
    | None => w
    end.
  (** mod.rs:288-300 *)
  Definition send_response (j : nat) (x : result U merr) (w : mworld) : mworld := close_oneshot (Some x) j w.
  Definition drop_send_response (j : nat) (w : mworld) : mworld := close_oneshot None j w.
  (** The drop of [Handle::rx]: the requests in the queue go, with their [SendResponse]s. *)
  Definition drop_rx (w : mworld) : mworld :=
    fold_left (fun w p => drop_send_response (snd p) w) (queue w) (set_queue [] false w).
End Mock.
Arguments MClosed {E}.
Arguments MUser {E} e.
