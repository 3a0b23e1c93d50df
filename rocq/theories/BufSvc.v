(** Model of [Buffer] as a [Service] (tower/src/buffer/service.rs:85-144,
    future.rs): the handles of Buffer.v put behind the interface the other
    middleware uses, so that they can be stacked.

    The world of this service is the whole concurrent program of Buffer.v - channel,
    worker, every handle and every future - in any [sound] state (BufSvcSpec.v; the states
    a program reaches are sound: BufSvcBase.v, [sound_new], [sound_step]).
    While a function of this handle is between two of its steps the others move: [others]
    names their moves, as any function of the state; moves of this very handle are left out,
    since it is borrowed.  [coop]: is tokio's budget used up. *)
From Verif Require Import Base ContractSpec Limits Buffer BufSvcSpec BufSvcBase.
Set Implicit Arguments.

Section BufSvc.
  Context {W Req Resp Err : Type} (cl : bool) (svc : Service W Req Resp Err) (s0 : st svc).
  Notation bop := (@bop W Req).
  Definition bw : Type := { y : bsys svc | sound cl s0 y }.

  (** One move (Buffer.v), and several. *)
  Definition move (o : bop) (x : bw) : bw * list (bobs svc) :=
    (exist _ (fst (bstep o (proj1_sig x))) (sound_step o (proj2_sig x)), snd (bstep o (proj1_sig x))).
  Fixpoint moves (l : list bop) (x : bw) : bw * list (bobs svc) :=
    match l with
    | [] => (x, [])
    | o :: l' => let '(x1, e1) := move o x in let '(x2, e2) := moves l' x1 in (x2, e1 ++ e2)
    end.

  Context (others : bsys svc -> list bop) (coop : bsys svc -> bool).

  Definition meanwhile (h : nat) (x : bw) : list bop :=
    List.filter (fun o => negb (of_handle h o)) (others (proj1_sig x)).

  (** A handle is its number and its [PollSender]'s state; that it stands in the program with this state, at rest,
      is made sure of before each use.  In a program's own states nothing changes ([C78_is_the_program]). *)
  Definition settle (s : bst) (x : bw) : bw :=
    if standing s (proj1_sig x) then x
    else exist _ (set_hnext (S (fst s + y_hnext (proj1_sig x))) (put_handle (fst s) (Hd (snd s) HRest) (proj1_sig x)))
           (sound_placed _ _ _ (proj2_sig x)).

  (** The handle's function goes on, the others having moved, unless it has returned. *)
  Definition busy (h : nat) (y : bsys svc) : bool :=
    match y_hs y h with Some d => negb (at_rest d) | None => false end.
  Definition go_on (h : nat) (x : bw) : bw * list (bobs svc) :=
    if busy h (proj1_sig x)
    then let '(x1, e1) := moves (meanwhile h x) x in
         let '(x2, e2) := move (BStep h (coop (proj1_sig x1))) x1 in (x2, e1 ++ e2)
    else (x, []).

  Definition sender (h : nat) (y : bsys svc) : psend :=
    match y_hs y h with Some d => h_ps d | None => PsIdle end.

  (** What the log says was answered. *)
  Fixpoint ready_answer (h : nat) (l : list (bobs svc)) : option (poll (result unit (berr (Err := Err)))) :=
    match l with
    | [] => None
    | OReady i a :: l' => if i =? h then Some a else ready_answer h l'
    | _ :: l' => ready_answer h l'
    end.
  Fixpoint call_answer (h : nat) (l : list (bobs svc)) : option (option nat) :=
    match l with
    | [] => None
    | OSent i id _ :: l' | ORefused i id _ _ :: l' => if i =? h then Some (Some id) else call_answer h l'
    | OCallPanic i _ :: l' => if i =? h then Some None else call_answer h l'
    | _ :: l' => call_answer h l'
    end.
  Fixpoint poll_answer (id : nat) (l : list (bobs svc)) : option (out (poll (result Resp (berr (Err := Err))))) :=
    match l with
    | [] => None
    | OPolled i a :: l' => if i =? id then Some (Val a) else poll_answer id l'
    | OPollPanic i :: l' => if i =? id then Some Panic else poll_answer id l'
    | OPollHang i :: l' => if i =? id then Some Diverge else poll_answer id l'
    | _ :: l' => poll_answer id l'
    end.
  Fixpoint clone_answer (h : nat) (l : list (bobs svc)) : option nat :=
    match l with
    | [] => None
    | OCloned i j :: l' => if i =? h then Some j else clone_answer h l'
    | _ :: l' => clone_answer h l'
    end.

  (** service.rs:97-108: at most three steps; the [Diverge] is never reached. *)
  Definition bready (s : bst) (x : bw) : bw * out (bst * poll (result unit (berr (Err := Err)))) :=
    let '(x1, e1) := move (BReady (fst s)) (settle s x) in
    let '(x2, e2) := go_on (fst s) x1 in
    let '(x3, e3) := go_on (fst s) x2 in
    (x3, match ready_answer (fst s) (e1 ++ e2 ++ e3) with
         | Some a => Val ((fst s, sender (fst s) (proj1_sig x3)), a)
         | None => Diverge
         end).
  (** service.rs:110-131: at most two. *)
  Definition bcall (s : bst) (r : Req) (x : bw) : bw * out (bst * (nat * bool)) :=
    let '(x1, e1) := move (BCall (fst s) r) (settle s x) in
    let '(x2, e2) := go_on (fst s) x1 in
    (x2, match call_answer (fst s) (e1 ++ e2) with
         | Some (Some id) => Val ((fst s, sender (fst s) (proj1_sig x2)), (id, false))
         | Some None => Panic
         | None => Diverge
         end).
  (** future.rs:62-78.  A future is its number (its state is in the program), and whether it has completed; polled again
      after that it panics or does not, depending on its state: here it panics.  A future the program knows nothing of
      is [Pending]. *)
  Definition bpoll (f : nat * bool) (x : bw) : bw * out ((nat * bool) * poll (result Resp (berr (Err := Err)))) :=
    if snd f then (x, Panic)
    else let '(x1, e1) := move (BPollF (fst f) (coop (proj1_sig x))) x in
         (x1, match poll_answer (fst f) e1 with
              | Some (Val a) => Val ((fst f, match a with Pending => false | Ready _ => true end), a)
              | Some Panic => Panic
              | Some Diverge => Diverge
              | None => Val (f, Pending)
              end).
  (** service.rs:134-144 *)
  Definition bclone (s : bst) (x : bw) : bw * out bst :=
    let '(x1, e1) := move (BClone (fst s)) (settle s x) in
    (x1, match clone_answer (fst s) e1 with Some h => Val (h, PsIdle) | None => Diverge end).

  Definition buffer_service : Service bw Req Resp (berr (Err := Err)) :=
    MkService (W := bw) bst (nat * bool) bready bcall bpoll bclone
      (fun s x => fst (move (BDrop (fst s)) (settle s x)))
      (fun f x => fst (move (BDropF (fst f)) x)).

  (** service.rs:66-80: the first handle, and the program it stands in. *)
  Definition buffer_handle : st buffer_service := (0, PsIdle).
  Definition buffer_world (bound : nat) (w : W) : bw := exist _ (bsys0 svc bound s0 w) (sound_new bound w).
End BufSvc.
