(** Specification for C95: when two services cannot be told apart. *)
From Verif Require Import Base Util ReadyCache SpawnReady Load Make Middleware Limits Hedge MeterSpec.
Set Implicit Arguments.

(** ** What a user can see.

    A client holds instances and response futures, all of them obtained from one instance; it uses them in any
    order and against the contract if it likes, clones and drops, and changes the world in between.  After each step
    it sees what came back and the whole world, and decides upon that what to do next. *)
Inductive seen (Resp Err : Type) :=
| SawReady (a : poll (result unit Err))
| SawPoll (a : poll (result Resp Err))
| SawDone
| SawPanic
| SawDiverge
| SawGone.          (* no such instance or future: nothing was done *)
Arguments SawReady {Resp Err} a.
Arguments SawPoll {Resp Err} a.
Arguments SawDone {Resp Err}.
Arguments SawPanic {Resp Err}.
Arguments SawDiverge {Resp Err}.
Arguments SawGone {Resp Err}.

Inductive client (W Req Resp Err : Type) :=
| Stop
| Do (o : @uop W Req) (k : W -> seen Resp Err -> client W Req Resp Err).
Arguments Stop {W Req Resp Err}.
Arguments Do {W Req Resp Err} o k.

Section Talk.
  Context {W Req Resp Err : Type} (svc : Service W Req Resp Err).

  Definition done_as {A} (o : out A) (f : A -> seen Resp Err) : seen Resp Err :=
    match o with Val x => f x | Panic => SawPanic | Diverge => SawDiverge end.

  (** What the step [MeterSpec.ustep] lets the client see. *)
  Definition sight (y : prog svc) (o : @uop W Req) : seen Resp Err :=
    let w := u_world y in
    match o with
    | UReady i => match held_at (u_svcs y) i with
                  | None => SawGone
                  | Some s => done_as (snd (poll_ready svc s w)) (fun x => SawReady (snd x))
                  end
    | UCall i r => match held_at (u_svcs y) i with
                   | None => SawGone
                   | Some s => done_as (snd (call svc s r w)) (fun _ => SawDone)
                   end
    | UClone i => match held_at (u_svcs y) i with
                  | None => SawGone
                  | Some s => done_as (snd (clone svc s w)) (fun _ => SawDone)
                  end
    | UDrop i => match held_at (u_svcs y) i with None => SawGone | Some _ => SawDone end
    | UPoll j => match held_at (u_futs y) j with
                 | None => SawGone
                 | Some f => done_as (snd (poll_fut svc f w)) (fun x => SawPoll (snd x))
                 end
    | UDropFut j => match held_at (u_futs y) j with None => SawGone | Some _ => SawDone end
    | UEnv _ => SawDone
    end.

  (** Everything a client sees in the course of time. *)
  Fixpoint talk (y : prog svc) (c : client W Req Resp Err) : list (seen Resp Err * W) :=
    match c with
    | Stop => []
    | Do o k =>
        let y1 := ustep y o in
        (sight y o, u_world y1) :: talk y1 (k (u_world y1) (sight y o))
    end.
End Talk.

(** The instance [sa] of [a] and the instance [sb] of [b] cannot be told apart: whatever the world, every client
    sees the same of the two. *)
Definition alike {W Req Resp Err} (a : Service W Req Resp Err) (sa : st a) (b : Service W Req Resp Err) (sb : st b) : Prop :=
  forall w c, talk (ustart a w [sa]) c = talk (ustart b w [sb]) c.

(** Two computations that, from the same world, do the same to it and end the same way. *)
Definition same_do {W A} (m1 m2 : M W A) : Prop := forall w, m1 w = m2 w.

(** One future after another, as closures: [f], then [g] (for [MapResponse] etc.). *)
Definition after {W A B C} (f : A -> M W B) (g : B -> M W C) : A -> M W C := fun x => y <- f x ;; g y.

(** The future [std::future::ready(v)], and one of two futures. *)
Definition ready_task {W A} : Task W A := MkTask A (fun v => ret (v, Ready v)) (fun _ w => w).
Definition or_ready {W A} (T : Task W A) : Task W A :=
  MkTask (tst T + A)
    (fun t => match t with
              | inl t => '(t1, p) <- tpoll T t ;; ret (inl t1, p)
              | inr v => ret (inr v, Ready v)
              end)
    (fun t => match t with inl t => tdrop T t | inr _ => fun w => w end).
(** The future of a service, with the error of its output converted. *)
Definition fut_into {W Req Resp Err Err'} (svc : Service W Req Resp Err) (into : Err -> Err') : Task W (result Resp Err') :=
  MkTask (fut svc) (fun f => '(f1, p) <- poll_fut svc f ;; ret (f1, poll_map (map_er into) p)) (drop_fut svc).
