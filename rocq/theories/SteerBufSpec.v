(** Specification vocabulary for C91: a [Steer] over [n] services, each wrapped in a [Buffer] of its own. *)
From Verif Require Import Base ContractSpec Limits Buffer BufferSpec RoomSpec BufSvcSpec BufSvcBase BufSvc Middleware Apart.
Set Implicit Arguments.

Section Program.
  Context {W Req Resp Err P : Type} (cl : bool) (svc : Service W Req Resp Err) (s0 : st svc).
  Context (others : bsys svc -> list (@bop W Req)) (coop : bsys svc -> bool).
  Context (choose : P -> Req -> list (nat * bst) -> P * nat) (pclone : P -> M (nat -> bw cl svc s0) P).
  Notation buffers := (apart (buffer_service cl s0 others coop)).

  (** [Steer] over the buffers; the picker chooses as it likes. *)
  Definition steered : Service (nat -> bw cl svc s0) Req Resp (berr (Err := Err)) :=
    steer buffers (fun p r l => ret (choose p r l)) pclone.

  (** Buffer number [k], with room for [bound k] requests, over the service in world [w k]; the [Steer] holds one handle of
      each and nobody holds another. *)
  Definition fresh_worlds (bound : nat -> nat) (w : nat -> W) : nat -> bw cl svc s0 :=
    fun k => buffer_world cl svc s0 (bound k) (w k).
  Definition fresh_steer (n : nat) (router : P) : st steered :=
    steer_new buffers (map (fun k => (k, buffer_handle cl s0 others coop)) (seq 0 n)) router.

  (** What happens: the [Steer] is asked whether it is ready; it is given a request, if it has just said that it is; the
      worker of buffer [k], the response futures it gave out, and the service behind it move, in any way. *)
  Inductive sop := SAsk | SCall (r : Req) | SSide (k : nat) (ops : list (@bop W Req)).
  (** What is observed. *)
  Inductive sobs :=
  | RReady (a : poll (result unit (berr (Err := Err))))
  | RSent (k id : nat) (r : Req)                    (* [call] passed [r] to buffer [k], future [id] *)
  | RSide (k : nat) (e : bobs svc)
  | RBroke.                                         (* a call panicked or did not return *)

  (** The handle is not touched behind the [Steer]'s back; tokio's budget never puts a [poll_ready] off. *)
  Definition aside (o : @bop W Req) : bool :=
    negb (of_handle 0 o) && match o with BStep _ c => negb c | _ => true end.
  Fixpoint said_ready (l : list sobs) : bool :=
    match l with
    | RReady (Ready (Ok _)) :: _ => true
    | RSide _ _ :: l' => said_ready l'
    | _ => false
    end.

  Definition sstate : Type := st steered * (nat -> bw cl svc s0) * list sobs.
  Definition sstep (o : sop) (s : sstate) : sstate :=
    let '(c, ws, l) := s in
    match o with
    | SAsk => match poll_ready steered c ws with
              | (ws1, Val (c1, a)) => (c1, ws1, RReady a :: l)
              | (ws1, _) => (c, ws1, RBroke :: l)
              end
    | SCall r => if said_ready l then
                   match call steered c r ws with
                   | (ws1, Val (c1, f)) => (c1, ws1, RSent (fst f) (fst (snd f)) r :: l)
                   | (ws1, _) => (c, ws1, RBroke :: l)
                   end
                 else s
    | SSide k ops => let '(x, e) := moves (List.filter aside ops) (ws k) in
                     (c, upd ws k x, rev (map (RSide k) e) ++ l)
    end.
  Fixpoint srun (s : sstate) (ops : list sop) : sstate :=
    match ops with [] => s | o :: ops' => srun (sstep o s) ops' end.
End Program.
Arguments RReady {W Req Resp Err svc} a.
Arguments RSent {W Req Resp Err svc} k id r.
Arguments RSide {W Req Resp Err svc} k e.
Arguments RBroke {W Req Resp Err svc}.

Section Vocabulary.
  Context {W Req Resp Err : Type} {svc : Service W Req Resp Err}.
  Notation sobs := (@sobs W Req Resp Err svc).

  (** The requests passed to buffer [k]; the answered ones; those still to be answered. *)
  Fixpoint passed (k : nat) (l : list sobs) : list nat :=
    match l with
    | [] => []
    | RSent k' id _ :: l' => if k' =? k then id :: passed k l' else passed k l'
    | _ :: l' => passed k l'
    end.
  Fixpoint answered (k id : nat) (l : list sobs) : bool :=
    match l with
    | [] => false
    | RSide k' (OPolled id' (Ready _)) :: l' => (k' =? k) && (id' =? id) || answered k id l'
    | _ :: l' => answered k id l'
    end.
  Definition outstanding (k : nat) (l : list sobs) : nat :=
    length (List.filter (fun id => negb (answered k id l)) (passed k l)).
End Vocabulary.
