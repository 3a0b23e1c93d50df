(** Specification vocabulary: driving one future to its end, and comparing two
    histories. *)
From Verif Require Import Base Util.
Set Implicit Arguments.

(** How a future stands after having been polled a number of times. *)
Inductive fin (W F A : Type) :=
| Unfinished (f : F) (w : W)             (* still pending *)
| Finished (f : F) (w : W) (a : A)       (* completed with [a]; [f] is what the owner will drop *)
| Panicked (w : W)
| Spun (w : W).
Arguments Unfinished {W F A} f w.
Arguments Finished {W F A} f w a.
Arguments Panicked {W F A} w.
Arguments Spun {W F A} w.

(** Poll until completion, at most once per element of [gs]; before each poll
    the environment makes the change [g].  Result: the worlds after each poll
    that answered [Pending], and the end. *)
Fixpoint drive {W F A} (pollf : F -> M W (F * poll A)) (f : F) (w : W) (gs : list (W -> W))
  : list W * fin W F A :=
  match gs with
  | [] => ([], Unfinished f w)
  | g :: gs' =>
      match pollf f (g w) with
      | (w1, Val (f1, Pending)) =>
          let '(l, e) := drive pollf f1 w1 gs' in (w1 :: l, e)
      | (w1, Val (f1, Ready a)) => ([], Finished f1 w1 a)
      | (w1, Panic) => ([], Panicked w1)
      | (w1, Diverge) => ([], Spun w1)
      end
  end.

(** The history of a wrapper future in terms of that of the wrapped one: the
    same up to completion, where [k] then runs and gives the final answer. *)
Definition fin_then {W F G A B} (wrap : F -> G) (k : F -> A -> M W (G * B))
  (d : list W * fin W F A) : list W * fin W G B :=
  (fst d,
   match snd d with
   | Unfinished f w => Unfinished (wrap f) w
   | Finished f w a =>
       match k f a w with
       | (w1, Val (g, b)) => Finished g w1 b
       | (w1, Panic) => Panicked w1
       | (w1, Diverge) => Spun w1
       end
   | Panicked w => Panicked w
   | Spun w => Spun w
   end).

(** Two-stage futures: when the first stage completes, [k] either starts a
    second stage (which is polled at once, within the same poll of the owner) or
    gives the final answer. *)
Definition fin_chain {W F T G A B C} (wrap1 : F -> G) (wrap2 : T -> G)
  (k : F -> A -> M W (T + G * B)) (pollt : T -> M W (T * poll C)) (k2 : T -> C -> M W (G * B))
  (d : list W * fin W F A) (gs : list (W -> W)) : list W * fin W G B :=
  match d with
  | (l, Unfinished f w) => (l, Unfinished (wrap1 f) w)
  | (l, Finished f w a) =>
      match k f a w with
      | (w1, Val (inl t)) =>
          let '(l2, e2) := fin_then wrap2 k2 (drive pollt t w1 ((fun w => w) :: skipn (S (length l)) gs)) in
          (l ++ l2, e2)
      | (w1, Val (inr (g, b))) => (l, Finished g w1 b)
      | (w1, Panic) => (l, Panicked w1)
      | (w1, Diverge) => (l, Spun w1)
      end
  | (l, Panicked w) => (l, Panicked w)
  | (l, Spun w) => (l, Spun w)
  end.

(** Comparing the histories of two service instances [a] (wrapped) and [b]
    (wrapper) driven by the same owner: requests are related by [greq], errors
    by [ge], and the futures handed out by [wf] (which may look at the worlds
    before and after the call).  Worlds before and after every
    operation are the same. *)
Section Compare.
  Context {W Req Resp Err Req' Resp' Err' : Type}.
  Context {a : Service W Req Resp Err} {b : Service W Req' Resp' Err'}.
  Context (greq : Req' -> Req) (ge : Err -> Err') (wf : W -> W -> fut a -> fut b).

  Definition op_map (o : (W -> W) * @sop Req') : (W -> W) * @sop Req :=
    match o with
    | (g, SReady) => (g, SReady)
    | (g, SCall r) => (g, SCall (greq r))
    end.

  Inductive obs_agree : W * sobs a * W -> W * sobs b * W -> Prop :=
  | oa_ready w p w1 : obs_agree (w, ObsReady p, w1) (w, ObsReady (poll_map (map_er ge) p), w1)
  | oa_call w r f w1 : obs_agree (w, ObsCall (greq r) f, w1) (w, ObsCall r (wf w w1 f), w1)
  | oa_skip w w1 : obs_agree (w, ObsSkip, w1) (w, ObsSkip, w1)
  | oa_panic w w1 : obs_agree (w, ObsPanic, w1) (w, ObsPanic, w1)
  | oa_div w w1 : obs_agree (w, ObsDiverge, w1) (w, ObsDiverge, w1).

  Definition same_history (sa : st a) (sb : st b) : Prop :=
    forall p w ops, Forall2 obs_agree (run_svc a p sa w (map op_map ops)) (run_svc b p sb w ops).
End Compare.

(** What the owner of an [Optional] without a service observes: always ready,
    calls hand out the failing future, and nothing happens to the world. *)
Definition none_obs {W Req Resp Err} (svc : Service W Req Resp Err)
  (x : W * sobs (optional svc) * W) : Prop :=
  fst (fst x) = snd x /\
  match snd (fst x) with
  | ObsReady p => p = Ready (Ok tt)
  | ObsCall _ f => f = None
  | ObsSkip => True
  | _ => False
  end.

(** What the owner of a [service_fn] observes. *)
Definition fn_obs {W Req Resp Err} (T : Task W (result Resp Err)) (g : Req -> tst T)
  (x : W * sobs (service_fn T (fun r => ret (g r))) * W) : Prop :=
  fst (fst x) = snd x /\
  match snd (fst x) with
  | ObsReady p => p = Ready (Ok tt)
  | ObsCall r f => f = g r
  | ObsSkip => True
  | _ => False
  end.
