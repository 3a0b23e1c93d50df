(** Specification for C64: how many requests can reach the service at the bottom
    of a stack of tower middleware. *)
From Verif Require Import Base Util ReadyCache SpawnReady Load Make Middleware Limits Hedge.
Set Implicit Arguments.

(** [calls w] is how many requests the service at the bottom has been given so far. *)

(** Code that does not reach that service, or any other counter [calls]: a change of the world, a computation
    (of which, besides, every result satisfies [P]), a future. *)
Definition same {W X} (calls : W -> X) (g : W -> W) : Prop := forall w, calls (g w) = calls w.
Definition leaves {W X A} (calls : W -> X) (m : M W A) (P : A -> Prop) : Prop :=
  forall w, calls (fst (m w)) = calls w /\ forall a, snd (m w) = Val a -> P a.
Definition still {W X A} (calls : W -> X) (m : M W A) : Prop := leaves calls m (fun _ => True).
Definition still_task {W X A} (calls : W -> X) (T : Task W A) : Prop :=
  (forall t, still calls (tpoll T t)) /\ (forall t, same calls (tdrop T t)).

(** The bottom: one call counts (at most) one, nothing else counts. *)
Record counts {W Req Resp Err} (calls : W -> nat) (svc : Service W Req Resp Err) : Prop := {
  ct_ready : forall s, still calls (poll_ready svc s);
  ct_call : forall s r w, calls w <= calls (fst (call svc s r w)) <= S (calls w);
  ct_poll : forall f, still calls (poll_fut svc f);
  ct_clone : forall s, still calls (clone svc s);
  ct_drop_svc : forall s, same calls (drop_svc svc s);
  ct_drop_fut : forall f, same calls (drop_fut svc f) }.

(** Any service at all, with a counter of its calls put in the world. *)
Definition lift_n {W A} (m : M W A) : M (nat * W) A :=
  fun x => match m (snd x) with (w1, o) => ((fst x, w1), o) end.
Definition counted {W Req Resp Err} (svc : Service W Req Resp Err) : Service (nat * W) Req Resp Err :=
  MkService (st svc) (fut svc)
    (fun s => lift_n (poll_ready svc s))
    (fun s r => modify (fun x => (S (fst x), snd x)) ;;; lift_n (call svc s r))
    (fun f => lift_n (poll_fut svc f))
    (fun s => lift_n (clone svc s))
    (fun s x => (fst x, drop_svc svc s (snd x)))
    (fun f x => (fst x, drop_fut svc f (snd x))).

(** [bounded calls k svc I]: [svc] is a stack, [I] its fresh instances, built such that every
    request may be multiplied by [k] at most.  Only two layers multiply: [retry], by one more
    than the number of retries its policy grants to one request, and [hedge], by two. *)
Inductive bounded : forall (W Req Resp Err : Type) (calls : W -> nat) (k : nat)
    (svc : Service W Req Resp Err), (st svc -> Prop) -> Prop :=
(* the service at the bottom *)
| bd_base W Req Resp Err calls (svc : Service W Req Resp Err) :
    counts calls svc -> bounded calls 1 svc (fun _ => True)
(* a service that does not reach it (another back end, a cache, ...) *)
| bd_service_fn W Req Resp Err calls (T : Task W (result Resp Err)) (f : Req -> M W (tst T)) :
    still_task calls T -> (forall r, still calls (f r)) ->
    bounded calls 0 (service_fn T f) (fun _ => True)
| bd_weaken W Req Resp Err calls k k' (svc : Service W Req Resp Err) (I I' : st svc -> Prop) :
    bounded calls k svc I -> k <= k' -> (forall s, I' s -> I s) -> bounded calls k' svc I'
(* tower::util *)
| bd_boxed W Req Resp Err calls k (svc : Service W Req Resp Err) I :
    bounded calls k svc I -> bounded calls k (boxed svc) I
| bd_map_request W Req Req' Resp Err calls k (svc : Service W Req Resp Err) I (f : Req' -> M W Req) :
    bounded calls k svc I -> (forall r, still calls (f r)) -> bounded calls k (map_request f svc) I
| bd_map_response W Req Resp Resp' Err calls k (svc : Service W Req Resp Err) I (f : Resp -> M W Resp') :
    bounded calls k svc I -> (forall r, still calls (f r)) -> bounded calls k (map_response f svc) I
| bd_map_err W Req Resp Err Err' calls k (svc : Service W Req Resp Err) I (f : Err -> M W Err') :
    bounded calls k svc I -> (forall r, still calls (f r)) -> bounded calls k (map_err f svc) I
| bd_map_result W Req Resp Err Resp' Err' calls k (svc : Service W Req Resp Err) I
    (into : Err -> Err') (f : result Resp Err -> M W (result Resp' Err')) :
    bounded calls k svc I -> (forall r, still calls (f r)) -> bounded calls k (map_result into f svc) I
| bd_then W Req Resp Err Resp' Err' calls k (svc : Service W Req Resp Err) I
    (into : Err -> Err') (T : Task W (result Resp' Err')) (f : result Resp Err -> M W (tst T)) :
    bounded calls k svc I -> still_task calls T -> (forall x, still calls (f x)) ->
    bounded calls k (then_ into T f svc) I
| bd_and_then W Req Resp Err Resp' Err' calls k (svc : Service W Req Resp Err) I
    (into : Err -> Err') (T : Task W (result Resp' Err')) (f : Resp -> M W (tst T)) :
    bounded calls k svc I -> still_task calls T -> (forall x, still calls (f x)) ->
    bounded calls k (and_then into T f svc) I
| bd_either W Req Resp Err calls k (a b : Service W Req Resp Err) Ia Ib :
    bounded calls k a Ia -> bounded calls k b Ib ->
    bounded calls k (either a b) (fun s => match s with inl x => Ia x | inr y => Ib y end)
| bd_optional W Req Resp Err calls k (svc : Service W Req Resp Err) I :
    bounded calls k svc I ->
    bounded calls k (optional svc) (fun s => match s with Some x => I x | None => True end)
| bd_future_service W Req Resp Err calls k (svc : Service W Req Resp Err) I
    (T : Task W (result (st svc) Err)) (tclone : tst T -> M W (tst T)) (VT : tst T -> Prop) :
    bounded calls k svc I -> still_task calls T ->
    (forall t, VT t -> leaves calls (tpoll T t)
       (fun x => VT (fst x) /\ match snd x with Ready (Ok s) => I s | _ => True end)) ->
    (forall t, VT t -> leaves calls (tclone t) VT) ->
    bounded calls k (future_service svc T tclone) (fun s => match s with inl t => VT t | inr s => I s end)
(* middleware *)
| bd_timeout W Req Resp Err calls k (svc : Service W Req Resp Err) I (rt : Rt W) dur :
    bounded calls k svc I -> (forall d, same calls (nap rt d)) ->
    bounded calls k (timeout rt dur svc) I
| bd_load_shed W Req Resp Err calls k (svc : Service W Req Resp Err) I :
    bounded calls k svc I ->
    bounded calls k (load_shed svc) (fun s => exists x, I x /\ s = load_shed_new svc x)
| bd_filter W Req Req' Resp Err P PErr calls k (svc : Service W Req Resp Err) I
    (check : P -> Req' -> M W (P * result Req PErr)) pclone :
    bounded calls k svc I -> (forall p r, still calls (check p r)) -> (forall p, still calls (pclone p)) ->
    bounded calls k (filter svc check pclone) (fun s => I (fst s))
| bd_async_filter W Req Req' Resp Err P PErr calls k (svc : Service W Req Resp Err) I
    (T : Task W (result Req PErr)) (check : P -> Req' -> M W (P * tst T)) pclone :
    bounded calls k svc I -> still_task calls T ->
    (forall p r, still calls (check p r)) -> (forall p, still calls (pclone p)) ->
    bounded calls k (async_filter svc T check pclone) (fun s => I (fst s))
(* [left p r]: how many more retries the policy in state [p] may grant to the request [r];
   [VP]: the states its user can put it in *)
| bd_retry W Req Resp Err calls k (svc : Service W Req Resp Err) I (pol : Policy W Req Resp Err)
    fuel n (VP : pst pol -> Prop) (left : pst pol -> Req -> nat) :
    bounded calls k svc I -> still_task calls (pfut pol) ->
    (forall p r, VP p -> left p r <= n) ->
    (forall p r, VP p -> leaves calls (clone_request pol p r)
       (fun x => VP (fst x) /\ match snd x with Some r1 => left (fst x) r1 <= left p r | None => True end)) ->
    (forall p r v, VP p -> leaves calls (retry_decide pol p r v)
       (fun x => VP (fst (fst (fst x))) /\
                 match snd x with
                 | Some _ => left (fst (fst (fst x))) (snd (fst (fst x))) < left p r
                 | None => left (fst (fst (fst x))) (snd (fst (fst x))) <= left p r
                 end)) ->
    (forall p, VP p -> leaves calls (pol_clone pol p) VP) ->
    bounded calls (k * S n) (retry pol svc fuel) (fun s => VP (fst s) /\ I (snd s))
| bd_steer W Req Resp Err P calls k (svc : Service W Req Resp Err) I
    (pick : P -> Req -> list (st svc) -> M W (P * nat)) pclone :
    bounded calls k svc I -> (forall q r l, still calls (pick q r l)) -> (forall q, still calls (pclone q)) ->
    bounded calls k (steer svc pick pclone) (fun s => exists q l, s = steer_new svc l q /\ Forall I l)
(* connecting must not itself go through the service at the bottom *)
| bd_reconnect W Tgt Req Resp Err MErr calls k (svc : Service W Req Resp Err) I
    (mk : Service W Tgt (st svc) MErr) Im target fuel :
    bounded calls k svc I -> bounded calls 0 mk Im ->
    (forall f w w1 f1 s, poll_fut mk f w = (w1, Val (f1, Ready (Ok s))) -> I s) ->
    bounded calls k (reconnect svc mk target fuel)
      (fun s => (exists m, Im m /\ s = reconnect_new svc mk m) \/
                (exists x m, I x /\ Im m /\ s = reconnect_with_connection svc mk x m))
| bd_rate_limit W Req Resp Err calls k (svc : Service W Req Resp Err) I (rt : Rt W) rate :
    bounded calls k svc I -> (forall d, same calls (nap rt d)) ->
    bounded calls k (rate_limit rt rate svc)
      (fun s => exists x w w1, I x /\ rate_limit_new rt rate svc x w = (w1, Val s))
| bd_conc_limit W Req Resp Err calls k (svc : Service W Req Resp Err) I closed debug :
    bounded calls k svc I ->
    bounded (fun x => calls (snd x)) k (conc_limit svc closed debug)
      (fun s => exists x, I x /\ s = conc_new svc x)
| bd_hedge W Req Resp Err calls k (svc : Service W Req Resp Err) I (rt : Rt W)
    clone_request can_retry mdp quantile getH setH :
    bounded calls k svc I -> (forall d, same calls (nap rt d)) -> (forall h, same calls (setH h)) ->
    bounded calls (k * 2) (hedge rt svc clone_request can_retry mdp quantile getH setH)
      (fun s => exists x w w1, I x /\
         hedge_new rt svc clone_request can_retry mdp quantile getH setH x w = (w1, Val s))
(* makers: asking for a service is not a request to it *)
| bd_shared W Tgt Req Resp Err calls k (svc : Service W Req Resp Err) I :
    bounded calls k svc I -> bounded calls 0 (shared (Tgt := Tgt) svc) I
| bd_into_service W Tgt Made MErr calls k (mk : Service W Tgt Made MErr) I :
    bounded calls k mk I -> bounded calls k (into_service mk) I
| bd_as_service W Tgt Made MErr calls k (mk : Service W Tgt Made MErr) I :
    bounded calls k mk I -> bounded calls k (as_service mk) I
| bd_make_balance W K Req Resp Err DErr G Tgt MErr calls k (svc : Service W Req Resp Err)
    (D : Discover W K (st svc) DErr) (mk : Service W Tgt (dst D) MErr) I (g0 : M W G) :
    bounded calls k mk I -> still calls g0 -> bounded calls k (make_balance svc D mk g0) I
(* load measurement *)
| bd_constant W Req Resp Err Met calls k (svc : Service W Req Resp Err) I :
    bounded calls k svc I -> bounded calls k (constant (M' := Met) svc) (fun s => I (fst s))
| bd_tracked_load W Req Resp Err C T calls k (svc : Service W Req Resp Err) I
    (start : M W T) (finish : T -> C -> W -> C * W) (keep : Resp -> W -> W * bool) :
    bounded calls k svc I -> still calls start ->
    (forall t c, same calls (fun w => snd (finish t c w))) -> (forall v, same calls (fun w => fst (keep v w))) ->
    bounded (fun x => calls (snd x)) k (tracked_load svc start finish keep) I
| bd_spawn_ready W Req Resp Err calls k (svc : Service W Req Resp Err) I (bg : W -> W * nat) fuel :
    bounded calls k svc I -> same calls (fun w => fst (bg w)) ->
    bounded calls k (spawn_ready svc bg fuel) (fun s => exists x, I x /\ s = spawn_ready_new svc x)
| bd_balance W K Req Resp Err DErr Met G (keq : forall a b : K, {a = b} + {a <> b}) calls k
    (svc : Service W Req Resp Err) I (D : Discover W K (st svc) DErr) sched
    (next_u64 : G -> M W (G * Z)) debug (load : st svc -> M W Met) le fuel (VD : dst D -> Prop) :
    bounded calls k svc I ->
    (forall d, VD d -> leaves calls (poll_discover D d)
       (fun x => VD (fst x) /\ match snd x with Ready (Some (Ok (Insert _ s))) => I s | _ => True end)) ->
    (forall d, same calls (ddrop D d)) ->
    (forall l, same calls (fun w => fst (sched l w))) ->
    (forall g, still calls (next_u64 g)) -> (forall s, still calls (load s)) ->
    bounded calls k (balance keq svc D sched next_u64 debug load le fuel)
      (fun s => exists d g, VD d /\ s = balance_new svc D d g).

(** ** A program using such a stack: any number of instances (clones included) and response futures, in
    any order, contract honoured or not, anything dropped at any time, the world changing in between. *)
Section Program.
  Context {W Req Resp Err : Type} (svc : Service W Req Resp Err).

  Inductive uop :=
  | UReady (i : nat)
  | UCall (i : nat) (r : Req)
  | UClone (i : nat)
  | UDrop (i : nat)
  | UPoll (j : nat)
  | UDropFut (j : nat)
  | UEnv (g : W -> W).

  (** Instances and futures by number; [None]: dropped, or lost in a panic. *)
  Record prog := Prog { u_world : W; u_svcs : list (option (st svc)); u_futs : list (option (fut svc)) }.

  Definition held_at {A} (l : list (option A)) (i : nat) : option A :=
    match nth_error l i with Some o => o | None => None end.

  Definition ustep (y : prog) (o : uop) : prog :=
    let w := u_world y in
    match o with
    | UReady i =>
        match held_at (u_svcs y) i with
        | None => y
        | Some s =>
            match poll_ready svc s w with
            | (w1, Val (s1, _)) => Prog w1 (set_nth i (Some s1) (u_svcs y)) (u_futs y)
            | (w1, _) => Prog w1 (set_nth i None (u_svcs y)) (u_futs y)
            end
        end
    | UCall i r =>
        match held_at (u_svcs y) i with
        | None => y
        | Some s =>
            match call svc s r w with
            | (w1, Val (s1, f)) => Prog w1 (set_nth i (Some s1) (u_svcs y)) (u_futs y ++ [Some f])
            | (w1, _) => Prog w1 (set_nth i None (u_svcs y)) (u_futs y)
            end
        end
    | UClone i =>
        match held_at (u_svcs y) i with
        | None => y
        | Some s =>
            match clone svc s w with
            | (w1, Val s1) => Prog w1 (u_svcs y ++ [Some s1]) (u_futs y)
            | (w1, _) => Prog w1 (u_svcs y) (u_futs y)
            end
        end
    | UDrop i =>
        match held_at (u_svcs y) i with
        | None => y
        | Some s => Prog (drop_svc svc s w) (set_nth i None (u_svcs y)) (u_futs y)
        end
    | UPoll j =>
        match held_at (u_futs y) j with
        | None => y
        | Some f =>
            match poll_fut svc f w with
            | (w1, Val (f1, _)) => Prog w1 (u_svcs y) (set_nth j (Some f1) (u_futs y))
            | (w1, _) => Prog w1 (u_svcs y) (set_nth j None (u_futs y))
            end
        end
    | UDropFut j =>
        match held_at (u_futs y) j with
        | None => y
        | Some f => Prog (drop_fut svc f w) (u_svcs y) (set_nth j None (u_futs y))
        end
    | UEnv g => Prog (g w) (u_svcs y) (u_futs y)
    end.
  Definition urun (y : prog) (l : list uop) : prog := fold_left ustep l y.
  (** The program starts with some instances. *)
  Definition ustart (w : W) (l : list (st svc)) : prog := Prog w (map Some l) [].

  (** How many requests it submits. *)
  Fixpoint submitted (l : list uop) : nat :=
    match l with
    | [] => 0
    | UCall _ _ :: l' => S (submitted l')
    | _ :: l' => submitted l'
    end.
  (** The rest of the world does not use the service at the bottom behind the stack's back. *)
  Definition env_same (calls : W -> nat) (l : list uop) : Prop :=
    Forall (fun o => match o with UEnv g => same calls g | _ => True end) l.
End Program.
Arguments UReady {W Req} i.
Arguments UCall {W Req} i r.
Arguments UClone {W Req} i.
Arguments UDrop {W Req} i.
Arguments UPoll {W Req} j.
Arguments UDropFut {W Req} j.
Arguments UEnv {W Req} g.
