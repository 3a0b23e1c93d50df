(** C93: [Retry] with the policy that the documentation of [Policy] gives.  Models: Attempts.v, Middleware.v. *)
From Verif Require Import Base DriveSpec Middleware Track MeterSpec MeterProof Attempts AttemptsSpec AttemptsProof Demo.
Set Implicit Arguments.

(** One request, on a [Retry] whose policy allows [n] further attempts, however its future is polled.  The call leaves
    the policy of the [Retry] at [n], sends the request to its instance, and clones that instance for the further
    attempts; then what the service sees follows [attempting], and the answer is what that ends with. *)
Theorem C93_request :
  forall W Req Resp Err (svc : Service W Req Resp Err) fuel n i s r w w1 ps f,
  let b := tracked (L := tev Req Resp Err) (fun e => e) svc in
  call (retry attempts b fuel) (n, (i, s)) r w = (w1, Val (ps, f)) ->
  fst ps = n /\ fst (snd ps) = i /\
  exists j i',
    log_of w1 = [TClone i i'; TCall i r j] ++ log_of w /\
    forall gs, let d := drive (poll_fut (retry attempts b fuel)) f w1 (map tk_env gs) in
    Forall (fun x => exists e l, log_of x = e :: l /\ waits e) (fst d) /\
    match snd d with
    | Finished _ w2 res =>
        exists l, log_of w2 = rev l ++ log_of w1 /\ attempting i' r (Trying n j) l (Over res)
    | Unfinished _ w2 =>
        exists l a, log_of w2 = rev l ++ log_of w1 /\ attempting i' r (Trying n j) l a /\
          forall res, a <> Over res
    | Panicked w2 | Spun w2 =>
        exists l a, log_of w2 = rev l ++ log_of w1 /\ attempting i' r (Trying n j) l a
    end.
Proof. exact @attempts_request. Qed.
Print Assumptions C93_request.

(** Whatever has happened so far, the request has been sent at most [n] times more, each time to that clone and
    unchanged. *)
Theorem C93_at_most : forall Req Resp Err i (r : Req) n j l (c : aphase Resp Err),
  attempting i r (Trying n j) l c ->
  how_many is_send l <= n /\ forall k q j', In (TCall k q j') l -> k = i /\ q = r.
Proof. exact at_most. Qed.
Print Assumptions C93_at_most.

(** A response is the answer of the last attempt, and is the end; all attempts before it had failed. *)
Theorem C93_response : forall Req Resp Err i (r : Req) n j l (v : Resp),
  attempting i r (Trying (Err := Err) n j) l (Over (Ok v)) ->
  exists l' j', l = l' ++ [TPoll j' (Ready (Ok v))] /\ how_many is_fail l' = how_many is_send l'.
Proof. exact a_response. Qed.
Print Assumptions C93_response.

(** An error: either all [n + 1] attempts have failed and it is the error of the last, or it is the error with which the
    service, after a failed attempt and with one still to go, refused to become ready. *)
Theorem C93_error : forall Req Resp Err i (r : Req) n j l (e : Err),
  attempting i r (Trying (Resp := Resp) n j) l (Over (Er e)) ->
  (exists l' j', l = l' ++ [TPoll j' (Ready (Er e))] /\ how_many is_send l = n /\ how_many is_fail l = S n) \/
  (exists l', l = l' ++ [TReady i (Ready (Er e))] /\ how_many is_send l < n /\
     how_many is_fail l = S (how_many is_send l)).
Proof. exact an_error. Qed.
Print Assumptions C93_error.

(** No poll goes around the loop of [ResponseFuture::poll] more than [3 n + 1] times: the bound on it plays no part, *)
Theorem C93_bounded : forall W Req Resp Err (svc : Service W Req Resp Err) n1 n2 n s r w w1 ps f gs,
  3 * n < n1 -> 3 * n < n2 ->
  call (retry attempts svc n1) (n, s) r w = (w1, Val (ps, f)) ->
  drive (poll_fut (retry attempts svc n1)) f w1 gs = drive (poll_fut (retry attempts svc n2)) f w1 gs.
Proof. exact @attempts_fuel. Qed.
Print Assumptions C93_bounded.

(** and every poll returns if the service's functions do. *)
Theorem C93_returns : forall W Req Resp Err (svc : Service W Req Resp Err) fuel n s r w w1 ps f gs,
  (forall s w, snd (poll_ready svc s w) <> Diverge) ->
  (forall s r w, snd (call svc s r w) <> Diverge) ->
  (forall x w, snd (poll_fut svc x w) <> Diverge) ->
  3 * n < fuel -> call (retry attempts svc fuel) (n, s) r w = (w1, Val (ps, f)) ->
  match snd (drive (poll_fut (retry attempts svc fuel)) f w1 gs) with Spun _ => False | _ => True end.
Proof. exact @attempts_returns. Qed.
Print Assumptions C93_returns.

(** As a layer: what is below it is called at most [n + 1] times as often, for each such layer (C64). *)
Theorem C93_stack : forall W Req Resp Err (calls : W -> nat) k (svc : Service W Req Resp Err) I fuel n,
  bounded calls k svc I -> bounded calls (k * S n) (retry attempts svc fuel) (fun s => fst s <= n /\ I (snd s)).
Proof. exact @attempts_bounded. Qed.
Print Assumptions C93_stack.

(** Retries compound: two of them, allowing two and one further attempts, over a service that always fails, send six. *)
Definition down : Service nat nat nat nat :=
  MkService (W := nat) unit nat (fun s => ret (s, Ready (Ok tt))) (fun s r w => (S w, Val (s, r))) (fun f => ret (f, Ready (Er f)))
    (fun s => ret s) (fun _ w => w) (fun _ w => w).
Definition nested : Service nat nat nat nat := retry attempts (retry attempts down 4) 7.
Example C93_example_compound :
  match call nested (2, (1, tt)) 7 0 with
  | (w1, Val (_, f)) => match drive (poll_fut nested) f w1 [fun w => w] with (_, Finished _ w2 res) => Some (w2, res) | _ => None end
  | _ => None
  end = Some (6, Er 7).
Proof. reflexivity. Qed.

(** Non-vacuity: with two further attempts, over a service whose futures fail twice (after a pending poll of the
    first) and which is not ready at once after the first failure. *)
Definition three (script : list (poll (result nat nat))) (ready : list (poll (result unit nat))) :=
  let b := tracked (L := tev nat nat nat) (fun e => e) demo in
  let s := retry attempts b 7 in
  match call s (2, (0, 5)) 7 (Scr 0 ready script, Tk 1 []) with
  | (w1, Val (ps, f)) =>
      match drive (poll_fut s) f w1 (map tk_env [tick 1; tick 1; tick 1]) with
      | (ws, Finished _ w2 res) => Some (fst ps, length ws, res, rev (log_of w2))
      | _ => None
      end
  | _ => None
  end.
Example C93_example_third_time :
  three [Pending; Ready (Er 1); Ready (Er 2); Ready (Ok 3)] [Pending; Ready (Ok tt); Ready (Ok tt)] =
  Some (2, 2, Ok 3,
    [TCall 0 7 1; TClone 0 2; TPoll 1 Pending; TPoll 1 (Ready (Er 1)); TDropFut 1; TReady 2 Pending;
     TReady 2 (Ready (Ok tt)); TCall 2 7 3; TPoll 3 (Ready (Er 2)); TDropFut 3;
     TReady 2 (Ready (Ok tt)); TCall 2 7 4; TPoll 4 (Ready (Ok 3))]).
Proof. reflexivity. Qed.
Example C93_example_all_used :
  option_map (fun x => snd (fst x)) (three [Ready (Er 1); Ready (Er 2); Ready (Er 3); Ready (Ok 4)] []) = Some (Er 3).
Proof. reflexivity. Qed.
Example C93_example_not_ready :
  option_map (fun x => snd (fst x)) (three [Ready (Er 1)] [Ready (Er 9)]) = Some (Er 9).
Proof. reflexivity. Qed.
