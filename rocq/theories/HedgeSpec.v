(** Specification for C20-C22 and C24: what a hedged request does, poll by poll,
    as seen at the wrapped service and at the latency histogram. *)
From Verif Require Import Base Middleware Hedge Track.
Set Implicit Arguments.

(** An event with the times at which the operation began and ended. *)
Record stamped (E : Type) := At { s_from : Z; s_ev : E; s_to : Z }.
Arguments At {E} s_from s_ev s_to.

(** The tracking wrapper of Track.v, with time stamps. *)
Section Timed.
  Context {W Req Resp Err : Type} (rt : Rt W).
  Notation L := (stamped (tev Req Resp Err)).
  Definition stamping {A B} (m : M W A) (done : A -> M (W * tk L) (tev Req Resp Err * B)) : M (W * tk L) B :=
    t0 <- get (fun x => now rt (fst x)) ;;
    a <- tk_lift m ;;
    t1 <- get (fun x => now rt (fst x)) ;;
    '(e, b) <- done a ;;
    tk_emit (At t0 e t1) ;;; ret b.
  Definition timed (svc : Service W Req Resp Err) : Service (W * tk L) Req Resp Err :=
    MkService (nat * st svc) (nat * fut svc)
      (fun s => stamping (poll_ready svc (snd s)) (fun '(s1, a) => ret (TReady (fst s) a, ((fst s, s1), a))))
      (fun s r => stamping (call svc (snd s) r) (fun '(s1, f) => j <- tk_fresh ;; ret (TCall (fst s) r j, ((fst s, s1), (j, f)))))
      (fun f => stamping (poll_fut svc (snd f)) (fun '(f1, a) => ret (TPoll (fst f) a, ((fst f, f1), a))))
      (fun s => stamping (clone svc (snd s)) (fun s1 => i <- tk_fresh ;; ret (TClone (fst s) i, (i, s1))))
      (fun s x => let w1 := drop_svc svc (snd s) (fst x) in
                  (w1, Tk (tk_next (snd x)) (At (now rt (fst x)) (TDropSvc (fst s)) (now rt w1) :: tk_log (snd x))))
      (fun f x => let w1 := drop_fut svc (snd f) (fst x) in
                  (w1, Tk (tk_next (snd x)) (At (now rt (fst x)) (TDropFut (fst f)) (now rt w1) :: tk_log (snd x)))).
End Timed.

Section HedgeSpec.
  Context {W Req Resp Err : Type} (rt : Rt W) (svc : Service W Req Resp Err).
  Context (clone_request : Req -> option Req) (can_retry : Req -> bool).
  Context (min_data_points : Z) (quantile : list Z -> Z).
  Notation L := (stamped (tev Req Resp Err)).
  (** The histogram shared by all requests lives beside the wrapped service's own world. *)
  Notation BW := (W * histo)%type.
  Notation TW := (BW * tk L)%type.

  (** The wrapped service knows nothing of the histogram. *)
  Definition bside {A} (m : M W A) : M BW A :=
    fun x => match m (fst x) with (w1, o) => ((w1, snd x), o) end.
  Definition beside : Service BW Req Resp Err :=
    MkService (st svc) (fut svc)
      (fun s => bside (poll_ready svc s)) (fun s r => bside (call svc s r))
      (fun f => bside (poll_fut svc f)) (fun s => bside (clone svc s))
      (fun s x => (drop_svc svc s (fst x), snd x)) (fun f x => (drop_fut svc f (fst x), snd x)).

  Definition brt : Rt BW :=
    MkRt (fun x : BW => now rt (fst x)) (fun x d => fired rt (fst x) d)
         (fun d x => (nap rt d (fst x), snd x))
         (fun x d H => fired_sound rt (fst x) d H)
         (fun x d => now_nap rt (fst x) d) (fun x d d' => fired_nap rt (fst x) d d').
  Definition hrt : Rt TW :=
    MkRt (fun x : TW => now rt (fst (fst x))) (fun x d => fired rt (fst (fst x)) d)
         (fun d x => ((nap rt d (fst (fst x)), snd (fst x)), snd x))
         (fun x d H => fired_sound rt (fst (fst x)) d H)
         (fun x d => now_nap rt (fst (fst x)) d) (fun x d d' => fired_nap rt (fst (fst x)) d d').
  Definition hist (x : TW) : histo := snd (fst x).
  Definition set_hist (h : histo) (x : TW) : TW := ((fst (fst x), h), snd x).

  Definition thedge : Service TW Req Resp (Err + (Err + Empty_set)) :=
    hedge hrt (timed brt beside) clone_request can_retry min_data_points quantile hist set_hist.

  (** What happened at the wrapped service between two moments, in chronological
      order, leaving out the dropping of objects. *)
  Definition is_drop (e : L) : bool := match s_ev e with TDropSvc _ | TDropFut _ => true | _ => false end.
  Definition happened (x y : TW) (l : list L) : Prop :=
    exists l', log_of y = l' ++ log_of x /\ List.filter (fun e => negb (is_drop e)) (rev l') = l.

  (** The effect of an attempt's answer [p] on the histogram [h]: a success is
      recorded with the time since the attempt was started at [t0], in
      milliseconds rounded up; nothing else is. *)
  Definition measured (h : histo) (t0 t : Z) (p : poll (result Resp Err)) (h' : histo) : Prop :=
    match p with
    | Ready (Ok _) => histo_record t (millis (Z.max 0 (t - t0))) h = Val h'
    | _ => h' = h
    end.

  (** How a request stands between polls. *)
  Inductive hphase :=
  | HSingle                                  (* there is and will be no duplicate *)
  | HDelayed (deadline : Z) (c : nat)        (* the duplicate waits for the deadline; it will use instance [c] *)
  | HAsking (c : nat)                        (* it waits for its instance to be ready *)
  | HRefused                                 (* the policy did not allow it *)
  | HRacing (j : nat) (t : Z)                (* it is under way, started at [t] *)
  | HOver.

  (** One poll.  [ja]: the original attempt, started at [ta]; [q]: the duplicate's request. *)
  Section Poll.
    Context (ja : nat) (ta : Z) (q : Req).
    Notation answer := (poll (result Resp (Err + (Err + Empty_set)))).
    Definition from_a (p : poll (result Resp Err)) : answer := poll_map (map_er inl) p.
    Definition from_b (p : poll (result Resp Err)) : answer := poll_map (map_er (fun e => inr (inl e))) p.
    Definition after_b (j : nat) (t : Z) (p : poll (result Resp Err)) : hphase :=
      match p with Pending => HRacing j t | Ready _ => HOver end.

    (** The duplicate's turn, taken at [t]: the events [l], the histogram before and after. *)
    Inductive hask (c : nat) (t : Z) : list L -> histo -> histo -> answer -> hphase -> Prop :=
    | ha_unready h t1 :
        hask c t [At t (TReady c Pending) t1] h h Pending (HAsking c)
    | ha_failed h e t1 :
        hask c t [At t (TReady c (Ready (Er e))) t1] h h (from_b (Ready (Er e))) HOver
    | ha_refused h c' t1 t2 t3 :
        can_retry q = false ->
        hask c t [At t (TReady c (Ready (Ok tt))) t1; At t2 (TClone c c') t3] h h Pending HRefused
    | ha_started h h' c' j p t1 t2 t3 tb t4 t5 te :
        can_retry q = true -> measured h tb te p h' ->
        hask c t [At t (TReady c (Ready (Ok tt))) t1; At t2 (TClone c c') t3; At tb (TCall c q j) t4; At t5 (TPoll j p) te]
          h h' (from_b p) (after_b j tb p).

    Inductive hpoll : hphase -> TW -> TW -> answer -> hphase -> Prop :=
    (* the original has answered: that is the answer *)
    | hp_original ph x y v t0 te :
        ph <> HOver -> happened x y [At t0 (TPoll ja (Ready v)) te] -> measured (hist x) ta te (Ready v) (hist y) ->
        hpoll ph x y (from_a (Ready v)) HOver
    | hp_single ph x y t0 te :
        ph = HSingle \/ ph = HRefused ->
        happened x y [At t0 (TPoll ja Pending) te] -> hist y = hist x ->
        hpoll ph x y Pending ph
    | hp_early d c x y t0 te :
        happened x y [At t0 (TPoll ja Pending) te] -> hist y = hist x -> fired hrt y d = false ->
        hpoll (HDelayed d c) x y Pending (HDelayed d c)
    | hp_late d c x y a ph t0 te t l :
        (d <= t)%Z -> hask c t l (hist x) (hist y) a ph ->
        happened x y (At t0 (TPoll ja Pending) te :: l) ->
        hpoll (HDelayed d c) x y a ph
    | hp_ask c x y a ph t0 te t l :
        hask c t l (hist x) (hist y) a ph ->
        happened x y (At t0 (TPoll ja Pending) te :: l) ->
        hpoll (HAsking c) x y a ph
    | hp_racing j tb x y p t0 t1 t2 te :
        happened x y [At t0 (TPoll ja Pending) t1; At t2 (TPoll j p) te] ->
        measured (hist x) tb te p (hist y) ->
        hpoll (HRacing j tb) x y (from_b p) (after_b j tb p).

    (** The whole life of the response future.  A panic (of the wrapped service, or of a
        histogram with period zero) ends it. *)
    Inductive hlife : hphase -> TW -> list (BW -> BW) -> list (TW * out answer) -> Prop :=
    | hl_end ph x : hlife ph x [] []
    | hl_pending ph ph' x y g gs h :
        hpoll ph (tk_env g x) y Pending ph' -> ph' <> HOver -> hlife ph' y gs h ->
        hlife ph x (g :: gs) ((y, Val Pending) :: h)
    | hl_done ph x y g gs v :
        hpoll ph (tk_env g x) y (Ready v) HOver ->
        hlife ph x (g :: gs) [(y, Val (Ready v))]
    | hl_panic ph x y g gs : hlife ph x (g :: gs) [(y, Panic)]
    | hl_spun ph x y g gs : hlife ph x (g :: gs) [(y, Diverge)].
  End Poll.

  (** The call.  [ia]: the instance for originals, [ib]: the one copied for
      duplicates. *)
  Inductive hcall (ia ib : nat) (r : Req) : TW -> TW -> nat -> Z -> Req -> hphase -> Prop :=
  (* not repeatable *)
  | hc_unique x y ja ta t1 :
      clone_request r = None ->
      happened x y [At ta (TCall ia r ja) t1] -> hist y = hist x ->
      hcall ia ib r x y ja ta r HSingle
  (* repeatable, but not enough data *)
  | hc_nodata x y ja q h1 l ta t1 :
      clone_request r = Some q -> histo_read (now hrt x) (hist x) = Val (h1, l) ->
      (Z.of_nat (length l) < min_data_points)%Z ->
      happened x y [At ta (TCall ia r ja) t1] -> hist y = h1 ->
      hcall ia ib r x y ja ta q HSingle
  (* the duplicate is to be sent once the given percentile of the latencies has gone by *)
  | hc_hedged x y ja q c h1 h2 l l2 t0 tc ta t1 :
      clone_request r = Some q -> histo_read (now hrt x) (hist x) = Val (h1, l) ->
      (min_data_points <= Z.of_nat (length l))%Z ->
      histo_read (now hrt x) h1 = Val (h2, l2) ->
      happened x y [At t0 (TClone ib c) tc; At ta (TCall ia r ja) t1] -> hist y = h2 ->
      hcall ia ib r x y ja ta q (HDelayed (tc + quantile l2 * 1000000) c).

  (** Attempts made between two moments. *)
  Definition calls (x : TW) : nat :=
    length (List.filter (fun e => match s_ev e with TCall _ _ _ => true | _ => false end) (log_of x)).
  Definition attempts (x y : TW) : nat := calls y - calls x.

  (** The event that decides the request, and the answer it means. *)
  Definition decides (ja : nat) (e : L) (v : result Resp (Err + (Err + Empty_set))) : Prop :=
    match s_ev e with
    | TPoll j (Ready v0) => j = ja /\ v = map_er inl v0 \/ v = map_er (fun e => inr (inl e)) v0
    | TReady _ (Ready (Er e0)) => v = Er (inr (inl e0))
    | _ => False
    end.
  Definition undecided (e : L) : Prop :=
    match s_ev e with TPoll _ (Ready _) => False | TReady _ (Ready (Er _)) => False | _ => True end.

  (** Each poll of a run with the moment before it and the moment after it. *)
  Fixpoint polls_of {A} (x : TW) (gs : list (BW -> BW)) (h : list (TW * A)) : list (TW * TW * A) :=
    match gs, h with
    | g :: gs, (y, o) :: h => (tk_env g x, y, o) :: polls_of y gs h
    | _, _ => []
    end.
  (** Between [x] and [y] an attempt was started at [ts], and the last thing that happened is that it
      answered [Ok v], which was at [te]. *)
  Definition answered (x y : TW) (v : Resp) (ts te : Z) : Prop :=
    exists l i q j t t', happened x y (l ++ [At t (TPoll j (Ready (Ok v))) te]) /\ In (At ts (TCall i q j) t') l.
End HedgeSpec.
