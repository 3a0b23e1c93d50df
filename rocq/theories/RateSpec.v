(** Specification for C37-C39 (RateLimit). *)
From Verif Require Import Base Limits Track.
Set Implicit Arguments.

Section RateSpec.
  Context {W Req Resp Err : Type} (rt : Rt W) (svc : Service W Req Resp Err).
  Notation L := (tev Req Resp Err).
  Notation TW := (W * tk L)%type.

  (** The clock never runs backwards: neither in the environment nor inside the
      wrapped service. *)
  Definition forward (g : W -> W) : Prop := forall w, (now rt w <= now rt (g w))%Z.
  Definition time_flows : Prop :=
    (forall s w, (now rt w <= now rt (fst (poll_ready svc s w)))%Z) /\
    (forall s r w, (now rt w <= now rt (fst (call svc s r w)))%Z).

  (** The same clock in the recorded world. *)
  Definition tk_rt : Rt TW :=
    MkRt (fun x => now rt (fst x)) (fun x d => fired rt (fst x) d)
         (fun d x => (nap rt d (fst x), snd x))
         (fun x d H => fired_sound rt (fst x) d H)
         (fun x d => now_nap rt (fst x) d) (fun x d d' => fired_nap rt (fst x) d d').

  Definition trate (r : rate) : Service TW Req Resp Err := rate_limit tk_rt r (tracked (fun e => e) svc).

  (** Times of the calls in a history, oldest first. *)
  Fixpoint call_times (r : rate) (h : list (TW * sobs (trate r) * TW)) : list Z :=
    match h with
    | [] => []
    | (w, ObsCall _ _, _) :: h' => now tk_rt w :: call_times h'
    | _ :: h' => call_times h'
    end.

  (** [ts] splits into windows of length [per], disjoint and one after the
      other, none starting before [lo], each with at most [num] calls. *)
  Inductive windowed (num : N) (per : Z) : Z -> list Z -> Prop :=
  | win_nil lo : windowed num per lo []
  | win_cons lo s ts rest :
      (lo <= s)%Z -> (N.of_nat (length ts) <= num)%N ->
      Forall (fun t => s <= t < s + per)%Z ts ->
      windowed num per (s + per) rest ->
      windowed num per lo (ts ++ rest).

  Definition within (x per : Z) (ts : list Z) : list Z :=
    List.filter (fun t => (x <=? t)%Z && (t <? x + per)%Z) ts.

  (** Every operation in a history; [acc]: times of the calls so far, newest first. *)
  Fixpoint rate_entries (r : rate) (acc : list Z) (h : list (TW * sobs (trate r) * TW)) : Prop :=
    match h with
    | [] => True
    | (w, o, w1) :: h' =>
        match o with
        | ObsReady a =>
            (* the inner service is asked, once, and its answer given; or *)
            (log_of w1 = TReady 0 a :: log_of w \/
             (* limited: the last [num] calls fell into one window of length [per] whose end
                the timer has not yet reported *)
             (a = Pending /\ exists s c c', w1 = nap tk_rt (s + r_per r) w /\
                acc = c ++ c' /\ N.of_nat (length c) = r_num r /\
                Forall (fun t => s <= t < s + r_per r)%Z c /\ fired tk_rt w (s + r_per r) = false)) /\
            rate_entries acc h'
        | ObsCall q f =>
            log_of w1 = TCall 0 q (fst f) :: log_of w /\ rate_entries (now tk_rt w :: acc) h'
        | ObsSkip => w1 = w /\ rate_entries acc h'
        | ObsPanic | ObsDiverge => log_of w1 = log_of w /\ h' = []
        end
    end.
End RateSpec.
