(** Specification for C87: a rate limiter that sheds load, as a function of the times of the requests. *)
From Verif Require Import Base Middleware Limits.
Set Implicit Arguments.
Local Open Scope Z_scope.

(** Which requests pass.  A request is announced ([poll_ready]) and made ([call]), at times [a <= c].  The window at hand
    ends at [e], with room for [left] more; when it is used up a new one begins with the first announcement at or after
    its end, else with the first request made at or after its end. *)
Fixpoint admitted (num : N) (per : Z) (e : Z) (left : N) (reqs : list (Z * Z)) : list bool :=
  match reqs with
  | [] => []
  | (a, c) :: rest =>
      let used_up := (left =? 0)%N in
      let e1 := if used_up && (e <=? a) then a + per else e in
      let left1 := if used_up && (e <=? a) then num else left in
      if (left1 =? 0)%N then false :: admitted num per e1 0 rest
      else
        let e2 := if e1 <=? c then c + per else e1 in
        let left2 := if e1 <=? c then num else left1 in
        true :: admitted num per e2 (left2 - 1) rest
  end.

Section Run.
  Context {W Req Resp Err : Type} (rt : Rt W) (r : rate) (svc : Service W Req Resp Err).
  Definition shedding : Service W Req Resp (Err + unit) := load_shed (rate_limit rt r svc).

  (** A program makes requests; anything may happen before each, and between its announcement and the call.
      The times of each, and whether it was passed on ([Some] response future) or shed. *)
  Fixpoint requests (s : st shedding) (w : W) (l : list ((W -> W) * (W -> W) * Req)) : list (Z * Z * bool) :=
    match l with
    | [] => []
    | (g1, g2, q) :: l' =>
        match poll_ready shedding s (g1 w) with
        | (w2, Val (s1, Ready (Ok _))) =>
            match call shedding s1 q (g2 w2) with
            | (w4, Val (s2, f)) => (now rt (g1 w), now rt (g2 w2), match f with Some _ => true | None => false end) :: requests s2 w4 l'
            | _ => []
            end
        | _ => []
        end
    end.

  (** The wrapped service is always ready, and takes no time. *)
  Definition willing : Prop :=
    (forall s w, exists w1 s1, poll_ready svc s w = (w1, Val (s1, Ready (Ok tt))) /\ now rt w1 = now rt w) /\
    (forall s q w, exists w1 s1 f, call svc s q w = (w1, Val (s1, f)) /\ now rt w1 = now rt w).
  (** Sleeps end on time; time does not go back. *)
  Definition prompt : Prop := forall w d, d <= now rt w -> fired rt w d = true.
  Definition onward (l : list ((W -> W) * (W -> W) * Req)) : Prop :=
    Forall (fun x => (forall w, now rt w <= now rt (fst (fst x) w)) /\ (forall w, now rt w <= now rt (snd (fst x) w))) l.
End Run.

(** The requests passed on that were made later than [t]. *)
Definition passed_after (t : Z) (l : list (Z * Z * bool)) : list (Z * Z * bool) :=
  List.filter (fun x => snd x && (t <? snd (fst x))) l.
