(** Specification for C23: the rotating histogram.  Time is cut into periods
    counted from the moment the histogram was made. *)
From Verif Require Import Base Hedge.
Set Implicit Arguments.

Inductive hop := HRecord (t v : Z) | HRead (t : Z).
Definition hop_time (o : hop) : Z := match o with HRecord t _ | HRead t => t end.

(** A history of uses of one histogram. *)
Fixpoint histo_run (h : histo) (l : list hop) : out histo :=
  match l with
  | [] => Val h
  | HRecord t v :: l' =>
      match histo_record t v h with Val h1 => histo_run h1 l' | Panic => Panic | Diverge => Diverge end
  | HRead t :: l' =>
      match histo_read t h with Val (h1, _) => histo_run h1 l' | Panic => Panic | Diverge => Diverge end
  end.

(** Number of the period in which [t] lies. *)
Definition period_of (t0 per t : Z) : Z := ((t - t0) / per)%Z.

(** The values recorded in period number [k], newest first. *)
Fixpoint recorded_in (t0 per k : Z) (l : list hop) (acc : list Z) : list Z :=
  match l with
  | [] => acc
  | HRecord t v :: l' => recorded_in t0 per k l' (if (period_of t0 per t =? k)%Z then v :: acc else acc)
  | HRead _ :: l' => recorded_in t0 per k l' acc
  end.

(** Uses in order of time, no more than 2^32 - 2 periods between one and the
    next, and within 2^64 nanoseconds (584 years) of the start. *)
Fixpoint usable (t0 per prev : Z) (l : list hop) : Prop :=
  match l with
  | [] => True
  | o :: l' =>
      (prev <= hop_time o)%Z /\ (hop_time o - prev < (2 ^ 32 - 1) * per)%Z /\
      (hop_time o - t0 < 2 ^ 64 - 1)%Z /\ usable t0 per (hop_time o) l'
  end.
