(** Random helpers and static discovery: specification (C19, C59). *)
From Verif Require Import Base ReadyCache.
Set Implicit Arguments.

(** [generates next g w us g' w']: asked repeatedly, the generator [g] produces
    the values [us] and is then [g']. *)
Inductive generates {W R} (next : R -> M W (R * Z)) : R -> W -> list Z -> R -> W -> Prop :=
| gen_done g w : generates next g w [] g w
| gen_next g w u w1 g1 us g2 w2 :
    next g w = (w1, Val (g1, u)) -> (0 <= u < 2 ^ 64)%Z -> generates next g1 w1 us g2 w2 ->
    generates next g w (u :: us) g2 w2.

(** The answers of [n] polls of a discovery. *)
Fixpoint disc_answers {W K S E} (D : Discover W K S E) (n : nat) (d : dst D) (w : W)
  : list (out (poll (option (result (change K S) E)))) :=
  match n with
  | O => []
  | S m => match poll_discover D d w with
           | (w1, Val (d1, p)) => Val p :: disc_answers D m d1 w1
           | (_, Panic) => [Panic]
           | (_, Diverge) => [Diverge]
           end
  end.

(** An answer of discovery with [g] applied to the announced service and to nothing else. *)
Definition change_map {K S S' E} (g : S -> S') (o : out (poll (option (result (change K S) E))))
  : out (poll (option (result (change K S') E))) :=
  match o with
  | Val (Ready (Some (Ok (Insert k s)))) => Val (Ready (Some (Ok (Insert k (g s)))))
  | Val (Ready (Some (Ok (Remove k)))) => Val (Ready (Some (Ok (Remove k))))
  | Val (Ready (Some (Er e))) => Val (Ready (Some (Er e)))
  | Val (Ready None) => Val (Ready None)
  | Val Pending => Val Pending
  | Panic => Panic
  | Diverge => Diverge
  end.
