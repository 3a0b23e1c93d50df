(** Specification of the retry budget (C12, C13), independent of slots and generations. *)
From Verif Require Import Base Tps.
Set Implicit Arguments.
Local Open Scope Z_scope.

(** What has happened to the balance, newest first: a deposit or a granted withdrawal, and when. *)
Inductive entry := EDep (t : Z) | EWd (t : Z).
Definition when (e : entry) : Z := match e with EDep t | EWd t => t end.

(** The history of a run: the operations done with the answers given. *)
Definition entry_of (t : Z) (o : tps_op) (a : out (option bool)) : list entry :=
  match o, a with
  | Deposit, Val None => [EDep t]
  | Withdraw, Val (Some true) => [EWd t]
  | _, _ => []
  end.
Fixpoint history (ops : list (Z * tps_op)) (answers : list (out (option bool))) : list entry :=
  match ops, answers with
  | (t, o) :: ops', a :: answers' => history ops' answers' ++ entry_of t o a
  | _, _ => []
  end.

(** Number of deposits / withdrawals among some entries. *)
Fixpoint deps (l : list entry) : Z := match l with [] => 0 | EDep _ :: l' => 1 + deps l' | EWd _ :: l' => deps l' end.
Fixpoint wds (l : list entry) : Z := match l with [] => 0 | EWd _ :: l' => 1 + wds l' | EDep _ :: l' => wds l' end.

(** The balance resulting from some entries. *)
Definition balance (c : tps_cfg) (l : list entry) : Z :=
  t_reserve c + t_deposit c * deps l - t_withdraw c * wds l.

(** The entries less than [a] old at time [now]. *)
Definition within (a now : Z) (l : list entry) : list entry := filter (fun e => now - when e <? a) l.

(** Times do not decrease, starting from [t0]. *)
Fixpoint in_order (t0 : Z) (ops : list (Z * tps_op)) : Prop :=
  match ops with [] => True | (t, _) :: ops' => t0 <= t /\ in_order t ops' end.

(** A sensible configuration ([TpsBudget::new] makes no other, see C14), and no counter overflows: the reserve and
    all deposits together fit an [isize]. *)
Record sane (c : tps_cfg) : Prop := {
  sane_window : 0 < t_window c; sane_reserve : 0 <= t_reserve c <= isize_max;
  sane_deposit : 0 <= t_deposit c; sane_withdraw : 0 <= t_withdraw c <= isize_max }.
Fixpoint deposits (ops : list (Z * tps_op)) : Z :=
  match ops with [] => 0 | (_, Deposit) :: ops' => 1 + deposits ops' | (_, Withdraw) :: ops' => deposits ops' end.
Definition fits (c : tps_cfg) (ops : list (Z * tps_op)) : Prop :=
  t_reserve c + t_deposit c * deposits ops <= isize_max.

(** ** Several threads (C15) *)

(** Deposits and withdrawals in the log. *)
Fixpoint added (l : list tobs) : list entry :=
  match l with
  | [] => []
  | CAdd _ Deposit t :: l' => EDep t :: added l'
  | CAdd _ Withdraw t :: l' => EWd t :: added l'
  | _ :: l' => added l'
  end.
(** Those that still count: since them the ring has moved on by at most [z] slots (of the 10). *)
Fixpoint recents (z : Z) (l : list tobs) : list entry :=
  match l with
  | [] => []
  | CAdd _ Deposit t :: l' => EDep t :: recents z l'
  | CAdd _ Withdraw t :: l' => EWd t :: recents z l'
  | CSwap _ _ k :: l' => if z - k <? 0 then [] else recents (z - k) l'
  | _ :: l' => recents z l'
  end.
(** Is some thread turning the ring? *)
Fixpoint turning (l : list tobs) : bool :=
  match l with [] => false | CSwap _ _ _ :: _ => true | CEnd _ :: _ => false | _ :: l' => turning l' end.
(** Thread [i] has last read the balance while the ring was at rest, and it has not been turned since. *)
Fixpoint undisturbed (i : nat) (l : list tobs) : bool :=
  match l with
  | [] => false
  | CSwap _ _ _ :: _ | CEnd _ :: _ => false
  | CLoad j :: l' => if (j =? i)%nat then negb (turning l') else undisturbed i l'
  | _ :: l' => undisturbed i l'
  end.
(** When the ring was last turned ([t0]: the start). *)
Fixpoint last_turn (t0 : Z) (l : list tobs) : Z :=
  match l with [] => t0 | CSwap _ now _ :: _ => now | _ :: l' => last_turn t0 l' end.
(** No overflow: everything ever deposited and withdrawn fits. *)
Definition fits_log (c : tps_cfg) (l : list tobs) : Prop :=
  t_reserve c + t_deposit c * deps (added l) + t_withdraw c * wds (added l) <= isize_max.
(** The log when thread [i] last read the balance. *)
Fixpoint before_load (i : nat) (l : list tobs) : list tobs :=
  match l with
  | [] => []
  | CLoad j :: l' => if (j =? i)%nat then l' else before_load i l'
  | _ :: l' => before_load i l'
  end.
