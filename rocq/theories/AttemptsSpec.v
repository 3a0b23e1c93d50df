(** Specification for C93: what the service below a [Retry] with the documented policy sees of one request. *)
From Verif Require Import Base Track.
Set Implicit Arguments.

Section AttemptsSpec.
  Context {Req Resp Err : Type}.
  Notation ev := (tev Req Resp Err).

  (** Where the request stands; [n]: how many further attempts it still has. *)
  Inductive aphase :=
  | Trying (n j : nat)                 (* the attempt with the response future [j] is under way *)
  | Again (n : nat)                    (* an attempt failed; the service is to be ready for the next *)
  | Sending (n : nat)                  (* it is ready, and the request is about to be sent again *)
  | Over (res : result Resp Err).      (* done *)

  (** What happens at the service.  [i]: the instance the further attempts use; [r]: the request. *)
  Inductive attempting (i : nat) (r : Req) : aphase -> list ev -> aphase -> Prop :=
  | at_nil a : attempting i r a [] a
  | at_pending n j l c :
      attempting i r (Trying n j) l c -> attempting i r (Trying n j) (TPoll j Pending :: l) c
  (* a response ends it *)
  | at_ok n j v :
      attempting i r (Trying n j) [TPoll j (Ready (Ok v))] (Over (Ok v))
  (* so does an error when there is no further attempt *)
  | at_out j e :
      attempting i r (Trying 0 j) [TPoll j (Ready (Er e))] (Over (Er e))
  (* otherwise the failed attempt is let go *)
  | at_fail n j e l c :
      attempting i r (Again n) l c ->
      attempting i r (Trying (S n) j) (TPoll j (Ready (Er e)) :: TDropFut j :: l) c
  | at_unready n l c :
      attempting i r (Again n) l c -> attempting i r (Again n) (TReady i Pending :: l) c
  | at_broken n e :
      attempting i r (Again n) [TReady i (Ready (Er e))] (Over (Er e))
  (* and once the service is ready the same request is sent again *)
  | at_ready n l c :
      attempting i r (Sending n) l c -> attempting i r (Again n) (TReady i (Ready (Ok tt)) :: l) c
  | at_again n j l c :
      attempting i r (Trying n j) l c -> attempting i r (Sending n) (TCall i r j :: l) c.

  Definition is_send (e : ev) : bool := match e with TCall _ _ _ => true | _ => false end.
  Definition is_fail (e : ev) : bool := match e with TPoll _ (Ready (Er _)) => true | _ => false end.
  Definition how_many (f : ev -> bool) (l : list ev) : nat := length (List.filter f l).
  (** The service, or an attempt, has just answered [Pending]. *)
  Definition waits (e : ev) : Prop :=
    match e with TPoll _ Pending | TReady _ Pending => True | _ => False end.
End AttemptsSpec.
Arguments aphase Resp Err : clear implicits.
