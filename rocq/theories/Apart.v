(** Model of several services of one type that share nothing: the world is one world for each
    (as [Steer] is used with services of their own, tower/src/steer/mod.rs:96-112). *)
From Verif Require Import Base Limits Buffer.
Set Implicit Arguments.

Section Apart.
  Context {W Req Resp Err : Type} (svc : Service W Req Resp Err).
  Definition worlds : Type := nat -> W.

  (** Something done in world [k]. *)
  Definition inside {A} (k : nat) (m : M W A) : M worlds A :=
    fun ws => let '(w1, o) := m (ws k) in (upd ws k w1, o).

  (** A service and its futures know which world they live in. *)
  Definition apart : Service worlds Req Resp Err :=
    MkService (W := worlds) (nat * st svc) (nat * fut svc)
      (fun s => '(s1, a) <- inside (fst s) (poll_ready svc (snd s)) ;; ret ((fst s, s1), a))
      (fun s r => '(s1, f) <- inside (fst s) (call svc (snd s) r) ;; ret ((fst s, s1), (fst s, f)))
      (fun f => '(f1, a) <- inside (fst f) (poll_fut svc (snd f)) ;; ret ((fst f, f1), a))
      (fun s => s1 <- inside (fst s) (clone svc (snd s)) ;; ret (fst s, s1))
      (fun s ws => upd ws (fst s) (drop_svc svc (snd s) (ws (fst s))))
      (fun f ws => upd ws (fst f) (drop_fut svc (snd f) (ws (fst f)))).
End Apart.
