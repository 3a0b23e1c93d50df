(** Proofs for C95: the laws of MapFuture. *)
From Verif Require Import Base Util ReadyCache SpawnReady Load Make Middleware Limits Hedge MeterSpec AlgebraSpec AlgebraProof AlgebraLaws.
Set Implicit Arguments.

Section Fut.
  Context {W Req Resp Err : Type} (svc : Service W Req Resp Err).

  Lemma law_future_id s : alike (map_future (fun e => e) svc (fut_into svc (fun e : Err => e)) (fun f => ret f)) s svc s.
  Proof. law (@eq (st svc)) (@eq (fut svc)); intros; subst; crunch. Qed.

  Lemma law_future_future Resp1 Err1 Resp2 Err2 (i1 : Err -> Err1) (i2 : Err1 -> Err2)
    (T1 : Task W (result Resp1 Err1)) (T2 : Task W (result Resp2 Err2)) (f : fut svc -> M W (tst T1)) (g : tst T1 -> M W (tst T2)) s :
    alike (map_future i2 (map_future i1 svc T1 f) T2 g) s (map_future (fun e => i2 (i1 e)) svc T2 (after f g)) s.
  Proof. law (@eq (st svc)) (@eq (tst T2)); intros; subst; crunch. Qed.

  Lemma law_future_request Req1 Resp1 Err1 (h : Req1 -> M W Req) (into : Err -> Err1) (T : Task W (result Resp1 Err1))
    (f : fut svc -> M W (tst T)) s :
    alike (map_request h (map_future into svc T f)) s (map_future into (map_request h svc) T f) s.
  Proof. law (@eq (st svc)) (@eq (tst T)); intros; subst; crunch. Qed.
End Fut.
