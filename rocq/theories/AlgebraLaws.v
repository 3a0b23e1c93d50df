(** Proofs for C95: laws and congruences. *)
From Verif Require Import Base Util ReadyCache SpawnReady Load Make Middleware Limits Hedge MeterSpec AlgebraSpec AlgebraProof.
Set Implicit Arguments.

Lemma alike_iff W Req Resp Err (a : Service W Req Resp Err) sa (b : Service W Req Resp Err) sb :
  alike a sa b sb <-> bisim a sa b sb.
Proof. split; [apply alike_bisim|apply bisim_alike]. Qed.

(** ** It is an equivalence *)
Lemma alike_refl W Req Resp Err (a : Service W Req Resp Err) sa : alike a sa a sa.
Proof. intros w c. reflexivity. Qed.
Lemma alike_sym W Req Resp Err (a : Service W Req Resp Err) sa (b : Service W Req Resp Err) sb :
  alike a sa b sb -> alike b sb a sa.
Proof. intros H w c. symmetry. apply H. Qed.
Lemma alike_trans W Req Resp Err (a : Service W Req Resp Err) sa (b : Service W Req Resp Err) sb
  (d : Service W Req Resp Err) sd : alike a sa b sb -> alike b sb d sd -> alike a sa d sd.
Proof. intros H1 H2 w c. etransitivity; [apply H1|apply H2]. Qed.

(** ** Laws: brute case analysis *)
Ltac split1 :=
  match goal with
  | |- context [match ?x with _ => _ end] =>
      lazymatch x with context [match _ with _ => _ end] => fail | _ => destruct x eqn:? end
  end.
Ltac prj := cbn [fst snd to_inner to_deadline ls_inner ls_ready rl_inner rl_st rl_sleep cl_inner cl_wait cl_permit] in *.
Ltac crunch := cbv beta iota zeta delta [bind ret panic diverge get modify map_poll map_drop after sleep_poll
    poll_map map_er map_ok goes both fst snd agree ready_task or_ready fut_into tst tpoll tdrop lift_snd];
  intros; repeat (prj; split1; prj); subst; cbn;
  repeat first [ split | reflexivity | exact I | assumption | congruence ].
Ltac unpack := repeat match goal with
  | x : load_shed_st _ |- _ => destruct x
  | x : rate_limit_st _ |- _ => destruct x
  | x : conc_st _ |- _ => destruct x
  end; cbn [ls_inner ls_ready rl_inner rl_st rl_sleep cl_inner cl_wait cl_permit] in *; subst.
Ltac law rs rf := apply bisim_alike; exists rs, rf; split; [constructor; cbn | cbn; try reflexivity].

Section Laws.
  Context {W Req Resp Err : Type} (svc : Service W Req Resp Err).

  Lemma law_boxed s : alike (boxed svc) s svc s.
  Proof.
    law (@eq (st svc)) (@eq (fut svc)); intros; subst; crunch.
  Qed.

  Lemma law_request_id (f : Req -> M W Req) : (forall r w, f r w = (w, Val r)) -> forall s, alike (map_request f svc) s svc s.
  Proof.
    intros H s. law (@eq (st svc)) (@eq (fut svc)); intros; subst; try solve [crunch].
  Qed.

  Lemma law_request_request Req1 Req2 (f : Req1 -> M W Req) (g : Req2 -> M W Req1) s :
    alike (map_request g (map_request f svc)) s (map_request (after g f) svc) s.
  Proof. law (@eq (st svc)) (@eq (fut svc)); intros; subst; crunch. Qed.

  Definition Nest {F} (x : option (option F)) (y : option F) : Prop :=
    match x with Some (Some f) => y = Some f | Some None => False | None => y = None end.

  Lemma law_response_response Resp1 Resp2 (f : Resp -> M W Resp1) (g : Resp1 -> M W Resp2) s :
    alike (map_response g (map_response f svc)) s (map_response (after f g) svc) s.
  Proof.
    law (@eq (st svc)) (@Nest (fut svc)); intros; subst; try solve [crunch];
    destruct f0 as [[x|]|]; cbn in H; subst; try contradiction; crunch.
  Qed.

  Lemma law_err_err Err1 Err2 (f : Err -> M W Err1) (g : Err1 -> M W Err2) s :
    alike (map_err g (map_err f svc)) s (map_err (after f g) svc) s.
  Proof.
    law (@eq (st svc)) (@Nest (fut svc)); intros; subst; try solve [crunch];
    destruct f0 as [[x|]|]; cbn in H; subst; try contradiction; crunch.
  Qed.

  Lemma law_result_result Resp1 Err1 Resp2 Err2 (i1 : Err -> Err1) (i2 : Err1 -> Err2)
    (f : result Resp Err -> M W (result Resp1 Err1)) (g : result Resp1 Err1 -> M W (result Resp2 Err2)) s :
    alike (map_result i2 g (map_result i1 f svc)) s (map_result (fun e => i2 (i1 e)) (after f g) svc) s.
  Proof.
    law (@eq (st svc)) (@Nest (fut svc)); intros; subst; try solve [crunch];
    destruct f0 as [[x|]|]; cbn in H; subst; try contradiction; crunch.
  Qed.

  (** Closures on the way in and closures on the way out do not mind each other. *)
  Lemma law_response_request Req1 Resp1 (f : Req1 -> M W Req) (g : Resp -> M W Resp1) s :
    alike (map_response g (map_request f svc)) s (map_request f (map_response g svc)) s.
  Proof. law (@eq (st svc)) (@eq (option (fut svc))); intros; subst; crunch. Qed.
  Lemma law_err_request Req1 Err1 (f : Req1 -> M W Req) (g : Err -> M W Err1) s :
    alike (map_err g (map_request f svc)) s (map_request f (map_err g svc)) s.
  Proof. law (@eq (st svc)) (@eq (option (fut svc))); intros; subst; crunch. Qed.
  Lemma law_result_request Req1 Resp1 Err1 (f : Req1 -> M W Req) (into : Err -> Err1)
    (g : result Resp Err -> M W (result Resp1 Err1)) s :
    alike (map_result into g (map_request f svc)) s (map_request f (map_result into g svc)) s.
  Proof. law (@eq (st svc)) (@eq (option (fut svc))); intros; subst; crunch. Qed.
  Lemma law_then_request Req1 Resp1 Err1 (f : Req1 -> M W Req) (into : Err -> Err1)
    (T : Task W (result Resp1 Err1)) (g : result Resp Err -> M W (tst T)) s :
    alike (then_ into T g (map_request f svc)) s (map_request f (then_ into T g svc)) s.
  Proof. law (@eq (st svc)) (@eq (chain (fut svc) (tst T))); intros; subst; crunch. Qed.
  Lemma law_and_then_request Req1 Resp1 Err1 (f : Req1 -> M W Req) (into : Err -> Err1)
    (T : Task W (result Resp1 Err1)) (g : Resp -> M W (tst T)) s :
    alike (and_then into T g (map_request f svc)) s (map_request f (and_then into T g svc)) s.
  Proof. law (@eq (st svc)) (@eq (chain (fut svc) (tst T))); intros; subst; crunch. Qed.
  Lemma law_timeout_request Req1 (f : Req1 -> M W Req) (rt : Rt W) dur s :
    alike (timeout rt dur (map_request f svc)) s (map_request f (timeout rt dur svc)) s.
  Proof.
    law (@eq (st svc)) (fun (x : timeout_fut (map_request f svc)) (y : timeout_fut svc) =>
       to_inner x = to_inner y /\ to_deadline x = to_deadline y); intros; subst; try solve [crunch].
    - destruct f0 as [x d], g as [y e]. cbn in H. destruct H as [<- <-]. crunch.
    - destruct H as [H _]. rewrite H. reflexivity.
  Qed.

  (** The two closures of a service that maps both the response and the error. *)
  Definition Nests {F} (x : option (option F)) (y : option (option F)) : Prop :=
    match x with Some (Some f) => y = Some (Some f) | Some None => False | None => y = None end.
  Lemma law_err_response Resp1 Err1 (f : Resp -> M W Resp1) (g : Err -> M W Err1) s :
    alike (map_err g (map_response f svc)) s (map_response f (map_err g svc)) s.
  Proof.
    law (@eq (st svc)) (@Nests (fut svc)); intros; subst; try solve [crunch];
    destruct f0 as [[x|]|]; cbn in H; subst; try contradiction; crunch.
  Qed.

  (** *** What the special cases are special cases of *)
  Lemma law_response_result Resp1 (f : Resp -> M W Resp1) s :
    alike (map_response f svc) s
      (map_result (fun e => e) (fun v => match v with Ok a => b <- f a ;; ret (Ok b) | Er e => ret (Er e) end) svc) s.
  Proof. law (@eq (st svc)) (@eq (option (fut svc))); intros; subst; crunch. Qed.
  Lemma law_err_result Err1 (h : Err -> Err1) s :
    alike (map_err (fun e => ret (h e)) svc) s (map_result h (fun v => ret (map_er h v)) svc) s.
  Proof. law (@eq (st svc)) (@eq (option (fut svc))); intros; subst; crunch. Qed.

  Definition Out {F G} (x : option F) (y : chain F G) : Prop :=
    match x with Some f => y = First f | None => y = Empty end.
  Lemma law_result_then Resp1 Err1 (into : Err -> Err1) (f : result Resp Err -> M W (result Resp1 Err1)) s :
    alike (map_result into f svc) s (then_ into ready_task f svc) s.
  Proof.
    law (@eq (st svc)) (@Out (fut svc) (result Resp1 Err1)); intros; subst; try solve [crunch];
      destruct f0 as [x|]; cbn in H; subst; crunch.
  Qed.

  Definition Lift {F G A} (x : chain F G) (y : chain F (G + A)) : Prop :=
    match x with First f => y = First f | Second g => y = Second (inl g) | Empty => y = Empty end.
  Lemma law_and_then_then Resp1 Err1 (into : Err -> Err1) (T : Task W (result Resp1 Err1)) (f : Resp -> M W (tst T)) s :
    alike (and_then into T f svc) s
      (then_ into (or_ready T)
         (fun v => match v with Ok a => t <- f a ;; ret (inl t) | Er e => ret (inr (Er (into e))) end) svc) s.
  Proof.
    law (@eq (st svc)) (@Lift (fut svc) (tst T) (result Resp1 Err1)); intros; subst; try solve [crunch];
      destruct f0 as [x|x|]; cbn in H; subst; crunch.
  Qed.

  (** A filter that lets everything through. *)
  Lemma law_filter P PErr Req1 (check : P -> Req1 -> M W (P * result Req PErr)) pclone (f : Req1 -> M W Req) :
    (forall p r w, check p r w = (let (w1, o) := f r w in (w1, match o with Val x => Val (p, Ok x) | Panic => Panic | Diverge => Diverge end))) ->
    (forall p w, pclone p w = (w, Val p)) ->
    forall s p, alike (filter svc check pclone) (s, p) (map_err (fun e => ret (inl e)) (map_request f svc)) s.
  Proof.
    intros H1 H2 s p.
    law (fun (x : st svc * P) (y : st svc) => fst x = y)
      (fun (x : option PErr + option (fut svc)) (y : option (fut svc)) => x = inr y); intros; subst; try solve [crunch].
    - unfold bind. intros w. rewrite H1. crunch.
  Qed.

  (** *** Wrappers that do nothing *)
  Lemma law_either_left (b : Service W Req Resp Err) s : alike (either svc b) (inl s) svc s.
  Proof.
    law (fun (x : st svc + st b) y => x = inl y) (fun (x : fut svc + fut b) y => x = inl y);
      intros; subst; crunch.
  Qed.
  Lemma law_either_right (a : Service W Req Resp Err) s : alike (either a svc) (inr s) svc s.
  Proof.
    law (fun (x : st a + st svc) y => x = inr y) (fun (x : fut a + fut svc) y => x = inr y);
      intros; subst; crunch.
  Qed.
  Lemma law_future_service (T : Task W (result (st svc) Err)) tclone s : alike (future_service svc T tclone) (inr s) svc s.
  Proof.
    law (fun (x : tst T + st svc) y => x = inr y) (@eq (fut svc)); intros; subst; crunch.
  Qed.
  Lemma law_optional s :
    alike (optional svc) (Some s) (map_future inl svc (fut_into svc (@inl Err unit)) (fun f => ret f)) s.
  Proof.
    law (fun (x : option (st svc)) y => x = Some y) (fun (x : option (fut svc)) y => x = Some y);
      intros; subst; crunch.
  Qed.

  (** *** A pure change of the request may be made outside middleware that decides without looking at it *)
  Lemma law_shed_request Req1 (h : Req1 -> Req) s b :
    alike (load_shed (map_request (fun r => ret (h r)) svc)) (LoadShedSt (map_request (fun r => ret (h r)) svc) s b)
          (map_request (fun r => ret (h r)) (load_shed svc)) (LoadShedSt svc s b).
  Proof.
    law (fun (x : load_shed_st (map_request (fun r => ret (h r)) svc)) (y : load_shed_st svc) =>
           ls_inner x = ls_inner y /\ ls_ready x = ls_ready y) (@eq (option (fut svc)));
    intros; repeat match goal with H : _ /\ _ |- _ => destruct H end; subst; unpack; crunch.
  Qed.
  Lemma law_rate_request Req1 (h : Req1 -> Req) (rt : Rt W) rate s r z :
    alike (rate_limit rt rate (map_request (fun r => ret (h r)) svc)) (RlSt (map_request (fun r => ret (h r)) svc) s r z)
          (map_request (fun r => ret (h r)) (rate_limit rt rate svc)) (RlSt svc s r z).
  Proof.
    law (fun (x : rate_limit_st (map_request (fun r => ret (h r)) svc)) (y : rate_limit_st svc) =>
           rl_inner x = rl_inner y /\ rl_st x = rl_st y /\ rl_sleep x = rl_sleep y) (@eq (fut svc));
    intros; repeat match goal with H : _ /\ _ |- _ => destruct H end; subst; unpack; crunch.
  Qed.
  Lemma law_conc_request Req1 (h : Req1 -> Req) closed debug s wait permit :
    let inner := map_request (fun r => ret (h r)) svc in
    alike (conc_limit inner closed debug) (ConcSt inner s wait permit)
          (map_request (fun r => ret (h r)) (conc_limit svc closed debug)) (ConcSt svc s wait permit).
  Proof.
    cbv zeta.
    law (fun (x : conc_st (map_request (fun r => ret (h r)) svc)) (y : conc_st svc) =>
           cl_inner x = cl_inner y /\ cl_wait x = cl_wait y /\ cl_permit x = cl_permit y) (@eq (fut svc));
    intros; repeat match goal with H : _ /\ _ |- _ => destruct H end; subst; unpack; crunch.
  Qed.
End Laws.
