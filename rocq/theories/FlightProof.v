(** Proof of C65: every response future owns a known number of requests in flight. *)
From Verif Require Import Base Util ReadyCache SpawnReady Load Make Middleware Limits Hedge MeterSpec MeterProof MeterMore FlightSpec.
Set Implicit Arguments.
Local Open Scope Z_scope.

(** If [m] returns, [live] has changed by what the value owns, less [b]. *)
Definition bal {W A} (live : W -> Z) (b : Z) (m : M W A) (own : A -> Z) : Prop :=
  forall w w1 a, m w = (w1, Val a) -> live w1 - live w = own a - b.

Section Logic.
  Context {W : Type} (live : W -> Z).

  Lemma still_diverge A : still (A := A) live diverge.
  Proof. intros w. split; [reflexivity | discriminate]. Qed.
  Lemma bal_ret A b (a : A) own : own a = b -> bal live b (ret a) own.
  Proof. intros H w w1 x E. injection E as <- <-. lia. Qed.
  Lemma bal_panic A b (own : A -> Z) : bal live b panic own.
  Proof. intros w w1 x E. discriminate. Qed.
  Lemma bal_diverge A b (own : A -> Z) : bal live b diverge own.
  Proof. intros w w1 x E. discriminate. Qed.
  (** [c] is owned elsewhere meanwhile *)
  Lemma bal_bind A B b c b' (m : M W A) (k : A -> M W B) own own' :
    bal live b m own -> b' = b + c -> (forall a, bal live (own a + c) (k a) own') -> bal live b' (bind m k) own'.
  Proof.
    intros Hm -> Hk w w2 y E. unfold bind in E. destruct (m w) as [w1 [a| |]] eqn:E1; try discriminate.
    generalize (Hm w w1 a E1) (Hk a w1 w2 y E). lia.
  Qed.
  Lemma bal_still A B b (m : M W A) (k : A -> M W B) own :
    still live m -> (forall a, bal live b (k a) own) -> bal live b (bind m k) own.
  Proof.
    intros Hm Hk w w2 y E. unfold bind in E. destruct (Hm w) as [E0 _]. destruct (m w) as [w1 [a| |]] eqn:E1; try discriminate.
    cbn in E0. generalize (Hk a w1 w2 y E). lia.
  Qed.
  Lemma bal_modify B b c (g : W -> W) (k : unit -> M W B) own :
    (forall w, live (g w) = live w - c) -> bal live (b - c) (k tt) own -> bal live b (bind (modify g) k) own.
  Proof. intros Hg Hk w w2 y E. unfold bind, modify in E. generalize (Hk _ _ _ E) (Hg w). lia. Qed.
  Lemma bal_of_still A (m : M W A) : still live m -> bal live 0 m (fun _ => 0).
  Proof. intros Hm w w1 a E. destruct (Hm w) as [E0 _]. rewrite E in E0. cbn in E0. lia. Qed.
End Logic.

Record Owning {W Req Resp Err} (live : W -> Z) (k : Z) (svc : Service W Req Resp Err) (own : fut svc -> Z) : Prop := MkOwning {
  ow_ready : forall s, still live (poll_ready svc s);
  ow_call : forall s r, bal live 0 (call svc s r) (fun x => own (snd x));
  ow_poll : forall f, bal live (own f) (poll_fut svc f) (fun x => own (fst x));
  ow_clone : forall s, still live (clone svc s);
  ow_drop_svc : forall s, same live (drop_svc svc s);
  ow_drop_fut : forall f w, live (drop_fut svc f w) = live w - own f;
  ow_le : forall f, 0 <= own f <= k;
  ow_k : 0 <= k }.

(** Call of the wrapped service at the head, nothing else owned. *)
Ltac bcall H := eapply bal_bind with (c := 0); [apply (ow_call H) | solve [lia | cbn; lia] |]; intros [? ?]; cbn [fst snd]; rewrite ?Z.add_0_r.
Ltac bpoll H := eapply bal_bind with (c := 0); [apply (ow_poll H) | solve [lia | cbn; lia] |]; intros [? ?]; cbn [fst snd]; rewrite ?Z.add_0_r.
Ltac bst := apply bal_still; [| intros ?].
Ltac bret := apply bal_ret; cbn; try reflexivity; try lia.
Ltac sbind := apply still_bind; [| intros ?].

Lemma flies_owning W Req Resp Err live (svc : Service W Req Resp Err) : flies live svc -> Owning live 1 svc (fun _ => 1).
Proof.
  intros H. constructor; try apply H; try lia.
  - intros s r w w1 x E. rewrite (fl_call H _ _ _ E). lia.
  - intros f w w1 x E. destruct (fl_poll H f w) as [E0 _]. rewrite E in E0. cbn in E0. lia.
Qed.
Lemma in_the_air_flies W Req Resp Err (svc : Service W Req Resp Err) : flies fst (in_the_air svc).
Proof.
  assert (HL : forall A (m : M W A), still fst (lift_z m)).
  { intros A m w. unfold lift_z. destruct (m (snd w)) as [w1 o]. cbn. auto. }
  constructor.
  - intros s. apply HL.
  - intros s r w w1 x E. cbn in E. unfold bind, lift_z, modify, ret in E. destruct (call svc s r (snd w)) as [w2 [a| |]]; try discriminate.
    injection E as <- _. reflexivity.
  - intros s. apply HL.
  - intros s. apply HL.
  - intros s w. reflexivity.
  - intros s w. reflexivity.
Qed.
Lemma service_fn_o W Req Resp Err (live : W -> Z) (T : Task W (result Resp Err)) (f : Req -> M W (tst T)) :
  still_task live T -> (forall r, still live (f r)) -> Owning live 0 (service_fn T f) (fun _ => 0).
Proof.
  intros [HT HD] Hf. constructor; cbn; try lia.
  - intros s. apply still_ret.
  - intros s r. bst; [apply Hf |]. bret.
  - intros x. apply bal_of_still, HT.
  - intros s. apply still_ret.
  - intros s w. reflexivity.
  - intros x w. rewrite (HD x w). lia.
Qed.

Section Layers.
  Context {W Req Resp Err : Type} (live : W -> Z) (k : Z) (svc : Service W Req Resp Err).
  Context (own : fut svc -> Z) (H : Owning live k svc own).

  Definition oopt (o : option (fut svc)) : Z := match o with Some f => own f | None => 0 end.
  Lemma oopt_le o : 0 <= oopt o <= k.
  Proof. destruct o; cbn; [apply (ow_le H) | generalize (ow_k H); lia]. Qed.

  Lemma map_poll_bal B (h : result Resp Err -> M W B) f : (forall r, still live (h r)) ->
    bal live (oopt f) (map_poll (poll_fut svc) (drop_fut svc) h f) (fun x => oopt (fst x)).
  Proof.
    intros Hh. destruct f as [f|]; [| apply bal_panic]. cbn [map_poll oopt].
    bpoll H. destruct p as [|v]; [bret |].
    apply bal_modify with (c := own f0); [apply (ow_drop_fut H) |]. bst; [apply Hh |]. bret.
  Qed.
  Lemma map_drop_o f w : live (map_drop (drop_fut svc) f w) = live w - oopt f.
  Proof. destruct f; cbn; [apply (ow_drop_fut H) | lia]. Qed.
  Lemma some_call_o s r : bal live 0 ('(s1, x) <- call svc s r ;; ret (s1, Some x)) (fun x => oopt (snd x)).
  Proof. bcall H. bret. Qed.
  Lemma into_ready_o E' (into : Err -> E') s :
    still live ('(s1, a) <- poll_ready svc s ;; ret (s1, poll_map (map_er into) a)).
  Proof. sbind; [apply (ow_ready H) |]. destruct a. apply still_ret. Qed.

  Lemma weaken_o k' : k <= k' -> Owning live k' svc own.
  Proof. intros L. destruct H. constructor; auto; [| lia]. intros f. generalize (ow_le0 f). lia. Qed.
  Lemma boxed_o : Owning live k (boxed svc) own.
  Proof. destruct H. constructor; assumption. Qed.
  Lemma into_service_o : Owning live k (into_service svc) own.
  Proof. destruct H. constructor; assumption. Qed.
  Lemma as_service_o : Owning live k (as_service svc) own.
  Proof. destruct H. constructor; try assumption. intros s w. reflexivity. Qed.
  Lemma map_request_o Req' (f : Req' -> M W Req) : (forall r, still live (f r)) -> Owning live k (map_request f svc) own.
  Proof. intros Hf. destruct H. constructor; try assumption. intros s r. cbn. bst; [apply Hf |]. apply ow_call0. Qed.
  Lemma map_response_o Resp' (f : Resp -> M W Resp') : (forall r, still live (f r)) -> Owning live k (map_response f svc) oopt.
  Proof.
    intros Hf. constructor; cbn; try apply H.
    - intros s r. apply some_call_o.
    - intros x. apply map_poll_bal. intros [a|e]; [| apply still_ret]. sbind; [apply Hf | apply still_ret].
    - apply map_drop_o.
    - apply oopt_le.
  Qed.
  Lemma map_err_o Err' (f : Err -> M W Err') : (forall r, still live (f r)) -> Owning live k (map_err f svc) oopt.
  Proof.
    intros Hf. constructor; cbn; try apply H.
    - intros s. sbind; [apply (ow_ready H) |]. destruct a as [s1 [|[u|e]]]; try apply still_ret. sbind; [apply Hf | apply still_ret].
    - intros s r. apply some_call_o.
    - intros x. apply map_poll_bal. intros [a|e]; [apply still_ret |]. sbind; [apply Hf | apply still_ret].
    - apply map_drop_o.
    - apply oopt_le.
  Qed.
  Lemma map_result_o Resp' Err' (into : Err -> Err') (f : result Resp Err -> M W (result Resp' Err')) :
    (forall r, still live (f r)) -> Owning live k (map_result into f svc) oopt.
  Proof.
    intros Hf. constructor; cbn; try apply H.
    - intros s. apply into_ready_o.
    - intros s r. apply some_call_o.
    - intros x. apply map_poll_bal, Hf.
    - apply map_drop_o.
    - apply oopt_le.
  Qed.

  Definition ochain (T : Type) (c : chain (fut svc) T) : Z := match c with First f => own f | _ => 0 end.
  Lemma ochain_le T (c : chain (fut svc) T) : 0 <= ochain c <= k.
  Proof. destruct c; cbn; [apply (ow_le H) | |]; generalize (ow_k H); lia. Qed.
  Lemma second_bal A (T : Task W A) t : still_task live T ->
    bal live 0 (x <- tpoll T t ;;
       match x with
       | (t1, Pending) => ret (Second t1, Pending)
       | (t1, Ready v) => modify (tdrop T t1) ;;; ret (Empty, Ready v)
       end) (fun x => @ochain (tst T) (fst x)).
  Proof.
    intros [HT HD]. bst; [apply HT |]. destruct a as [t1 [|v]]; [bret |].
    apply bal_modify with (c := 0); [intros w; rewrite (HD t1 w); lia |]. bret.
  Qed.
  Lemma then_o Resp' Err' (into : Err -> Err') (T : Task W (result Resp' Err')) (f : result Resp Err -> M W (tst T)) :
    still_task live T -> (forall x, still live (f x)) -> Owning live k (then_ into T f svc) (@ochain (tst T)).
  Proof.
    intros HT Hf. constructor; cbn; try apply H.
    - intros s. apply into_ready_o.
    - intros s r. bcall H. bret.
    - intros [x|t|]; [| apply second_bal, HT | apply bal_panic]. bpoll H. destruct p as [|v]; [bret |].
      apply bal_modify with (c := own f0); [apply (ow_drop_fut H) |]. rewrite Z.sub_diag. bst; [apply Hf |]. apply second_bal, HT.
    - intros [x|t|] w; cbn; [apply (ow_drop_fut H) | rewrite (proj2 HT t w); lia | lia].
    - apply ochain_le.
  Qed.
  Lemma and_then_o Resp' Err' (into : Err -> Err') (T : Task W (result Resp' Err')) (f : Resp -> M W (tst T)) :
    still_task live T -> (forall x, still live (f x)) -> Owning live k (and_then into T f svc) (@ochain (tst T)).
  Proof.
    intros HT Hf. constructor; cbn; try apply H.
    - intros s. apply into_ready_o.
    - intros s r. bcall H. bret.
    - intros [x|t|]; [| apply second_bal, HT | apply bal_panic]. bpoll H. destruct p as [|[v|e]]; [bret | |].
      + apply bal_modify with (c := own f0); [apply (ow_drop_fut H) |]. rewrite Z.sub_diag. bst; [apply Hf |]. apply second_bal, HT.
      + apply bal_modify with (c := own f0); [apply (ow_drop_fut H) |]. bret.
    - intros [x|t|] w; cbn; [apply (ow_drop_fut H) | rewrite (proj2 HT t w); lia | lia].
    - apply ochain_le.
  Qed.

  Lemma optional_o : Owning live k (optional svc) oopt.
  Proof.
    constructor; cbn; try apply H.
    - intros [x|]; [| apply still_ret]. sbind; [apply (ow_ready H) |]. destruct a. apply still_ret.
    - intros [x|] r; [| bret]. bcall H. bret.
    - intros [x|]; [| bret]. cbn. bpoll H. bret.
    - intros [x|]; [| apply still_ret]. sbind; [apply (ow_clone H) | apply still_ret].
    - intros [x|]; [apply (ow_drop_svc H) | intros w; reflexivity].
    - intros [x|] w; cbn; [apply (ow_drop_fut H) | lia].
    - apply oopt_le.
  Qed.
  Lemma future_service_o (T : Task W (result (st svc) Err)) (tclone : tst T -> M W (tst T)) :
    still_task live T -> (forall t, still live (tclone t)) -> Owning live k (future_service svc T tclone) own.
  Proof.
    intros [HT HD] Hc. constructor; cbn; try apply H.
    - assert (Hr : forall s, still live ('(s1, p) <- poll_ready svc s ;; ret (inr (A := tst T) s1, p))).
      { intros s. sbind; [apply (ow_ready H) |]. destruct a. apply still_ret. }
      intros [t|s]; [| apply Hr]. sbind; [apply HT |]. destruct a as [t1 [|[s|e]]]; try apply still_ret.
      sbind; [apply still_modify, HD | apply Hr].
    - intros [t|s] r; [apply bal_panic |]. bcall H. bret.
    - intros [t|s]; [sbind; [apply Hc | apply still_ret] | sbind; [apply (ow_clone H) | apply still_ret]].
    - intros [t|s]; [apply HD | apply (ow_drop_svc H)].
  Qed.
  Lemma timeout_o (rt : Rt W) dur : (forall d, same live (nap rt d)) ->
    Owning live k (timeout rt dur svc) (fun f => own (to_inner f)).
  Proof.
    intros Hn. constructor; cbn; try apply H.
    - intros s. apply into_ready_o.
    - intros s r. bcall H. bst; [apply still_get |]. bret.
    - intros f. bpoll H. destruct p as [|v]; [| bret]. bst; [apply still_sleep, Hn |]. destruct a; bret.
    - intros f w. apply (ow_drop_fut H).
    - intros f. apply (ow_le H).
  Qed.
  Lemma load_shed_o : Owning live k (load_shed svc) oopt.
  Proof.
    constructor; cbn; try apply H.
    - intros s. sbind; [apply (ow_ready H) |]. destruct a as [s1 [|[u|e]]]; apply still_ret.
    - intros s r. destruct (ls_ready s); [| bret]. bcall H. bret.
    - intros [x|]; [| bret]. cbn. bpoll H. bret.
    - intros s. sbind; [apply (ow_clone H) | apply still_ret].
    - intros s. apply (ow_drop_svc H).
    - intros [x|] w; cbn; [apply (ow_drop_fut H) | lia].
    - apply oopt_le.
  Qed.
  Lemma filter_o Req' P PErr (check : P -> Req' -> M W (P * result Req PErr)) pclone :
    (forall p r, still live (check p r)) -> (forall p, still live (pclone p)) ->
    Owning live k (filter svc check pclone) (fun f => match f with inl _ => 0 | inr o => oopt o end).
  Proof.
    intros Hc Hp. constructor; cbn; try apply H.
    - intros s. sbind; [apply (ow_ready H) |]. destruct a. apply still_ret.
    - intros s r. bst; [apply Hc |]. destruct a as [p1 [r1|e]]; [| bret]. bcall H. bret.
    - intros [[e|]|o]; [bret | apply bal_panic |].
      eapply bal_bind with (c := 0); [apply map_poll_bal; intros r; apply still_ret | lia |]. intros [f1 p]. bret.
    - intros s. sbind; [apply (ow_clone H) |]. sbind; [apply Hp | apply still_ret].
    - intros s. apply (ow_drop_svc H).
    - intros [e|o] w; [lia | apply map_drop_o].
    - intros [e|o]; [generalize (ow_k H); lia | apply oopt_le].
  Qed.
  Definition oaf (C : Type) (f : afilter_fut svc C) : Z := match af_state f with AfCheck _ => 0 | AfWait x => own x end.
  Lemma async_filter_o Req' P PErr (T : Task W (result Req PErr)) (check : P -> Req' -> M W (P * tst T)) pclone :
    still_task live T -> (forall p r, still live (check p r)) -> (forall p, still live (pclone p)) ->
    Owning live k (async_filter svc T check pclone) (@oaf (tst T)).
  Proof.
    intros [HT HD] Hc Hp.
    assert (Hw : forall x s, bal live (own x)
      ('(x1, p) <- poll_fut svc x ;; ret (AfFut (AfWait x1) s, poll_map (map_er (E' := Err + PErr) inl) p))
      (fun x => @oaf (tst T) (fst x))) by (intros x s; bpoll H; bret).
    constructor; cbn; try apply H.
    - intros s. sbind; [apply (ow_ready H) |]. destruct a. apply still_ret.
    - intros s r. bst; [apply (ow_clone H) |]. bst; [apply Hc |]. destruct a0 as [p1 c]. bret.
    - intros f. unfold oaf at 1. destruct (af_state f) as [c|x] eqn:Es; [| apply Hw].
      bst; [apply HT |]. destruct a as [c1 [|[r|e]]]; try bret.
      bcall H. apply bal_modify with (c := 0); [intros w; rewrite (HD c1 w); lia |]. rewrite Z.sub_0_r. apply Hw.
    - intros s. sbind; [apply (ow_clone H) |]. sbind; [apply Hp | apply still_ret].
    - intros s. apply (ow_drop_svc H).
    - intros f w. rewrite (ow_drop_svc H _ _). unfold oaf. destruct (af_state f); [rewrite (HD c w); lia | apply (ow_drop_fut H)].
    - intros f. unfold oaf. destruct (af_state f); [generalize (ow_k H); lia | apply (ow_le H)].
  Qed.
  Lemma rate_limit_o (rt : Rt W) rate : (forall d, same live (nap rt d)) -> Owning live k (rate_limit rt rate svc) own.
  Proof.
    intros Hn. constructor; cbn; try apply H.
    - intros s. destruct (rl_st s).
      + sbind; [apply still_sleep, Hn |]. destruct a; [| apply still_ret]. sbind; [apply still_get |].
        sbind; [apply (ow_ready H) |]. destruct a0. apply still_ret.
      + sbind; [apply (ow_ready H) |]. destruct a. apply still_ret.
    - intros s r. destruct (rl_st s); [apply bal_panic |]. bst; [apply still_get |].
      destruct (if (1 <? _)%N then _ else _) as [st1 sl]. bcall H. bret.
    - intros s. apply still_panic.
    - intros s. apply (ow_drop_svc H).
  Qed.
  Lemma constant_o Met : Owning live k (constant (M' := Met) svc) own.
  Proof.
    constructor; cbn; try apply H.
    - intros s. sbind; [apply (ow_ready H) |]. destruct a. apply still_ret.
    - intros s r. bcall H. bret.
    - intros s. apply still_panic.
    - intros s. apply (ow_drop_svc H).
  Qed.
  Lemma shared_o Tgt : Owning live 0 (shared (Tgt := Tgt) svc) (fun _ => 0).
  Proof.
    constructor; cbn; try apply H; try lia.
    - intros s. apply still_ret.
    - intros s r. bst; [apply (ow_clone H) |]. bret.
    - intros [x|]; [bret | apply bal_panic].
    - intros [x|] w; [rewrite (ow_drop_svc H _ _); lia | lia].
  Qed.

  Section Retry.
    Context (pol : Policy W Req Resp Err) (HT : still_task live (pfut pol)).
    Context (Hcl : forall p r, still live (clone_request pol p r)) (Hde : forall p r v, still live (retry_decide pol p r v)).
    Context (Hpc : forall p, still live (pol_clone pol p)).
    Definition oretry (f : retry_fut pol svc) : Z := match rf_state f with RCalled x => own x | _ => 0 end.
    Lemma retry_iter_o f : bal live (oretry f) (retry_iter f)
      (fun x => match x with inl f1 => oretry f1 | inr y => oretry (fst y) end).
    Proof.
      destruct HT as [HT1 HT2]. unfold oretry at 1, retry_iter. destruct (rf_state f) as [x|t|].
      - bpoll H. destruct p as [|res]; [bret |]. destruct (rf_req f) as [req|]; [| bret].
        bst; [apply Hde |]. destruct a as [[[p1 req1] res1] [t|]]; [| bret].
        apply bal_modify with (c := own f0); [apply (ow_drop_fut H) |]. bret.
      - bst; [apply HT1 |]. destruct a as [t1 [|u]]; [bret |].
        apply bal_modify with (c := 0); [intros w; rewrite (HT2 t1 w); lia |]. bret.
      - bst; [apply (ow_ready H) |]. destruct a as [s1 [|[u|e]]]; try bret.
        destruct (rf_req f) as [req|]; [| apply bal_panic]. bst; [apply Hcl |]. destruct a as [p1 saved]. bcall H. bret.
    Qed.
    Lemma retry_poll_o fuel : forall f, bal live (oretry f) (retry_poll fuel f) (fun x => oretry (fst x)).
    Proof.
      induction fuel as [|fuel IH]; intros f; [apply bal_diverge |]. cbn [retry_poll].
      eapply bal_bind with (c := 0); [apply retry_iter_o | lia |]. intros [f1|r]; rewrite Z.add_0_r; [apply IH | bret].
    Qed.
    Lemma retry_o fuel : Owning live k (retry pol svc fuel) oretry.
    Proof.
      constructor; cbn [retry poll_ready call poll_fut clone drop_svc drop_fut]; try apply H.
      - intros s. sbind; [apply (ow_ready H) |]. destruct a. apply still_ret.
      - intros s r. bst; [apply Hcl |]. destruct a as [p1 saved]. bcall H. bst; [apply Hpc |]. bst; [apply (ow_clone H) |]. bret.
      - apply retry_poll_o.
      - intros s. sbind; [apply Hpc |]. sbind; [apply (ow_clone H) | apply still_ret].
      - intros s. apply (ow_drop_svc H).
      - intros f w. cbv zeta. unfold oretry. destruct (rf_state f) as [x|t|].
        + rewrite (ow_drop_fut H _ _), (ow_drop_svc H _ _). lia.
        + rewrite (proj2 HT t _), (ow_drop_svc H _ _). lia.
        + rewrite (ow_drop_svc H _ _). lia.
      - intros f. unfold oretry. generalize (ow_k H). destruct (rf_state f); [intros _; apply (ow_le H) | lia | lia].
    Qed.
  End Retry.

  Section Steer.
    Context {P : Type} (pick : P -> Req -> list (st svc) -> M W (P * nat)) (pclone : P -> M W P).
    Context (Hpick : forall q r l, still live (pick q r l)) (Hpc : forall q, still live (pclone q)).
    Lemma steer_poll_o nr : forall l, still live (steer_poll svc l nr).
    Proof.
      induction nr as [|i nr IH]; intros l; cbn [steer_poll]; [apply still_ret |].
      destruct (nth_error l i) as [s|]; [| apply still_panic]. sbind; [apply (ow_ready H) |]. destruct a as [s1 [|[u|e]]]; cbv zeta; [apply still_ret | apply IH | apply still_ret].
    Qed.
    Lemma clone_all_o l : still live (clone_all svc l).
    Proof. induction l as [|s l IH]; cbn [clone_all]; [apply still_ret |]. sbind; [apply (ow_clone H) |]. sbind; [apply IH | apply still_ret]. Qed.
    Lemma drop_all_o A (d : A -> W -> W) l : (forall x, same live (d x)) -> same live (fun w => fold_left (fun w x => d x w) l w).
    Proof. intros Hd. induction l as [|x l IH]; intros w; cbn; [auto |]. rewrite (IH _). apply Hd. Qed.
    Lemma steer_o : Owning live k (steer svc pick pclone) own.
    Proof.
      constructor; cbn [steer poll_ready call poll_fut clone drop_svc drop_fut]; try apply H.
      - intros s. sbind; [apply steer_poll_o |]. destruct a as [[l nr] p]. apply still_ret.
      - intros s r. destruct (sr_not_ready s); [| apply bal_panic]. bst; [apply Hpick |]. destruct a as [p1 i].
        destruct (nth_error (sr_services s) i); [| apply bal_panic]. bcall H. bret.
      - intros s. sbind; [apply Hpc |]. sbind; [apply clone_all_o | apply still_ret].
      - intros s. apply drop_all_o. apply (ow_drop_svc H).
    Qed.
  End Steer.

  Section Latency.
    Context (rt : Rt W) (Hnap : forall d, same live (nap rt d)).
    Lemma latency_o record : (forall d, still live (record d)) -> Owning live k (latency rt svc record) (fun f => own (lf_inner f)).
    Proof.
      intros Hr. constructor; cbn; try apply H.
      - intros s r. bst; [apply still_get |]. bcall H. bret.
      - intros f. bpoll H. destruct p as [|[v|e]]; try bret. bst; [apply still_get |]. bst; [apply Hr |]. bret.
      - intros f w. apply (ow_drop_fut H).
      - intros f. apply (ow_le H).
    Qed.
    Definition oos (o : oneshot_st svc) : Z := match o with OsCalled _ f => own f | _ => 0 end.
    Lemma oneshot_o o : bal live (oos o) (oneshot_poll o) (fun x => oos (fst x)).
    Proof.
      assert (Hc : forall f, bal live (own f) (oneshot_called svc f) (fun x => oos (fst x))).
      { intros f. unfold oneshot_called. bpoll H. destruct p as [|[v|e]]; try bret.
        apply bal_modify with (c := own f0); [apply (ow_drop_fut H) |]. bret. }
      destruct o as [s q|f|]; cbn [oneshot_poll oos]; [| apply Hc | apply bal_panic].
      bst; [apply (ow_ready H) |]. destruct a as [s1 [|[u|e]]]; try bret. destruct q as [r|]; [| apply bal_panic].
      bcall H. apply bal_modify with (c := 0); [intros w; rewrite (ow_drop_svc H _ _); lia |]. rewrite Z.sub_0_r. apply Hc.
    Qed.
    Definition odelay (f : delay_fut svc) : Z := match df_state f with DDelaying _ _ _ => 0 | DCalled o => oos o end.
    Lemma delay_o delay_of : (forall r, still live (delay_of r)) -> Owning live k (delay rt svc delay_of) odelay.
    Proof.
      intros Hd. constructor; cbn [delay poll_ready call poll_fut clone drop_svc drop_fut]; try apply H.
      - intros s. apply still_ret.
      - intros s r. bst; [apply Hd |]. bst; [apply (ow_clone H) |]. bst; [apply still_get |]. bret.
      - intros f. assert (Hc : forall sv o, bal live (oos o) ('(o1, p) <- oneshot_poll o ;; ret (DelayFut sv (DCalled o1), p)) (fun x => odelay (fst x))).
        { intros sv o. eapply bal_bind with (c := 0); [apply oneshot_o | lia |]. intros [o1 p]. rewrite Z.add_0_r. bret. }
        unfold odelay at 1. cbv zeta. destruct (df_state f) as [d q|o] eqn:Es; [| apply Hc].
        bst; [apply still_sleep, Hnap |]. destruct a; [| unfold odelay; apply bal_ret; cbn; rewrite Es; reflexivity].
        destruct q as [r|]; [| apply bal_panic]. destruct (df_svc f) as [s|]; [| apply bal_panic]. apply (Hc None (oneshot_new svc s r)).
      - intros s. apply still_panic.
      - intros f w. cbv zeta.
        assert (E : live (match df_svc f with Some s => drop_svc svc s w | None => w end) = live w)
          by (destruct (df_svc f); [apply (ow_drop_svc H) | reflexivity]).
        unfold odelay. destruct (df_state f) as [d q|o]; [lia |].
        destruct o as [s q|x|]; cbn; [rewrite (ow_drop_svc H _ _); lia | rewrite (ow_drop_fut H _ _); lia | lia].
      - intros f. unfold odelay. generalize (ow_k H). destruct (df_state f) as [d q|[s q|x|]]; cbn; try lia. intros _. apply (ow_le H).
    Qed.
  End Latency.
End Layers.

Section Conc.
  Context {W Req Resp Err : Type} (live : W -> Z) (k : Z) (svc : Service W Req Resp Err).
  Context (own : fut svc -> Z) (H : Owning live k svc own).
  Notation live2 := (fun x : sem * W => live (snd x)).
  Lemma lift_snd_bal A b (m : M W A) o : bal live b m o -> bal live2 b (lift_snd m) o.
  Proof. intros Hm [x w] w1 a E. unfold lift_snd in E. cbn in *. destruct (m w) as [w2 v] eqn:E1. injection E as <- ->. cbn. exact (Hm _ _ _ E1). Qed.
  Lemma lift_snd_still A (m : M W A) : still live m -> still live2 (lift_snd m).
  Proof. intros Hm [x w]. unfold lift_snd. cbn. destruct (Hm w) as (E & _). destruct (m w) as [w1 a]. cbn in *. auto. Qed.
  Lemma conc_o closed debug : Owning live2 k (conc_limit svc closed debug) own.
  Proof.
    assert (Hpi : forall s wt pm, still live2 ('(s1, a) <- lift_snd (poll_ready svc (cl_inner s)) ;; ret (ConcSt svc s1 wt pm, a))).
    { intros s wt pm. sbind; [apply lift_snd_still, (ow_ready H) |]. destruct a. apply still_ret. }
    constructor; cbn; try apply H.
    - intros s. destruct (cl_permit s); [apply Hpi |]. sbind; [apply still_get |]. destruct a; [destruct debug; [apply still_panic | apply Hpi] |].
      sbind; [apply still_get |]. destruct (sem_poll (cl_wait s) a) as [[m1 w1] got]. sbind; [apply still_modify; intros x; reflexivity |].
      destruct got; [apply Hpi | apply still_ret].
    - intros s r. destruct (cl_permit s); [| apply bal_panic].
      eapply bal_bind with (c := 0); [apply lift_snd_bal, (ow_call H) | lia |]. intros [s1 f]. bret.
    - intros f. apply lift_snd_bal, (ow_poll H).
    - intros s. sbind; [apply lift_snd_still, (ow_clone H) | apply still_ret].
    - intros s w. apply (ow_drop_svc H).
    - intros f w. apply (ow_drop_fut H).
  Qed.
End Conc.

Section Tracked.
  Context {W Req Resp Err C T : Type} (live : W -> Z) (k : Z) (svc : Service W Req Resp Err).
  Context (own : fut svc -> Z) (H : Owning live k svc own).
  Context (start : M W T) (finish : T -> C -> W -> C * W) (keep : Resp -> W -> W * bool).
  Context (Hs : still live start) (Hf : forall t c, same live (fun w => snd (finish t c w))).
  Context (Hk : forall v, same live (fun w => fst (keep v w))).
  Notation live2 := (fun x : arc (C := C) * W => live (snd x)).
  Lemma lift_w_bal A b (m : M W A) o : bal live b m o -> bal live2 b (lift_w m) o.
  Proof. intros Hm [x w] w1 a E. unfold lift_w in E. cbn in *. destruct (m w) as [w2 v] eqn:E1. injection E as <- ->. cbn. exact (Hm _ _ _ E1). Qed.
  Lemma lift_w_still_z A (m : M W A) : still live m -> still live2 (lift_w m).
  Proof. intros Hm [x w]. unfold lift_w. cbn. destruct (Hm w) as (E & _). destruct (m w) as [w1 a]. cbn in *. auto. Qed.
  Lemma drop_handle_z t x : live2 (drop_handle finish t x) = live2 x.
  Proof. unfold drop_handle. generalize (Hf t (content (fst x)) (snd x)). destruct (finish t _ _) as [c1 w1]. cbn. auto. Qed.
  Lemma tracked_o : Owning live2 k (tracked_load svc start finish keep) (fun f => own (tc_inner f)).
  Proof.
    constructor; cbn; try apply H.
    - intros s. apply lift_w_still_z, (ow_ready H).
    - intros s r. unfold tl_call. bst.
      { unfold new_handle. sbind; [apply lift_w_still_z, Hs |]. sbind; [apply still_modify; intros x; reflexivity | apply still_ret]. }
      intros x w1 y E. generalize (ow_call H s r (snd x)). destruct (call svc s r (snd x)) as [w2 [[s1 f]| |]]; try discriminate.
      injection E as <- <-. intros Hc. exact (Hc _ _ eq_refl).
    - intros f. unfold tc_poll. eapply bal_bind with (c := 0); [apply lift_w_bal, (ow_poll H) | lia |]. intros [i a]. cbn [fst]. rewrite Z.add_0_r.
      destruct a as [|[v|e]]; try bret. destruct (tc_handle f) as [t|]; [| apply bal_panic].
      bst. { apply lift_w_still_z. intros w. generalize (Hk v w). destruct (keep v w). cbn. auto. }
      destruct a; [bret |]. apply bal_modify with (c := 0); [intros w; generalize (drop_handle_z t w); cbn; lia |]. bret.
    - intros s. apply still_panic.
    - intros s w. apply (ow_drop_svc H).
    - intros f w. unfold tc_drop. destruct (tc_handle f) as [t|]; [rewrite (drop_handle_z t (fst w, _)) |]; apply (ow_drop_fut H).
    - intros f. apply (ow_le H).
  Qed.
End Tracked.

Lemma either_o W Req Resp Err (live : W -> Z) k (a b : Service W Req Resp Err) oa ob :
  Owning live k a oa -> Owning live k b ob ->
  Owning live k (either a b) (fun f => match f with inl x => oa x | inr y => ob y end).
Proof.
  intros Ha Hb. constructor; cbn; try apply Ha.
  - intros [x|x]; (sbind; [first [apply (ow_ready Ha) | apply (ow_ready Hb)] |]); destruct a0; apply still_ret.
  - intros [x|x] r; [bcall Ha | bcall Hb]; bret.
  - intros [x|x]; [bpoll Ha | bpoll Hb]; bret.
  - intros [x|x]; (sbind; [first [apply (ow_clone Ha) | apply (ow_clone Hb)] |]); apply still_ret.
  - intros [x|x]; [apply (ow_drop_svc Ha) | apply (ow_drop_svc Hb)].
  - intros [x|x]; [apply (ow_drop_fut Ha) | apply (ow_drop_fut Hb)].
  - intros [x|x]; [apply (ow_le Ha) | apply (ow_le Hb)].
Qed.

Lemma apart_o W Req Resp Err (live : W -> Z) (svc : Service W Req Resp Err) : apart live svc -> Owning live 0 svc (fun _ => 0).
Proof.
  intros H. constructor; try apply H; try lia.
  - intros s r. apply bal_of_still, (ap_call H).
  - intros f. apply bal_of_still, (ap_poll H).
  - intros f w. rewrite (ap_drop_fut H f w). lia.
Qed.

Section Reconnect.
  Context {W Tgt Req Resp Err MErr : Type} (live : W -> Z) (k : Z) (svc : Service W Req Resp Err).
  Context (own : fut svc -> Z) (H : Owning live k svc own).
  Context (mk : Service W Tgt (st svc) MErr) (target : Tgt) (Hm : apart live mk).
  Lemma reconnect_iter_o (s : reconnect_st svc mk) : still live (reconnect_iter target s).
  Proof.
    unfold reconnect_iter. destruct (rc_st s) as [|f|c].
    - sbind; [apply (ap_ready Hm) |]. destruct a as [m1 [|[u|e]]]; try apply still_ret.
      sbind; [apply (ap_call Hm) |]. destruct a as [m2 f]. apply still_ret.
    - sbind; [apply (ap_poll Hm) |]. destruct a as [f1 [|[c|e]]]; try apply still_ret;
        (sbind; [apply still_modify, (ap_drop_fut Hm) | apply still_ret]).
    - sbind; [apply (ow_ready H) |]. destruct a as [c1 [|[u|e]]]; try apply still_ret.
      sbind; [apply still_modify, (ow_drop_svc H) | apply still_ret].
  Qed.
  Lemma reconnect_poll_o fuel : forall s : reconnect_st svc mk, still live (reconnect_poll target fuel s).
  Proof.
    induction fuel as [|fuel IH]; intros s; [apply still_diverge |]. cbn [reconnect_poll].
    sbind; [apply reconnect_iter_o |]. destruct a as [s1|r]; [apply IH | apply still_ret].
  Qed.
  Lemma reconnect_o fuel : Owning live k (reconnect svc mk target fuel) (fun f => match f with inl x => own x | inr _ => 0 end).
  Proof.
    constructor; cbn [reconnect poll_ready call poll_fut clone drop_svc drop_fut].
    - intros s. apply reconnect_poll_o.
    - intros s r. destruct (rc_err s) as [e|]; [bret |]. destruct (rc_st s) as [|f|c]; try apply bal_panic. bcall H. bret.
    - intros [x|[e|]]; [bpoll H; bret | bret | apply bal_panic].
    - intros s. apply still_panic.
    - intros s w. cbv zeta. destruct (rc_st s) as [|f|c].
      + apply (ap_drop_svc Hm).
      + rewrite (ap_drop_fut Hm f _). apply (ap_drop_svc Hm).
      + rewrite (ow_drop_svc H c _). apply (ap_drop_svc Hm).
    - intros [x|o] w; [apply (ow_drop_fut H) | lia].
    - intros [x|o]; [apply (ow_le H) | generalize (ow_k H); lia].
    - apply (ow_k H).
  Qed.
End Reconnect.

Section Select.
  Context {W Req Resp EA EB : Type} (live : W -> Z) (k : Z).
  Context (a : Service W Req Resp EA) (b : Service W Req Resp EB).
  Context (oa : fut a -> Z) (Ha : Owning live k a oa) (ob : fut b -> Z) (Hb : Owning live k b ob).
  Definition osel (f : select_fut a b) : Z := oa (sel_a f) + match sel_b f with Some x => ob x | None => 0 end.
  Lemma select_o clone_req : (forall r, still live (clone_req r)) -> Owning live (k * 2) (select a b clone_req) osel.
  Proof.
    intros Hc. constructor; cbn [select poll_ready call poll_fut clone drop_svc drop_fut].
    - intros s. sbind; [apply (ow_ready Ha) |]. destruct a0 as [a1 pa]. sbind; [apply (ow_ready Hb) |]. destruct a0 as [b1 pb]. apply still_ret.
    - intros s r. bst; [apply Hc |]. destruct a0 as [r1|].
      + bcall Hb. eapply bal_bind with (c := ob f); [apply (ow_call Ha) | lia |]. intros [a1 fa]. bret.
      + bcall Ha. bret. unfold osel. cbn. lia.
    - intros f. unfold osel at 1. set (nb := match sel_b f with Some x => ob x | None => 0 end) in *.
      eapply bal_bind with (c := nb); [apply (ow_poll Ha) | lia |]. intros [fa pa]. cbn [fst].
      destruct pa as [|v]; [| bret; unfold osel; cbn; reflexivity].
      destruct (sel_b f) as [fb|] eqn:Eb; subst nb.
      + eapply bal_bind with (c := oa fa); [apply (ow_poll Hb) | lia |]. intros [fb1 pb]. bret. unfold osel. cbn. lia.
      + bret. 
    - intros s. apply still_panic.
    - intros s w. rewrite (ow_drop_svc Hb _ _). apply (ow_drop_svc Ha).
    - intros f w. cbv zeta. unfold osel. destruct (sel_b f) as [fb|]; [rewrite (ow_drop_fut Hb _ _) |]; rewrite (ow_drop_fut Ha); lia.
    - intros f. unfold osel. generalize (ow_le Ha (sel_a f)) (ow_k Ha). destruct (sel_b f) as [fb|]; [generalize (ow_le Hb fb) |]; lia.
    - generalize (ow_k Ha). lia.
  Qed.
End Select.

Section Hedge.
  Context {W Req Resp Err : Type} (live : W -> Z) (k : Z) (svc : Service W Req Resp Err).
  Context (own : fut svc -> Z) (H : Owning live k svc own).
  Context (rt : Rt W) (clone_request : Req -> option Req) (can_retry : Req -> bool) (mdp : Z) (quantile : list Z -> Z).
  Context (getH : W -> histo) (setH : histo -> W -> W).
  Context (Hnap : forall d, same live (nap rt d)) (Hset : forall h, same live (setH h)).
  Lemma with_histo_still_z A (f : Z -> histo -> out (histo * A)) : still live (with_histo rt getH setH f).
  Proof.
    intros w. split; [| auto]. unfold with_histo. destruct (f (now rt w) (getH w)) as [[h1 x]| |]; cbn; auto. apply Hset.
  Qed.
  Lemma hedge_o : exists own', Owning live (k * 2) (hedge rt svc clone_request can_retry mdp quantile getH setH) own'.
  Proof.
    assert (Ha : Owning live k (hedge_a rt svc getH setH) (fun f => own (lf_inner f)))
      by (apply latency_o; [exact H | intros d; apply with_histo_still_z]).
    eassert (Hf : Owning live k (hedge_filtered rt svc can_retry getH setH) _).
    { apply async_filter_o with (1 := Ha); [| intros p r; apply still_ret | intros p; apply still_ret].
      split; [| intros t w; reflexivity]. intros [[r|]|u]; cbn; [apply still_ret | apply still_panic | apply still_ret]. }
    assert (Hb := @delay_o _ _ _ _ live k _ _ Hf rt Hnap (hedge_delay rt quantile getH setH) (fun r => with_histo_still_z _)).
    eexists. refine (@select_o _ _ _ _ _ live k _ _ _ Ha _ Hb (hedge_clone rt clone_request mdp getH setH) _).
    intros r. unfold hedge_clone. destruct (clone_request r); [apply with_histo_still_z | apply still_ret].
  Qed.
End Hedge.

Section MakeSpawn.
  Context {W Req Resp Err : Type} (live : W -> Z) (k : Z) (svc : Service W Req Resp Err).
  Context (own : fut svc -> Z) (H : Owning live k svc own).

  Lemma make_balance_o K DErr G R0 P0 E0 (s0 : Service W R0 P0 E0) (D : Discover W K (st s0) DErr)
    (mk : Service W Req (dst D) Err) om (g0 : M W G) :
    Owning live k mk om -> still live g0 -> Owning live k (make_balance s0 D mk g0) om.
  Proof.
    intros Hm Hg. constructor; cbn; try apply Hm.
    intros f. bpoll Hm. destruct p as [|[d|e]]; try bret. bst; [apply Hg |]. bret.
  Qed.

  Context (bg : W -> W * nat) (Hbg : same live (fun w => fst (bg w))).
  Lemma task_poll_o (t : rtask svc) : still live (task_poll t).
  Proof.
    intros w. split; [| auto]. unfold task_poll. destruct t as [s|r| |]; try reflexivity.
    generalize (proj1 (ow_ready H s w)). destruct (poll_ready svc s w) as [w1 [[s1 [|[u|e]]]| |]]; cbn; auto;
      intros E; rewrite (ow_drop_svc H _ w1); exact E.
  Qed.
  Lemma task_polls_o n : forall t : rtask svc, still live (task_polls n t).
  Proof. induction n as [|n IH]; intros t; cbn [task_polls]; [apply still_ret |]. sbind; [apply task_poll_o | apply IH]. Qed.
  Lemma sr_ready_o fuel : forall s : sr_st svc, still live (sr_ready bg fuel s).
  Proof.
    induction fuel as [|fuel IH]; intros s; [apply still_diverge |]. cbn [sr_ready]. destruct s as [x|t].
    - sbind; [apply (ow_ready H) |]. destruct a as [x1 [|r]]; [apply IH | apply still_ret].
    - sbind. { intros w. generalize (Hbg w). destruct (bg w). cbn. auto. }
      sbind; [apply task_polls_o |]. destruct a0 as [s|[s|e]| |]; try apply still_ret; [apply IH | apply still_panic].
  Qed.
  Lemma spawn_ready_o fuel : Owning live k (spawn_ready svc bg fuel) (@oopt _ _ _ _ svc own).
  Proof.
    constructor; cbn [spawn_ready poll_ready call poll_fut clone drop_svc drop_fut].
    - intros s. apply sr_ready_o.
    - intros s r. unfold sr_call. destruct s as [x|t]; [| apply bal_panic].
      eapply bal_bind with (b := 0) (c := 0) (own := fun x : sr_st svc * fut svc => own (snd x)); [| reflexivity |].
      + bcall H. bret.
      + intros [s1 f]. bret.
    - intros f. apply (map_poll_bal H). intros r; apply still_ret.
    - intros s. apply still_panic.
    - intros s w. unfold sr_drop. destruct s as [x|[x|[x|e]| |]]; try apply (ow_drop_svc H); reflexivity.
    - intros f. apply (map_drop_o H).
    - intros f. apply (oopt_le H).
    - apply (ow_k H).
  Qed.
End MakeSpawn.

Section Cache.
  Context {W K Req Resp Err : Type} (keq : forall a b : K, {a = b} + {a <> b}) (live : W -> Z) (k : Z).
  Context (svc : Service W Req Resp Err) (own : fut svc -> Z) (H : Owning live k svc own).
  Context (sched : nat -> W -> W * list nat) (Hsch : forall l, same live (fun w => fst (sched l w))).
  Notation cache := (cache (K := K) svc).

  Lemma evict_o (c : cache) x : still live (evict keq c x).
  Proof.
    unfold evict. destruct (match im_swap_remove keq x (rc_txs c) with Some _ => _ | None => _ end) as [[txs1 cn1] hit].
    destruct (im_swap_remove keq x (rc_ready c)) as [[[s t] ready1]|]; [| apply still_ret].
    sbind; [apply still_modify, (ow_drop_svc H) | apply still_ret].
  Qed.
  Lemma fu_poll_o cn order : forall l : list (pend (K := K) svc), still live (fu_poll cn order l).
  Proof.
    induction order as [|i order IH]; intros l; cbn [fu_poll]; [apply still_ret |].
    destruct (nth_error l i) as [p|]; [| apply IH]. destruct (cn (pd_cancel p)).
    - sbind; [apply still_modify, (ow_drop_svc H) | apply still_ret].
    - sbind; [apply (ow_ready H) |]. destruct a as [s1 [|[u|e]]]; [apply IH | apply still_ret |].
      sbind; [apply still_modify, (ow_drop_svc H) | apply still_ret].
  Qed.
  Lemma fu_poll_next_o (c : cache) : still live (fu_poll_next sched c).
  Proof.
    unfold fu_poll_next. destruct (rc_pending c) as [|p l]; [apply still_ret |].
    sbind. { intros w. generalize (Hsch (length (p :: l)) w). destruct (sched _ w). cbn. auto. }
    sbind; [apply fu_poll_o |]. destruct a0 as [l1 o]. apply still_ret.
  Qed.
  Lemma poll_pending_loop_o fuel : forall c : cache, still live (poll_pending_loop keq sched fuel c).
  Proof.
    induction fuel as [|fuel IH]; intros c; [apply still_diverge |]. cbn [poll_pending_loop].
    sbind; [apply fu_poll_next_o |]. destruct a as [l [|[[x s t|x|x e]|]]]; try apply still_ret.
    - destruct (im_swap_remove keq x (rc_txs c)) as [[tx txs1]|]; [| apply still_panic].
      destruct (im_insert keq x (s, tx) (rc_ready c)) as [ready1 old]. sbind; [| apply IH].
      apply still_modify. destruct old as [[s0 t0]|]; [apply (ow_drop_svc H) | intros w; reflexivity].
    - apply IH.
    - destruct (im_swap_remove keq x (rc_txs c)) as [[tx txs1]|]; [apply still_ret | apply still_panic].
  Qed.
  Lemma check_ready_index_o (c : cache) i : still live (check_ready_index keq c i).
  Proof.
    unfold check_ready_index. destruct (nth_error (rc_ready c) i) as [[x [s t]]|]; [| apply still_ret].
    sbind; [apply (ow_ready H) |]. destruct a as [s1 a]. cbv zeta. destruct a as [|[u|e]].
    - destruct (swap_remove i _) as [[[x2 [s2 t2]] ready2]|]; [| apply still_panic].
      destruct (pending_contains keq _ x2); [| apply still_ret]. sbind; [apply still_modify, (ow_drop_svc H) | apply still_ret].
    - apply still_ret.
    - destruct (swap_remove i _) as [[[x2 [s2 t2]] ready2]|]; [| apply still_panic].
      sbind; [apply still_modify, (ow_drop_svc H) | apply still_ret].
  Qed.
  Lemma call_ready_index_o (c : cache) i r : bal live 0 (call_ready_index keq c i r) (fun y => own (snd y)).
  Proof.
    unfold call_ready_index. destruct (swap_remove i (rc_ready c)) as [[[x [s t]] ready1]|]; [| apply bal_panic].
    bcall H. cbv zeta. destruct (pending_contains keq _ x); [| bret].
    apply bal_modify with (c := 0); [intros w; rewrite (ow_drop_svc H _ w); lia |]. bret.
  Qed.
  Lemma cache_drop_o (c : cache) : same live (cache_drop c).
  Proof.
    intros w. unfold cache_drop.
    rewrite (@drop_all_o _ live _ (fun x : K * (st svc * nat) => drop_svc svc (fst (snd x))) (rc_ready c) (fun x => ow_drop_svc H _) _).
    apply (@drop_all_o _ live _ (fun p : pend (K := K) svc => drop_svc svc (pd_svc p)) (rc_pending c) (fun x => ow_drop_svc H _)).
  Qed.
End Cache.

Section Balance.
  Context {W K Req Resp Err DErr Met G : Type} (keq : forall a b : K, {a = b} + {a <> b}) (live : W -> Z) (k : Z).
  Context (svc : Service W Req Resp Err) (D : Discover W K (st svc) DErr) (own : fut svc -> Z) (H : Owning live k svc own).
  Context (sched : nat -> W -> W * list nat) (Hsch : forall l, same live (fun w => fst (sched l w))).
  Context (next_u64 : G -> M W (G * Z)) (debug : bool) (load : st svc -> M W Met) (le : Met -> Met -> bool).
  Context (HD : forall d, still live (poll_discover D d)) (HDd : forall d, same live (ddrop D d)).
  Context (Hg : forall g, still live (next_u64 g)) (Hl : forall s, still live (load s)).

  Lemma update_o fuel : forall d c, still live (update_from_discover keq D fuel d c).
  Proof.
    induction fuel as [|fuel IH]; intros d c; [apply still_diverge |]. cbn [update_from_discover].
    sbind; [apply HD |]. destruct a as [d1 [|[[[x s|x]|e]|]]]; try apply still_ret.
    - apply IH.
    - sbind; [apply (evict_o keq H) |]. destruct a as [c1 b]. apply IH.
  Qed.
  Lemma promote_o fuel : forall c : cache (K := K) svc, still live (promote_loop keq sched debug fuel c).
  Proof.
    induction fuel as [|fuel IH]; intros c; [apply still_diverge |]. cbn [promote_loop].
    sbind; [apply (poll_pending_loop_o keq H sched Hsch) |].
    destruct a as [c1 [|[u|e]]]; [| | apply IH]; (destruct (debug && _); [apply still_panic | apply still_ret]).
  Qed.
  Lemma next_range_still_z g a b : still live (next_range next_u64 debug g a b).
  Proof.
    unfold next_range. destruct (debug && _); [apply still_panic |]. cbv zeta. apply still_bind; [apply Hg | intros [g1 n]].
    destruct (_ =? 0)%Z; [apply still_panic | apply still_ret].
  Qed.
  Lemma p2c_still_z (c : cache (K := K) svc) g : still live (p2c_ready_index next_u64 debug load le c g).
  Proof.
    assert (Hi : forall i, still live (ready_index_load load c i)).
    { intros i. unfold ready_index_load. destruct (get_ready_index c i) as [[x s]|]; [apply Hl | apply still_panic]. }
    unfold p2c_ready_index. destruct (ready_len c) as [|[|n]]; try apply still_ret.
    apply still_bind.
    - unfold sample_floyd2. destruct (debug && _); [apply still_panic |]. apply still_bind; [apply next_range_still_z | intros [g1 a]].
      apply still_bind; [apply next_range_still_z | intros [g2 b]; apply still_ret].
    - intros [g1 ab]. cbv zeta. destruct (debug && _); [apply still_panic |].
      apply still_bind; [apply Hi | intros la]. apply still_bind; [apply Hi | intros lb; apply still_ret].
  Qed.
  Lemma balance_loop_o fuel : forall d c idx g, still live (balance_loop keq D next_u64 debug load le fuel d c idx g).
  Proof.
    induction fuel as [|fuel IH]; intros d c idx g; [apply still_diverge |]. cbn [balance_loop].
    assert (Hsel : forall c, still live
       ('(g1, o) <- p2c_ready_index next_u64 debug load le c g ;;
          match o with
          | None => if debug && negb (ready_len c =? 0)%nat then panic else ret (BalSt d c None g1, Pending)
          | Some i => balance_loop keq D next_u64 debug load le fuel d c (Some i) g1
          end)).
    { intros c2. sbind; [apply p2c_still_z |]. destruct a as [g1 [i|]]; [apply IH |].
      destruct (debug && _); [apply still_panic | apply still_ret]. }
    cbv zeta. destruct idx as [i|]; [| apply Hsel].
    sbind; [apply (check_ready_index_o keq H) |]. destruct a as [c1 [[|]|e]]; [apply still_ret | apply Hsel | apply Hsel].
  Qed.
  Lemma balance_o fuel : Owning live k (balance keq svc D sched next_u64 debug load le fuel) (@oopt _ _ _ _ svc own).
  Proof.
    constructor; cbn [balance poll_ready call poll_fut clone drop_svc drop_fut].
    - intros s. sbind; [apply update_o |]. destruct a as [[d1 c1] [x|]]; [apply still_ret |].
      sbind; [apply promote_o |]. apply balance_loop_o.
    - intros s r. destruct (bl_index s) as [i|]; [| apply bal_panic].
      eapply bal_bind with (c := 0); [apply (call_ready_index_o keq H) | lia |]. intros [c1 f]. bret.
    - intros f. apply (map_poll_bal H). intros r; apply still_ret.
    - intros s. apply still_panic.
    - intros s w. rewrite (cache_drop_o H (bl_cache s) _). apply HDd.
    - intros f. apply (map_drop_o H).
    - intros f. apply (oopt_le H).
    - apply (ow_k H).
  Qed.
End Balance.
