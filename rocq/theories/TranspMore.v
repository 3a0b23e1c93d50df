(** The response futures of SpawnReady and Balance, Constant, the discovery wrappers and MakeBalance: transparency
    (for C28, C51, C53, C57, C59). *)
From Verif Require Import Base DriveSpec Util ReadyCache SpawnReady Load RngSpec TranspProof.
Set Implicit Arguments.

Lemma map_er_future W F A E B (pf : F -> M W (F * poll (result A E))) (fd : F -> W -> W) (h : E -> B) f w gs :
  drive (map_poll pf fd (fun r => ret (map_er h r))) (Some f) w gs =
  fin_then Some (fun f1 r => modify (fd f1) ;;; ret (None, map_er h r)) (drive pf f w gs).
Proof.
  etransitivity; [apply map_poll_drive|]. unfold fin_then.
  destruct (drive pf f w gs) as [l [f1 w1|f1 w1 r|w1|w1]]; reflexivity.
Qed.

Lemma spawn_response W Req Resp Err (svc : Service W Req Resp Err) bg fuel f w gs :
  drive (poll_fut (spawn_ready svc bg fuel)) (Some f) w gs =
  fin_then Some (fun f1 r => modify (drop_fut svc f1) ;;; ret (None, map_er SrInner r)) (drive (poll_fut svc) f w gs).
Proof. apply map_er_future. Qed.

Lemma balance_response W K Req Resp Err DErr Metric R (keq : forall a b : K, {a = b} + {a <> b})
  (svc : Service W Req Resp Err) (D : Discover W K (st svc) DErr) (sched : nat -> W -> W * list nat)
  (next_u64 : R -> M W (R * Z)) debug (load : st svc -> M W Metric) le fuel f w gs :
  drive (poll_fut (balance keq svc D sched next_u64 debug load le fuel)) (Some f) w gs =
  fin_then Some (fun f1 r => modify (drop_fut svc f1) ;;; ret (None, map_er inl r)) (drive (poll_fut svc) f w gs).
Proof. apply map_er_future. Qed.

Section Constant.
  Context {W Req Resp Err Met : Type} (svc : Service W Req Resp Err).
  Lemma constant_history s (m : Met) :
    same_history (a := svc) (b := constant svc) (fun r => r) (fun e => e) (fun _ _ f => f) s (s, m).
  Proof. apply (@run_wrap _ _ _ _ _ _ _ svc (constant svc) (fun s => (s, m))); wrap_tac. Qed.
  Lemma constant_drive f w gs : drive (poll_fut (constant (M' := Met) svc)) f w gs = drive (poll_fut svc) f w gs.
  Proof. reflexivity. Qed.
  (** The load does not change. *)
  Lemma constant_keeps (s : st (constant (M' := Met) svc)) w :
    (forall w1 s1 a, poll_ready (constant svc) s w = (w1, Val (s1, a)) -> constant_load s1 = constant_load s) /\
    (forall r w1 s1 f, call (constant svc) s r w = (w1, Val (s1, f)) -> constant_load s1 = constant_load s).
  Proof.
    split.
    - intros w1 s1 a. cbn. unfold bind, ret. destruct (poll_ready svc (fst s) w) as [w2 [[s2 p]| |]]; try discriminate.
      intros E. injection E as <- <- <-. reflexivity.
    - intros r w1 s1 a. cbn. unfold bind, ret. destruct (call svc (fst s) r w) as [w2 [[s2 p]| |]]; try discriminate.
      intros E. injection E as <- <- <-. reflexivity.
  Qed.
End Constant.

Section MapDiscover.
  Context {W K S S' E : Type} (D : Discover W K S E).
  Lemma map_discover_drive (f : S -> M W S') d w gs :
    drive (poll_discover (map_discover D f)) d w gs =
    fin_then (fun d => d)
      (fun d1 p => match p with
                   | Some (Ok (Insert k s)) => s1 <- f s ;; ret (d1, Some (Ok (Insert k s1)))
                   | Some (Ok (Remove k)) => ret (d1, Some (Ok (Remove k)))
                   | Some (Er e) => ret (d1, Some (Er e))
                   | None => ret (d1, None)
                   end)
      (drive (poll_discover D) d w gs).
  Proof.
    apply drive_map with (wrap := fun d => d). clear. intros d w. cbn. unfold bind, ret.
    destruct (poll_discover D d w) as [w1 [[d1 [|[[[k s|k]|e]|]]]| |]]; try reflexivity.
    destruct (f s w1) as [w2 [s1| |]]; reflexivity.
  Qed.
  Lemma map_discover_answers (g : S -> S') n : forall d w,
    disc_answers (map_discover D (fun s => ret (g s))) n d w = map (change_map g) (disc_answers D n d w).
  Proof.
    induction n as [|n IH]; intros d w; [reflexivity|]. cbn [disc_answers]. cbn [poll_discover map_discover].
    unfold bind, ret. destruct (poll_discover D d w) as [w1 [[d1 [|[[[k s|k]|e]|]]]| |]]; cbn [map change_map]; try reflexivity;
      f_equal; apply IH.
  Qed.
End MapDiscover.

Section MakeBalance.
  Context {W K Req Resp Err DErr R Tgt MErr : Type} (svc : Service W Req Resp Err).
  Context (D : Discover W K (st svc) DErr) (mk : Service W Tgt (dst D) MErr) (g0 : M W R).
  Lemma make_balance_history s :
    same_history (a := mk) (b := make_balance svc D mk g0) (fun r => r) (fun e => e) (fun _ _ f => f) s s.
  Proof. apply (@run_wrap _ _ _ _ _ _ _ mk (make_balance svc D mk g0) (fun s => s)); wrap_tac. Qed.
  Lemma make_balance_drive f w gs :
    drive (poll_fut (make_balance svc D mk g0)) f w gs =
    fin_then (fun f => f)
      (fun f1 r => match r with
                   | Ok d => g <- g0 ;; ret (f1, Ok (balance_new svc D d g))
                   | Er e => ret (f1, Er e)
                   end)
      (drive (poll_fut mk) f w gs).
  Proof.
    apply drive_map with (wrap := fun f => f). clear. intros f w. cbn. unfold bind, ret.
    destruct (poll_fut mk f w) as [w1 [[f1 [|[d|e]]]| |]]; try reflexivity.
    destruct (g0 w1) as [w2 [g| |]]; reflexivity.
  Qed.
  Lemma make_balance_rest s f w :
    clone (make_balance svc D mk g0) s w = clone mk s w /\ drop_svc (make_balance svc D mk g0) s w = drop_svc mk s w /\
    drop_fut (make_balance svc D mk g0) f w = drop_fut mk f w.
  Proof. repeat split. Qed.
End MakeBalance.
