(** Proofs for C03, C32, C33. *)
From Verif Require Import Base DriveSpec Util.
Set Implicit Arguments.

Lemma drive_map W F G A B (pf : F -> M W (F * poll A)) (pg : G -> M W (G * poll B))
  (wrap : F -> G) (k : F -> A -> M W (G * B)) :
  (forall f w, pg (wrap f) w =
     match pf f w with
     | (w1, Val (f1, Pending)) => (w1, Val (wrap f1, Pending))
     | (w1, Val (f1, Ready a)) =>
         match k f1 a w1 with
         | (w2, Val (g, b)) => (w2, Val (g, Ready b))
         | (w2, Panic) => (w2, Panic)
         | (w2, Diverge) => (w2, Diverge)
         end
     | (w1, Panic) => (w1, Panic)
     | (w1, Diverge) => (w1, Diverge)
     end) ->
  forall gs f w, drive pg (wrap f) w gs = fin_then wrap k (drive pf f w gs).
Proof.
  intros H. induction gs as [|g gs IH]; intros f w; [reflexivity|].
  cbn [drive]. rewrite H. destruct (pf f (g w)) as [w1 [[f1 [|a]]| |]]; try reflexivity.
  - rewrite IH. destruct (drive pf f1 w1 gs) as [l e]. reflexivity.
  - unfold fin_then. cbn. destruct (k f1 a w1) as [w2 [[x b]| |]]; reflexivity.
Qed.

Lemma map_poll_drive W F A B (pf : F -> M W (F * poll A)) (fd : F -> W -> W) (h : A -> M W B) f w gs :
  drive (map_poll pf fd h) (Some f) w gs =
  fin_then Some (fun f1 a => modify (fd f1) ;;; b <- h a ;; ret (None, b)) (drive pf f w gs).
Proof.
  apply drive_map with (wrap := Some). clear. intros f w. unfold map_poll, bind, modify, ret.
  destruct (pf f w) as [w1 [[f1 [|a]]| |]]; try reflexivity.
  destruct (h a (fd f1 w1)) as [w2 [b| |]]; reflexivity.
Qed.

Section Wrap.
  Context {W Req Resp Err Req' Resp' Err' : Type}.
  Context (a : Service W Req Resp Err) (b : Service W Req' Resp' Err').
  Context (emb : st a -> st b) (greq : Req' -> Req) (ge : Err -> Err') (wf : W -> W -> fut a -> fut b).
  Hypothesis H1 : forall s w, poll_ready b (emb s) w =
    match poll_ready a s w with
    | (w1, Val (s1, p)) => (w1, Val (emb s1, poll_map (map_er ge) p))
    | (w1, Panic) => (w1, Panic)
    | (w1, Diverge) => (w1, Diverge)
    end.
  Hypothesis H2 : forall s r w, call b (emb s) r w =
    match call a s (greq r) w with
    | (w1, Val (s1, f)) => (w1, Val (emb s1, wf w w1 f))
    | (w1, Panic) => (w1, Panic)
    | (w1, Diverge) => (w1, Diverge)
    end.

  Lemma run_wrap s : same_history greq ge wf s (emb s).
  Proof.
    intros p w ops. revert p s w. induction ops as [|[g o] ops IH]; intros p s w; [constructor|].
    cbn [map run_svc op_map]. destruct o as [|r]; destruct p; cbn [run_svc];
      try (constructor; [constructor | apply IH]).
    all: try rewrite H1; try rewrite H2.
    all: try (destruct (poll_ready a s (g w)) as [w1 [[s1 q]| |]];
              [constructor; [constructor|] | repeat constructor | repeat constructor];
              replace (phase_after (poll_map (map_er ge) q)) with (phase_after q)
                by (destruct q as [|[|]]; reflexivity); apply IH).
    destruct (call a s (greq r) (g w)) as [w1 [[s1 f]| |]]; repeat constructor. apply IH.
  Qed.
End Wrap.

(** Generic facts about a two-stage future. *)
Lemma drive_chain W F T G A B C (pf : F -> M W (F * poll A)) (pt : T -> M W (T * poll C))
  (pg : G -> M W (G * poll B)) (wrap1 : F -> G) (wrap2 : T -> G)
  (k : F -> A -> M W (T + G * B)) (k2 : T -> C -> M W (G * B)) :
  (forall t w, pg (wrap2 t) w =
     match pt t w with
     | (w1, Val (t1, Pending)) => (w1, Val (wrap2 t1, Pending))
     | (w1, Val (t1, Ready c)) =>
         match k2 t1 c w1 with
         | (w2, Val (g, b)) => (w2, Val (g, Ready b))
         | (w2, Panic) => (w2, Panic)
         | (w2, Diverge) => (w2, Diverge)
         end
     | (w1, Panic) => (w1, Panic)
     | (w1, Diverge) => (w1, Diverge)
     end) ->
  (forall f w, pg (wrap1 f) w =
     match pf f w with
     | (w1, Val (f1, Pending)) => (w1, Val (wrap1 f1, Pending))
     | (w1, Val (f1, Ready a)) =>
         match k f1 a w1 with
         | (w2, Val (inl t)) => pg (wrap2 t) w2
         | (w2, Val (inr (g, b))) => (w2, Val (g, Ready b))
         | (w2, Panic) => (w2, Panic)
         | (w2, Diverge) => (w2, Diverge)
         end
     | (w1, Panic) => (w1, Panic)
     | (w1, Diverge) => (w1, Diverge)
     end) ->
  forall gs f w, drive pg (wrap1 f) w gs = fin_chain wrap1 wrap2 k pt k2 (drive pf f w gs) gs.
Proof.
  intros Ht Hf. induction gs as [|g gs IH]; intros f w; [reflexivity|].
  cbn [drive]. rewrite Hf. destruct (pf f (g w)) as [w1 [[f1 [|a]]| |]]; try reflexivity.
  - rewrite IH. destruct (drive pf f1 w1 gs) as [l e]. cbn.
    destruct e as [f2 w2|f2 w2 a2|w2|w2]; try reflexivity.
    destruct (k f2 a2 w2) as [w3 [[t|[x y]]| |]]; try reflexivity.
  - cbn [fin_chain]. destruct (k f1 a w1) as [w2 [[t|[x y]]| |]]; try reflexivity.
    cbn [length skipn]. rewrite <- (@drive_map _ _ _ _ _ pt pg wrap2 k2 Ht).
    cbn [drive]. destruct (pg (wrap2 t) w2) as [w3 [[g3 [|b]]| |]]; try reflexivity.
    destruct (drive pg g3 w3 gs). reflexivity.
Qed.

Ltac wrap_tac := intros; cbn; unfold bind, modify, ret;
  repeat match goal with
         | |- context [match poll_ready ?s ?x ?w with _ => _ end] => destruct (poll_ready s x w) as [? [[? [|[|]]]| |]]; cbn
         | |- context [match call ?s ?x ?r ?w with _ => _ end] => destruct (call s x r w) as [? [[? ?]| |]]; cbn
         end; try reflexivity.

Section Wrappers.
  Context {W Req Resp Err : Type} (svc : Service W Req Resp Err).

  Lemma map_er_id A E (r : result A E) : map_er (fun e => e) r = r.
  Proof. destruct r; reflexivity. Qed.

  Lemma boxed_history s : same_history (a := svc) (b := boxed svc) (fun r => r) (fun e => e) (fun _ _ f => f) s s.
  Proof. apply (@run_wrap _ _ _ _ _ _ _ svc (boxed svc) (fun s => s)); wrap_tac. Qed.
  Lemma boxed_drive f w gs : drive (poll_fut (boxed svc)) f w gs = drive (poll_fut svc) f w gs.
  Proof. reflexivity. Qed.

  Lemma map_request_history Req' (g : Req' -> Req) s :
    same_history (a := svc) (b := map_request (fun r => ret (g r)) svc) g (fun e => e) (fun _ _ f => f) s s.
  Proof. apply (@run_wrap _ _ _ _ _ _ _ svc (map_request (fun r => ret (g r)) svc) (fun s => s)); wrap_tac. Qed.
  Lemma map_request_drive Req' (g : Req' -> M W Req) f w gs :
    drive (poll_fut (map_request g svc)) f w gs = drive (poll_fut svc) f w gs.
  Proof. reflexivity. Qed.

  Lemma map_response_history Resp' (g : Resp -> M W Resp') s :
    same_history (a := svc) (b := map_response g svc) (fun r => r) (fun e => e) (fun _ _ => Some) s s.
  Proof. apply (@run_wrap _ _ _ _ _ _ _ svc (map_response g svc) (fun s => s)); wrap_tac. Qed.
  Lemma map_response_drive Resp' (g : Resp -> M W Resp') f w gs :
    drive (poll_fut (map_response g svc)) (Some f) w gs =
    fin_then Some
      (fun f1 r => modify (drop_fut svc f1) ;;;
         match r with
         | Ok a => b <- g a ;; ret (None, Ok b)
         | Er e => ret (None, Er e)
         end)
      (drive (poll_fut svc) f w gs).
  Proof.
    etransitivity; [apply map_poll_drive|]. unfold fin_then.
    destruct (drive (poll_fut svc) f w gs) as [l [f1 w1|f1 w1 r|w1|w1]]; try reflexivity. cbn.
    unfold bind, modify, ret. destruct r; cbn; [|reflexivity].
    destruct (g a _) as [w2 [b| |]]; reflexivity.
  Qed.

  Lemma map_err_history Err' (g : Err -> Err') s :
    same_history (a := svc) (b := map_err (fun e => ret (g e)) svc) (fun r => r) g (fun _ _ => Some) s s.
  Proof. apply (@run_wrap _ _ _ _ _ _ _ svc (map_err (fun e => ret (g e)) svc) (fun s => s)); wrap_tac. Qed.
  Lemma map_err_drive Err' (g : Err -> M W Err') f w gs :
    drive (poll_fut (map_err g svc)) (Some f) w gs =
    fin_then Some
      (fun f1 r => modify (drop_fut svc f1) ;;;
         match r with
         | Ok a => ret (None, Ok a)
         | Er e => e1 <- g e ;; ret (None, Er e1)
         end)
      (drive (poll_fut svc) f w gs).
  Proof.
    etransitivity; [apply map_poll_drive|]. unfold fin_then.
    destruct (drive (poll_fut svc) f w gs) as [l [f1 w1|f1 w1 r|w1|w1]]; try reflexivity. cbn.
    unfold bind, modify, ret. destruct r; cbn; [reflexivity|].
    destruct (g e _) as [w2 [b| |]]; reflexivity.
  Qed.

  Lemma map_result_history Resp' Err' (into : Err -> Err') (g : result Resp Err -> M W (result Resp' Err')) s :
    same_history (a := svc) (b := map_result into g svc) (fun r => r) into (fun _ _ => Some) s s.
  Proof. apply (@run_wrap _ _ _ _ _ _ _ svc (map_result into g svc) (fun s => s)); wrap_tac. Qed.
  Lemma map_result_drive Resp' Err' (into : Err -> Err') (g : result Resp Err -> M W (result Resp' Err')) f w gs :
    drive (poll_fut (map_result into g svc)) (Some f) w gs =
    fin_then Some (fun f1 r => modify (drop_fut svc f1) ;;; v <- g r ;; ret (None, v))
      (drive (poll_fut svc) f w gs).
  Proof. apply map_poll_drive. Qed.

  Lemma map_future_history Resp' Err' (into : Err -> Err') (T : Task W (result Resp' Err'))
    (g : fut svc -> tst T) s :
    same_history (a := svc) (b := map_future into svc T (fun f => ret (g f))) (fun r => r) into (fun _ _ => g) s s.
  Proof. apply (@run_wrap _ _ _ _ _ _ _ svc (map_future into svc T (fun f => ret (g f))) (fun s => s)); wrap_tac. Qed.
  Lemma map_future_drive Resp' Err' (into : Err -> Err') (T : Task W (result Resp' Err'))
    (g : fut svc -> M W (tst T)) t w gs :
    drive (poll_fut (map_future into svc T g)) t w gs = drive (tpoll T) t w gs.
  Proof. reflexivity. Qed.

  Lemma then_history Resp' Err' (into : Err -> Err') (T : Task W (result Resp' Err'))
    (g : result Resp Err -> M W (tst T)) s :
    same_history (a := svc) (b := then_ into T g svc) (fun r => r) into (fun _ _ => First) s s.
  Proof. apply (@run_wrap _ _ _ _ _ _ _ svc (then_ into T g svc) (fun s => s)); wrap_tac. Qed.
  Lemma then_drive Resp' Err' (into : Err -> Err') (T : Task W (result Resp' Err'))
    (g : result Resp Err -> M W (tst T)) f w gs :
    drive (poll_fut (then_ into T g svc)) (First f) w gs =
    fin_chain First Second
      (fun f1 r => modify (drop_fut svc f1) ;;; t <- g r ;; ret (inl t))
      (tpoll T)
      (fun t1 v => modify (tdrop T t1) ;;; ret (Empty, v))
      (drive (poll_fut svc) f w gs) gs.
  Proof.
    apply drive_chain with (wrap1 := First) (wrap2 := Second); clear; cbn; unfold bind, modify, ret.
    - intros t w. destruct (tpoll T t w) as [w1 [[t1 [|v]]| |]]; reflexivity.
    - intros f w. destruct (poll_fut svc f w) as [w1 [[f1 [|v]]| |]]; try reflexivity.
      destruct (g v _) as [w2 [b| |]]; reflexivity.
  Qed.

  Lemma and_then_history Resp' Err' (into : Err -> Err') (T : Task W (result Resp' Err'))
    (g : Resp -> M W (tst T)) s :
    same_history (a := svc) (b := and_then into T g svc) (fun r => r) into (fun _ _ => First) s s.
  Proof. apply (@run_wrap _ _ _ _ _ _ _ svc (and_then into T g svc) (fun s => s)); wrap_tac. Qed.
  Lemma and_then_drive Resp' Err' (into : Err -> Err') (T : Task W (result Resp' Err'))
    (g : Resp -> M W (tst T)) f w gs :
    drive (poll_fut (and_then into T g svc)) (First f) w gs =
    fin_chain First Second
      (fun f1 r => modify (drop_fut svc f1) ;;;
         match r with
         | Ok a => t <- g a ;; ret (inl t)
         | Er e => ret (inr (Empty, Er (into e)))
         end)
      (tpoll T)
      (fun t1 v => modify (tdrop T t1) ;;; ret (Empty, v))
      (drive (poll_fut svc) f w gs) gs.
  Proof.
    apply drive_chain with (wrap1 := First) (wrap2 := Second); clear; cbn; unfold bind, modify, ret.
    - intros t w. destruct (tpoll T t w) as [w1 [[t1 [|v]]| |]]; reflexivity.
    - intros f w. destruct (poll_fut svc f w) as [w1 [[f1 [|[v|e]]]| |]]; try reflexivity.
      destruct (g v _) as [w2 [b| |]]; reflexivity.
  Qed.

  Lemma either_history_l (b : Service W Req Resp Err) s :
    same_history (a := svc) (b := either svc b) (fun r => r) (fun e => e) (fun _ _ => inl) s (inl s).
  Proof. apply (@run_wrap _ _ _ _ _ _ _ svc (either svc b) inl); wrap_tac. Qed.
  Lemma either_history_r (a : Service W Req Resp Err) s :
    same_history (a := svc) (b := either a svc) (fun r => r) (fun e => e) (fun _ _ => inr) s (inr s).
  Proof. apply (@run_wrap _ _ _ _ _ _ _ svc (either a svc) inr); wrap_tac. Qed.
  Lemma either_drive_l (b : Service W Req Resp Err) f w gs :
    drive (poll_fut (either svc b)) (inl f) w gs =
    fin_then inl (fun f1 r => ret (inl f1, r)) (drive (poll_fut svc) f w gs).
  Proof.
    apply drive_map with (wrap := inl). clear; cbn; unfold bind, ret. intros f w.
    destruct (poll_fut svc f w) as [w1 [[f1 [|v]]| |]]; reflexivity.
  Qed.
  Lemma either_drive_r (a : Service W Req Resp Err) f w gs :
    drive (poll_fut (either a svc)) (inr f) w gs =
    fin_then inr (fun f1 r => ret (inr f1, r)) (drive (poll_fut svc) f w gs).
  Proof.
    apply drive_map with (wrap := inr). clear; cbn; unfold bind, ret. intros f w.
    destruct (poll_fut svc f w) as [w1 [[f1 [|v]]| |]]; reflexivity.
  Qed.

  Lemma optional_history s :
    same_history (a := svc) (b := optional svc) (fun r => r) inl (fun _ _ => Some) s (Some s).
  Proof. apply (@run_wrap _ _ _ _ _ _ _ svc (optional svc) Some); wrap_tac. Qed.
  Lemma optional_drive f w gs :
    drive (poll_fut (optional svc)) (Some f) w gs =
    fin_then Some (fun f1 r => ret (Some f1, map_er inl r)) (drive (poll_fut svc) f w gs).
  Proof.
    apply drive_map with (wrap := Some). clear; cbn; unfold bind, ret. intros f w.
    destruct (poll_fut svc f w) as [w1 [[f1 [|v]]| |]]; reflexivity.
  Qed.
  (** Without a service: always ready, every call fails at its first poll. *)
  Lemma optional_none p w ops : p <> Dead -> Forall (none_obs (svc := svc)) (run_svc (optional svc) p None w ops).
  Proof.
    revert p w. induction ops as [|[g o] ops IH]; intros p w Hp; [constructor|].
    destruct o, p; try congruence; cbn; constructor; cbn; try (apply IH; discriminate); split; cbn; auto.
  Qed.
  Lemma optional_none_drive w g gs :
    drive (poll_fut (optional svc)) None w (g :: gs) = ([], Finished None (g w) (Er (inr tt))).
  Proof. reflexivity. Qed.

  (** Cloning a wrapper clones the wrapped service, nothing else. *)
  Lemma clones Req' (g : Req' -> M W Req) Resp' (h : Resp -> M W Resp') s :
    clone (boxed svc) s = clone svc s /\
    clone (map_request g svc) s = clone svc s /\
    clone (map_response h svc) s = clone svc s.
  Proof. repeat split. Qed.
End Wrappers.

Section Drivers2.
  Context {W Req Resp Err : Type} (svc : Service W Req Resp Err).

  Lemma oneshot_drive s r w gs :
    drive (oneshot_poll (svc := svc)) (oneshot_new svc s r) w gs =
    fin_chain (fun s1 => OsNotReady svc s1 (Some r)) (OsCalled svc)
      (fun s1 v =>
         match v with
         | Ok _ => '(s2, f) <- call svc s1 r ;; modify (drop_svc svc s2) ;;; ret (inl f)
         | Er e => ret (inr (OsNotReady svc s1 (Some r), Er e))
         end)
      (poll_fut svc)
      (fun f1 v =>
         match v with
         | Ok a => modify (drop_fut svc f1) ;;; ret (OsDone svc, Ok a)
         | Er e => ret (OsCalled svc f1, Er e)
         end)
      (drive (poll_ready svc) s w gs) gs.
  Proof.
    apply drive_chain with (wrap1 := fun s1 => OsNotReady svc s1 (Some r)) (wrap2 := OsCalled svc);
      clear; cbn; unfold oneshot_called, bind, modify, ret.
    - intros f w. destruct (poll_fut svc f w) as [w1 [[f1 [|[v|e]]]| |]]; reflexivity.
    - intros s w. destruct (poll_ready svc s w) as [w1 [[s1 [|[v|e]]]| |]]; try reflexivity.
      destruct (call svc s1 r w1) as [w2 [[s2 f]| |]]; reflexivity.
  Qed.

  Lemma ready_oneshot_drive s w gs :
    drive (ready_oneshot_poll svc) (Some s) w gs =
    fin_then Some
      (fun s1 v => match v with Ok _ => ret (None, Ok s1) | Er e => ret (Some s1, Er e) end)
      (drive (poll_ready svc) s w gs).
  Proof.
    apply drive_map with (wrap := Some). clear; cbn; unfold bind, ret. intros s w.
    destruct (poll_ready svc s w) as [w1 [[s1 [|[v|e]]]| |]]; reflexivity.
  Qed.

  Lemma future_service_drive (T : Task W (result (st svc) Err)) tclone t w gs :
    drive (poll_ready (future_service svc T tclone)) (inl t) w gs =
    fin_chain inl inr
      (fun t1 v =>
         match v with
         | Ok s0 => modify (tdrop T t1) ;;; ret (inl s0)
         | Er e => ret (inr (inl t1, Er e))
         end)
      (poll_ready svc)
      (fun s1 v => ret (inr s1, v))
      (drive (tpoll T) t w gs) gs.
  Proof.
    apply drive_chain with (wrap1 := inl) (wrap2 := inr); clear; cbn; unfold bind, modify, ret.
    - intros s w. destruct (poll_ready svc s w) as [w1 [[s1 [|v]]| |]]; reflexivity.
    - intros t w. destruct (tpoll T t w) as [w1 [[t1 [|[s0|e]]]| |]]; reflexivity.
  Qed.
  Lemma future_service_history (T : Task W (result (st svc) Err)) tclone s :
    same_history (a := svc) (b := future_service svc T tclone) (fun r => r) (fun e => e) (fun _ _ f => f) s (inr s).
  Proof. apply (@run_wrap _ _ _ _ _ _ _ svc (future_service svc T tclone) inr); wrap_tac. Qed.
  Lemma future_service_fut (T : Task W (result (st svc) Err)) tclone f w gs :
    drive (poll_fut (future_service svc T tclone)) f w gs = drive (poll_fut svc) f w gs.
  Proof. reflexivity. Qed.
End Drivers2.

Section ServiceFn.
  Context {W Req Resp Err : Type} (T : Task W (result Resp Err)) (g : Req -> tst T).
  (** Always ready; every call hands out a new future made by the closure. *)
  Lemma service_fn_obs p w ops : p <> Dead ->
    Forall (fn_obs g) (run_svc (service_fn T (fun r => ret (g r))) p tt w ops).
  Proof.
    revert p w. induction ops as [|[e o] ops IH]; intros p w Hp; [constructor|].
    destruct o, p; try congruence; cbn; constructor; cbn; try (apply IH; discriminate); split; cbn; auto.
  Qed.
End ServiceFn.
