(** Proofs for C86. *)
From Verif Require Import Base Util ReadyCache SpawnReady Load Make CallAll Middleware Limits Hedge MeterSpec MeterProof KeepSpec KeepProof KeepTop PermitSpec GatherSpec.
Set Implicit Arguments.
Local Open Scope Z_scope.

Lemma osum_map A B (f : A -> B) (o : B -> Z) l : osum o (map f l) = osum (fun x => o (f x)) l.
Proof. induction l as [|x l IH]; cbn; [reflexivity | rewrite IH; reflexivity]. Qed.
Lemma osum_rev A (o : A -> Z) l : osum o (rev l) = osum o l.
Proof. induction l as [|x l IH]; cbn; [reflexivity |]. rewrite osum_app, IH. cbn. lia. Qed.
Lemma osum_remove A (o : A -> Z) l : forall i x, nth_error l i = Some x -> osum o (remove_nth i l) = osum o l - o x.
Proof.
  induction l as [|y l IH]; intros [|i] x E; cbn in *; try discriminate; [injection E as ->; lia|]. rewrite (IH _ _ E). lia.
Qed.

Section Gather.
  Context {W Req Resp Err : Type} {svc : Service W Req Resp Err} {T : Stream W Req} {sched : nat -> W -> W * list nat}.
  Context {live : W -> Z} {osv : st svc -> Z} {own : fut svc -> Z}.
  Hypothesis H : holds live svc osv own none.
  Hypothesis HT : forall t w, live (fst (snext T t w)) = live w.
  Hypothesis HS : forall n w, live (fst (sched n w)) = live w.
  Notation qo := (in_order svc sched).
  Notation qa := (any_order svc sched).
  Definition of {X} (l : list (X * fut svc)) : Z := osum (fun x => own (snd x)) l.
  Lemma of0 X (l : list (X * fut svc)) : 0 <= of l.
  Proof. apply osum_nonneg. intros x. apply (ho_fut0 H). Qed.

  Lemma fus_poll_k X order : forall l : list (X * fut svc), bal live (of l) (fus_poll (poll_fut svc) (drop_fut svc) order l) (fun r => of (fst r)).
  Proof.
    induction order as [|i order IH]; intros l; cbn [fus_poll]; [apply bal_ret; reflexivity|].
    destruct (nth_error l i) as [[k f]|] eqn:E; [|apply IH].
    assert (L := osum_nth (fun x : X * fut svc => own (snd x)) l (fun x => ho_fut0 H (snd x)) _ E). cbn [snd] in L. fold (of l) in L.
    eapply bal_bind; [apply (ho_poll H) | exact L |]. intros [f1 a]. cbn [fst snd]. assert (Z0 : in_resp none a = 0) by (destruct a as [|[]]; reflexivity). rewrite Z0.
    destruct a as [|o].
    - eapply bal_eq; [apply IH|]. unfold of. rewrite (@osum_set _ (fun x : X * fut svc => own (snd x)) l i (k, f) (k, f1) E). cbn [snd]. fold (of l). lia.
    - assert (F1 := ho_fut0 H f1). eapply bal_modify; [apply (ho_drop_fut H) | lia |]. apply bal_ret. cbn [fst]. unfold of.
      rewrite (@osum_remove _ (fun x : X * fut svc => own (snd x)) l i (k, f) E). cbn [snd]. fold (of l). lia.
  Qed.
  Lemma fus_next_k X (l : list (X * fut svc)) : bal live (of l) (fus_next (poll_fut svc) (drop_fut svc) sched l) (fun r => of (fst r)).
  Proof.
    unfold fus_next. destruct l as [|x l]; [apply bal_ret; reflexivity|]. set (l0 := x :: l). clearbody l0. apply bal_still.
    - intros w. assert (E := HS (length l0) w). destruct (sched (length l0) w) as [w1 o]. cbn [fst snd] in *. auto.
    - intros order. eapply bal_bind; [apply fus_poll_k | lia |]. intros [l1 o]. cbn [fst]. apply bal_ret. cbn [fst]. lia.
  Qed.
  Lemma ord_loop_k fuel : forall q : ordq (F := fut svc) (O := result Resp Err),
    bal live (of (oq_prog q)) (ord_loop (poll_fut svc) (drop_fut svc) sched fuel q) (fun r => of (oq_prog (fst r))).
  Proof.
    induction fuel as [|n IH]; intros q; cbn [ord_loop]; [apply bal_diverge|].
    eapply bal_bind; [apply fus_next_k | lia |]. intros [l a]. cbn [fst]. destruct a as [|[[i o]|]].
    - apply bal_ret. cbn [fst oq_prog]. lia.
    - destruct (i =? oq_out q)%nat; [apply bal_ret; cbn [fst oq_prog]; lia|]. eapply bal_eq; [apply IH|]. cbn [oq_prog]. lia.
    - apply bal_ret. cbn [fst oq_prog]. lia.
  Qed.
  Lemma ord_next_k (q : ordq (F := fut svc) (O := result Resp Err)) :
    bal live (of (oq_prog q)) (ord_next (poll_fut svc) (drop_fut svc) sched q) (fun r => of (oq_prog (fst r))).
  Proof.
    unfold ord_next. destruct (oq_done q) as [|[i o] h]; [apply ord_loop_k|]. destruct (i =? oq_out q)%nat; [apply bal_ret; reflexivity | apply ord_loop_k].
  Qed.

  (** What is needed of a collection. *)
  Record drive_k (Q : Drive W (fut svc) (result Resp Err)) (oq : qst Q -> Z) : Prop := {
    dk_new : oq (q_new Q) = 0;
    dk_push : forall q f, oq (q_push Q q f) = oq q + own f;
    dk_poll : forall q, bal live (oq q) (q_poll Q q) (fun r => oq (fst r));
    dk_empty : forall q, q_empty Q q = true -> oq q = 0;
    dk_0 : forall q, 0 <= oq q }.
  Definition oqo (q : qst qo) : Z := of (oq_prog q).
  Definition oqa (q : qst qa) : Z := of q.
  Lemma ordered_k : drive_k qo oqo.
  Proof.
    split; unfold oqo.
    - reflexivity.
    - intros q f. cbn. unfold of. rewrite osum_app. cbn. lia.
    - intros q. apply ord_next_k.
    - intros q E. cbn in E. destruct (oq_prog q); [reflexivity | discriminate].
    - intros q. apply of0.
  Qed.
  Lemma unordered_k : drive_k qa oqa.
  Proof.
    split; unfold oqa.
    - reflexivity.
    - intros q f. cbn. unfold of. rewrite osum_app. cbn. lia.
    - intros q. cbn [q_poll any_order unordered_drive]. eapply bal_bind; [apply fus_next_k | apply Z.le_refl |]. intros [l a]. cbn [fst]. apply bal_ret. cbn [fst]. lia.
    - intros q E. cbn in E. destruct q; [reflexivity | discriminate].
    - intros q. apply of0.
  Qed.

  Section One.
    Context {Q : Drive W (fut svc) (result Resp Err)} {oq : qst Q -> Z}.
    Hypothesis K : drive_k Q oq.
    Definition oca (c : call_all svc T Q) : Z := oopt osv (ca_svc c) + oq (ca_queue c).
    Lemma oca0 c : 0 <= oca c.
    Proof. unfold oca. assert (X := dk_0 K (ca_queue c)). assert (Y := oopt_nonneg osv (ca_svc c) (ho_svc0 H)). lia. Qed.

    Lemma ca_next_k fuel : forall c : call_all svc T Q, bal live (oca c) (ca_next fuel c) (fun r => oca (fst r)).
    Proof.
      induction fuel as [|n IH]; intros c; cbn [ca_next]; [apply bal_diverge|].
      assert (X := oopt_nonneg osv (ca_svc c) (ho_svc0 H)).
      eapply bal_bind; [apply (dk_poll K) | unfold oca; lia |]. intros [q a]. cbn [fst]. assert (Q0 := dk_0 K q).
      assert (B : oq q + (oca c - oq (ca_queue c)) = oopt osv (ca_svc c) + oq q) by (unfold oca; lia). rewrite B. clear B.
      assert (D : forall t r, bal live (oopt osv (ca_svc c) + oq q)
        match ca_svc c with
        | None => panic
        | Some s =>
            '(s1, b) <- poll_ready svc s ;;
            match b with
            | Pending => ret (CA (svc := svc) (S := T) (Q := Q) (Some s1) t q false (Some r), Pending)
            | Ready (Er e) => ret (CA (Some s1) t q true (Some r), Ready (Some (Er e)))
            | Ready (Ok _) => '(s2, f) <- call svc s1 r ;; ca_next n (CA (Some s2) t (q_push Q q f) false None)
            end
        end (fun r => oca (fst r))).
      { intros t r. destruct (ca_svc c) as [s|]; [|apply bal_panic]. cbn [oopt] in *. eapply bal_bind; [apply (ho_ready H) | lia |].
        intros [s1 b]. cbn [fst]. assert (S1 := ho_svc0 H s1). destruct b as [|[u|e]]; try (apply bal_ret; unfold oca; cbn; lia).
        eapply bal_bind; [apply (ho_call H) | lia |]. intros [s2 f]. cbn [fst snd]. eapply bal_eq; [apply IH|]. unfold oca. cbn [oopt ca_svc ca_queue].
        rewrite (dk_push K). lia. }
      assert (E : bal live (oopt osv (ca_svc c) + oq q)
        (if ca_eof c then ret (CA (svc := svc) (S := T) (Q := Q) (ca_svc c) (ca_stream c) q true (ca_req c), if q_empty Q q then Ready None else Pending)
         else match ca_req c with
              | Some r => match ca_svc c with
                          | None => panic
                          | Some s =>
                              '(s1, b) <- poll_ready svc s ;;
                              match b with
                              | Pending => ret (CA (Some s1) (ca_stream c) q false (Some r), Pending)
                              | Ready (Er e) => ret (CA (Some s1) (ca_stream c) q true (Some r), Ready (Some (Er e)))
                              | Ready (Ok _) => '(s2, f) <- call svc s1 r ;; ca_next n (CA (Some s2) (ca_stream c) (q_push Q q f) false None)
                              end
                          end
              | None =>
                  '(t1, b) <- snext T (ca_stream c) ;;
                  match b with
                  | Pending => ret (CA (ca_svc c) t1 q false None, Pending)
                  | Ready None => ca_next n (CA (ca_svc c) t1 q true None)
                  | Ready (Some r) => match ca_svc c with
                          | None => panic
                          | Some s =>
                              '(s1, b) <- poll_ready svc s ;;
                              match b with
                              | Pending => ret (CA (Some s1) t1 q false (Some r), Pending)
                              | Ready (Er e) => ret (CA (Some s1) t1 q true (Some r), Ready (Some (Er e)))
                              | Ready (Ok _) => '(s2, f) <- call svc s1 r ;; ca_next n (CA (Some s2) t1 (q_push Q q f) false None)
                              end
                          end
                  end
              end) (fun r => oca (fst r))).
      { destruct (ca_eof c); [apply bal_ret; reflexivity|]. destruct (ca_req c) as [r|]; [apply D|].
        apply bal_still. { intros w. split; [apply HT | auto]. }
        intros [t1 b]. destruct b as [|[r|]]; [apply bal_ret; reflexivity | apply D |]. eapply bal_eq; [apply IH | reflexivity]. }
      destruct a as [|[r|]]; [exact E | apply bal_ret; reflexivity | exact E].
    Qed.

    Lemma ca_end fuel : forall (c : call_all svc T Q) w w1 c1, ca_next fuel c w = (w1, Val (c1, Ready None)) -> oq (ca_queue c1) = 0.
    Proof.
      induction fuel as [|n IH]; intros c w w1 c1 E; cbn [ca_next] in E; [discriminate|]. unfold bind in E.
      destruct (q_poll Q (ca_queue c) w) as [w2 [[q a]| |]]; try discriminate.
      assert (D : forall t r w3, match ca_svc c with
        | None => panic
        | Some s =>
            '(s1, b) <- poll_ready svc s ;;
            match b with
            | Pending => ret (CA (svc := svc) (S := T) (Q := Q) (Some s1) t q false (Some r), Pending)
            | Ready (Er e) => ret (CA (Some s1) t q true (Some r), Ready (Some (Er e)))
            | Ready (Ok _) => '(s2, f) <- call svc s1 r ;; ca_next n (CA (Some s2) t (q_push Q q f) false None)
            end
        end w3 = (w1, Val (c1, Ready None)) -> oq (ca_queue c1) = 0).
      { intros t r w3 X. destruct (ca_svc c) as [s|]; [|discriminate X]. unfold bind in X. destruct (poll_ready svc s w3) as [w4 [[s1 b]| |]]; try discriminate X.
        destruct b as [|[u|e]]; try discriminate X. destruct (call svc s1 r w4) as [w5 [[s2 f]| |]]; try discriminate X. exact (IH _ _ _ _ X). }
      assert (F : (if ca_eof c then ret (CA (svc := svc) (S := T) (Q := Q) (ca_svc c) (ca_stream c) q true (ca_req c), if q_empty Q q then Ready None else Pending) w2
         else match ca_req c with
              | Some r => match ca_svc c with
                          | None => panic
                          | Some s =>
                              '(s1, b) <- poll_ready svc s ;;
                              match b with
                              | Pending => ret (CA (Some s1) (ca_stream c) q false (Some r), Pending)
                              | Ready (Er e) => ret (CA (Some s1) (ca_stream c) q true (Some r), Ready (Some (Er e)))
                              | Ready (Ok _) => '(s2, f) <- call svc s1 r ;; ca_next n (CA (Some s2) (ca_stream c) (q_push Q q f) false None)
                              end
                          end w2
              | None =>
                  ('(t1, b) <- snext T (ca_stream c) ;;
                  match b with
                  | Pending => ret (CA (ca_svc c) t1 q false None, Pending)
                  | Ready None => ca_next n (CA (ca_svc c) t1 q true None)
                  | Ready (Some r) => match ca_svc c with
                          | None => panic
                          | Some s =>
                              '(s1, b) <- poll_ready svc s ;;
                              match b with
                              | Pending => ret (CA (Some s1) t1 q false (Some r), Pending)
                              | Ready (Er e) => ret (CA (Some s1) t1 q true (Some r), Ready (Some (Er e)))
                              | Ready (Ok _) => '(s2, f) <- call svc s1 r ;; ca_next n (CA (Some s2) t1 (q_push Q q f) false None)
                              end
                          end
                  end) w2
              end) = (w1, Val (c1, Ready None)) -> oq (ca_queue c1) = 0).
      { destruct (ca_eof c).
        - intros X. unfold ret in X. destruct (q_empty Q q) eqn:Eq; [|discriminate X]. injection X as <- <-. cbn. apply (dk_empty K), Eq.
        - destruct (ca_req c) as [r|]; [apply D|]. unfold bind at 1. destruct (snext T (ca_stream c) w2) as [w3 [[t1 b]| |]]; try discriminate.
          destruct b as [|[r|]]; [discriminate | apply D | apply IH]. }
      destruct a as [|[r|]]; [| discriminate E |]; apply F; destruct (ca_eof c); try exact E; destruct (ca_req c); exact E.
    Qed.

    Lemma ca_drop_k qdrop (c : call_all svc T Q) : (forall q, gone live (oq q) (qdrop q)) -> gone live (oca c) (ca_drop qdrop c).
    Proof.
      intros G. unfold ca_drop, oca. apply (gone_two (f := fun w => match ca_svc c with Some s => drop_svc svc s w | None => w end)).
      - destruct (ca_svc c); [apply (ho_drop_svc H) | apply gone_id].
      - apply G.
      - apply oopt_nonneg, (ho_svc0 H).
      - apply (dk_0 K).
    Qed.
    Lemma ca_take_k (c : call_all svc T Q) : bal live (oca c) (ca_take c) (fun r => oca (fst r) + osv (snd r)).
    Proof. unfold ca_take. destruct (ca_svc c) as [s|] eqn:E; [|apply bal_panic]. apply bal_ret. unfold oca. rewrite E. cbn. lia. Qed.
  End One.

  Lemma fus_drop_k X (l : list (X * fut svc)) : gone live (of l) (fus_drop (drop_fut svc) l).
  Proof.
    unfold fus_drop. eapply gone_eq; [apply (@gone_all W live (X * fut svc) (fun x => own (snd x)) (fun x => drop_fut svc (snd x)))|].
    - intros x. apply (ho_drop_fut H).
    - intros x. apply (ho_fut0 H).
    - apply osum_rev.
  Qed.

  Notation gather := (gather svc T sched).
  Notation gsys := (gsys svc T sched).
  Definition og (c : gather) : Z := oopt osv (with_instance c) + osum own (with_futures c).
  Lemma og_ord c : og (Ordered c) = oca (oq := oqo) c.
  Proof. unfold og, oca, oqo, of. cbn [with_instance with_futures]. rewrite osum_map. reflexivity. Qed.
  Lemma og_uno c : og (Unordered c) = oca (oq := oqa) c.
  Proof. unfold og, oca, oqa, of. cbn [with_instance with_futures]. rewrite osum_map. reflexivity. Qed.
  Lemma og0 c : 0 <= og c.
  Proof. destruct c as [c|c]; [rewrite og_ord; apply (oca0 ordered_k) | rewrite og_uno; apply (oca0 unordered_k)]. Qed.
  Lemma gather_poll_k fuel (c : gather) : bal live (og c) (gather_poll fuel c) (fun r => og (fst r)).
  Proof.
    destruct c as [c|c]; cbn [gather_poll]; (eapply bal_bind; [|apply Z.le_refl|]).
    - rewrite og_ord. apply (ca_next_k ordered_k).
    - intros [c1 a]. cbn [fst]. apply bal_ret. cbn [fst]. rewrite og_ord. lia.
    - rewrite og_uno. apply (ca_next_k unordered_k).
    - intros [c1 a]. cbn [fst]. apply bal_ret. cbn [fst]. rewrite og_uno. lia.
  Qed.
  Lemma gather_take_k (c : gather) : bal live (og c) (gather_take c) (fun r => og (fst r) + osv (snd r)).
  Proof.
    destruct c as [c|c]; cbn [gather_take]; (eapply bal_bind; [|apply Z.le_refl|]).
    - rewrite og_ord. apply (ca_take_k (oq := oqo)).
    - intros [c1 a]. cbn [fst]. apply bal_ret. cbn [fst snd]. rewrite og_ord. lia.
    - rewrite og_uno. apply (ca_take_k (oq := oqa)).
    - intros [c1 a]. cbn [fst]. apply bal_ret. cbn [fst snd]. rewrite og_uno. lia.
  Qed.
  Lemma gather_drop_k (c : gather) : gone live (og c) (gather_drop c).
  Proof.
    destruct c as [c|c]; cbn [gather_drop].
    - rewrite og_ord. apply (ca_drop_k ordered_k). intros q. apply fus_drop_k.
    - rewrite og_uno. apply (ca_drop_k unordered_k). intros q. apply fus_drop_k.
  Qed.
  Lemma gather_end fuel (c : gather) w w1 c1 : gather_poll fuel c w = (w1, Val (c1, Ready None)) -> osum own (with_futures c1) = 0.
  Proof.
    destruct c as [c|c]; cbn [gather_poll]; unfold bind; intros E; destruct (ca_next fuel c w) as [w2 [[c2 a]| |]] eqn:Ec; try discriminate E;
      injection E as <- <- ->; cbn [with_futures]; rewrite osum_map.
    - exact (ca_end ordered_k _ _ _ Ec).
    - exact (ca_end unordered_k _ _ _ Ec).
  Qed.

  (** The program. *)
  Notation gathered := (gathered osv own).
  Definition gok (c0 : Z) (x : gsys) : Prop :=
    g_bad x = false -> live (g_w x) = c0 + gathered x /\
    match g_said x with Some (Ready None) => oopt (fun c => osum own (with_futures c)) (g_ca x) = 0 | _ => True end.
  Lemma gout0 (x : gsys) : 0 <= osum osv (g_out x). Proof. apply osum_nonneg, (ho_svc0 H). Qed.

  Lemma gset_ok A c0 (x : gsys) (m : M W A) (k : W -> A -> gsys) (b : Z) (o : A -> Z) : gok c0 x -> (forall w a, g_bad (k w a) = g_bad x) ->
    bal live b m o -> b <= live (g_w x) ->
    (forall w1 a, m (g_w x) = (w1, Val a) -> live (g_w x) = c0 + gathered x -> live w1 - live (g_w x) = o a - b -> gok c0 (k w1 a)) -> gok c0 (gset x (m (g_w x)) k).
  Proof.
    intros HO Hb Hm L Hk. unfold gset. destruct (m (g_w x)) as [w1 [a| |]] eqn:E; try (intros X; discriminate X).
    destruct (g_bad x) eqn:Eb; [intros X; rewrite Hb in X; discriminate X|]. destruct (HO Eb) as [HO1 _]. apply Hk; auto.
  Qed.

  Lemma gstep_ok c0 fuel (x : gsys) o : 0 <= c0 -> (forall g, o = GEnv g -> forall w, live (g w) = live w) -> gok c0 x -> gok c0 (gstep fuel x o).
  Proof.
    intros Hc He HO. assert (O0 := gout0 x).
    destruct (g_bad x) eqn:Eb.
    { intros X. exfalso. unfold gstep, gset in X. destruct o; destruct (g_ca x) as [[c|c]|]; cbn in X;
        repeat match type of X with context [match ?t with _ => _ end] => destruct t; cbn in X end; congruence. }
    assert (HO1 := proj1 (HO Eb)). assert (CA0 := oopt_nonneg og (g_ca x) og0).
    unfold GatherSpec.gathered in HO1. fold og in HO1.
    assert (AT : forall c, g_ca x = Some c -> og c <= live (g_w x)).
    { intros c E. rewrite E in HO1, CA0. cbn [oopt] in *. change (live (g_w x) = c0 + (og c + osum osv (g_out x))) in HO1. lia. }
    destruct o; cbn [gstep].
    - destruct (g_ca x) as [c|] eqn:Ec; [|exact HO]. apply gset_ok with (b := og c) (o := fun r => og (fst r)); auto; [apply gather_poll_k|].
      intros w1 [c1 a] E L B. cbn [fst snd] in *. intros _. split.
      + cbn [g_w]. unfold GatherSpec.gathered. cbn [g_ca g_out oopt]. cbn [oopt] in HO1. fold (og c1). fold (og c) in HO1. lia.
      + cbn [g_said g_ca oopt]. destruct a as [|[r|]]; auto. exact (gather_end _ _ _ E).
    - destruct (g_ca x) as [c|] eqn:Ec; [|exact HO]. apply gset_ok with (b := og c) (o := fun r => og (fst r) + osv (snd r)); auto; [apply gather_take_k|].
      intros w1 [c1 s] E L B. cbn [fst snd] in *. intros _. split; [|exact I].
      cbn [g_w]. unfold GatherSpec.gathered. cbn [g_ca g_out oopt]. rewrite osum_app. cbn [osum]. cbn [oopt] in HO1. fold (og c1). fold (og c) in HO1. lia.
    - destruct (g_ca x) as [c|] eqn:Ec; [|exact HO]. apply gset_ok with (b := og c) (o := fun r => og (fst r) + osv (snd r)); auto; [apply gather_take_k|].
      intros w1 [c1 s] E L B. cbn [fst snd] in *. intros _. split; [|exact I]. assert (C1 := og0 c1). assert (S1 := ho_svc0 H s).
      cbn [g_w]. unfold GatherSpec.gathered. cbn [g_ca g_out oopt]. rewrite osum_app. cbn [osum]. cbn [oopt] in HO1. fold (og c) in HO1.
      rewrite (gather_drop_k c1 (w := w1)) by lia. lia.
    - destruct (g_ca x) as [[c|c]|] eqn:Ec; [| exact HO | exact HO].
      apply gset_ok with (b := oca (oq := oqo) c) (o := fun c1 => oca (oq := oqa) c1); auto.
      + unfold ca_unordered. destruct (q_empty qo (ca_queue c)) eqn:Eq; [|apply bal_panic]. destruct (ca_eof c); [apply bal_panic|].
        destruct (ca_svc c) as [s|] eqn:Es; [|apply bal_panic]. apply bal_ret. unfold oca. rewrite Es. cbn [ca_new ca_svc ca_queue oopt].
        rewrite (dk_empty ordered_k _ Eq), (dk_new unordered_k). lia.
      + rewrite <- og_ord. apply AT. reflexivity.
      + intros w1 c1 E L B. intros _. split; [|exact I]. cbn [g_w]. unfold GatherSpec.gathered. cbn [g_ca g_out oopt]. cbn [oopt] in HO1. fold (og (Ordered c)) in HO1. fold (og (Unordered c1)).
        rewrite og_ord in HO1. rewrite og_uno. lia.
    - destruct (g_ca x) as [c|] eqn:Ec; [|exact HO]. intros _. split; [|exact I]. cbn [g_w]. unfold GatherSpec.gathered. cbn [g_ca g_out oopt].
      cbn [oopt] in HO1. fold (og c) in HO1. rewrite (gather_drop_k c (w := g_w x)) by (apply AT; reflexivity). lia.
    - assert (Y : gok c0 match g_out x with s :: l => Gs (drop_svc svc s (g_w x)) (g_ca x) l (g_bad x) None | [] => x end).
      { destruct (g_out x) as [|s l] eqn:El; [exact HO|]. intros _. split; [|exact I]. cbn [g_w]. unfold GatherSpec.gathered. cbn [g_ca g_out osum] in *.
        assert (S0 := ho_svc0 H s). assert (L0 := osum_nonneg osv l (ho_svc0 H)). change (live (g_w x) = c0 + (oopt og (g_ca x) + (osv s + osum osv l))) in HO1.
        change (live (drop_svc svc s (g_w x)) = c0 + (oopt og (g_ca x) + osum osv l)).
        rewrite (ho_drop_svc H s (g_w x)) by lia. lia. }
      destruct (g_ca x) as [[]|]; exact Y.
    - assert (Y : gok c0 (Gs (g (g_w x)) (g_ca x) (g_out x) (g_bad x) (g_said x))).
      { intros X. cbn [g_w g_said g_ca]. destruct (HO Eb) as [A B]. split; [|exact B]. rewrite (He g eq_refl). exact A. }
      destruct (g_ca x) as [[]|]; exact Y.
  Qed.

  Lemma grun_ok fuel s t w ops : osv s <= live w -> (forall g, In (GEnv g) ops -> forall w, live (g w) = live w) ->
    gok (live w - osv s) (grun svc T sched fuel s t w ops).
  Proof.
    intros L He. unfold grun. assert (G : forall x : gsys, gok (live w - osv s) x -> gok (live w - osv s) (fold_left (gstep fuel) ops x)).
    { induction ops as [|o ops IH]; intros x HO; [exact HO|]. cbn [fold_left]. apply IH.
      - intros g Hg. apply He. right. exact Hg.
      - apply gstep_ok; auto; [lia|]. intros g ->. apply He. left. reflexivity. }
    apply G. intros _. split; [|exact I]. change (live w = live w - osv s + (osv s + 0 + 0)). lia.
  Qed.
End Gather.

Section Top.
  Context {W Req Resp Err : Type} {svc : Service W Req Resp Err} {T : Stream W Req} {sched : nat -> W -> W * list nat}.
  Context {live : W -> Z} {osv : st svc -> Z} {own : fut svc -> Z}.
  Hypothesis K : kept live svc osv own none.

  Theorem gather_accounted fuel s t w ops x : osv s <= live w -> others_leave T sched live ops ->
    grun svc T sched fuel s t w ops = x -> g_bad x = false -> live (g_w x) = live w - osv s + gathered osv own x.
  Proof. intros L (A & B & C) <- Eb. exact (proj1 (grun_ok (kept_holds K) A B fuel s t w ops L C Eb)). Qed.
  Theorem gather_ended fuel s t w ops x : osv s <= live w -> others_leave T sched live ops ->
    grun svc T sched fuel s t w ops = x -> g_bad x = false -> g_said x = Some (Ready None) ->
    live (g_w x) = live w - osv s + oopt (fun c => oopt osv (with_instance c)) (g_ca x) + osum osv (g_out x).
  Proof.
    intros L (A & B & C) <- Eb Es. destruct (grun_ok (kept_holds K) A B fuel s t w ops L C Eb) as [X Y]. rewrite Es in Y. rewrite X. unfold gathered.
    destruct (g_ca _); cbn [oopt] in *; lia.
  Qed.
  Theorem gather_nothing_left fuel s t w ops x : osv s <= live w -> others_leave T sched live ops ->
    grun svc T sched fuel s t w ops = x -> g_bad x = false -> g_ca x = None -> g_out x = [] -> live (g_w x) = live w - osv s.
  Proof. intros L O E Eb E1 E2. rewrite (gather_accounted fuel t L O E Eb). unfold gathered. rewrite E1, E2. cbn. lia. Qed.
End Top.

Section Limit.
  Context {W Req Resp Err : Type} {svc : Service (sem * W) Req Resp Err} {T : Stream (sem * W) Req} {sched : nat -> sem * W -> (sem * W) * list nat}.
  Theorem gather_permits max osv own osvt ownt : kept (in_use max) svc osv own none -> (forall t, kept (enrolled t) svc (osvt t) (ownt t) none) ->
    forall fuel s t w (ops : list (gop (W := sem * W))) x, osv s = 0 -> (forall i, osvt i s = 0) -> 
    (forall t x, fst (fst (snext T t x)) = fst x) -> (forall n x, fst (fst (sched n x)) = fst x) -> (forall g, In (GEnv g) ops -> forall x, fst (g x) = fst x) ->
    grun svc T sched fuel s t (sem_new max, w) ops = x -> g_bad x = false ->
    (in_use max (g_w x) = gathered osv own x /\ in_use max (g_w x) <= Z.of_nat max) /\
    (g_ca x = None -> g_out x = [] -> sem_avail (fst (g_w x)) = max /\ sem_queue (fst (g_w x)) = [] /\ sem_granted (fst (g_w x)) = []).
  Proof.
    intros K1 K2 fuel s t w ops x Z1 Z2 HT HS He E Eb.
    assert (U0 : in_use max (sem_new max, w) = 0) by (unfold in_use; cbn; lia). assert (T0 : forall t, enrolled t (sem_new max, w) = 0) by reflexivity.
    assert (E1 : others_leave T sched (in_use max) ops).
    { split; [|split]; intros; unfold in_use; rewrite ?HT, ?HS, ?(He _ H); reflexivity. }
    assert (E2 : forall i, others_leave T sched (enrolled i) ops).
    { intros i. split; [|split]; intros; unfold enrolled; rewrite ?HT, ?HS, ?(He _ H); reflexivity. }
    split.
    - assert (X := gather_accounted K1 fuel s t (sem_new max, w) ltac:(lia) E1 E Eb). split; [lia|]. unfold in_use. lia.
    - intros N1 N2. assert (X := gather_nothing_left K1 fuel s t (sem_new max, w) ltac:(lia) E1 E Eb N1 N2). rewrite U0, Z1 in X.
      assert (Y : forall i, enrolled i (g_w x) = 0).
      { intros i. rewrite (gather_nothing_left (K2 i) fuel s t (sem_new max, w) ltac:(rewrite (Z2 i), (T0 i); lia) (E2 i) E Eb N1 N2), (T0 i), (Z2 i). reflexivity. }
      assert (Q : sem_queue (fst (g_w x)) ++ sem_granted (fst (g_w x)) = []).
      { destruct (sem_queue (fst (g_w x)) ++ sem_granted (fst (g_w x))) as [|i q] eqn:Eq; [reflexivity|]. assert (V := Y i). unfold enrolled in V. rewrite Eq in V.
        cbn in V. destruct (Nat.eq_dec i i); [lia|congruence]. }
      apply app_eq_nil in Q as [Q1 Q2]. unfold in_use in X. rewrite Q2 in X. cbn [length] in X. split; [lia|auto].
  Qed.
End Limit.
