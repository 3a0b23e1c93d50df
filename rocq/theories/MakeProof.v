(** Shared: the proofs. *)
From Verif Require Import Base Middleware Util DriveSpec TranspProof Track LoadProof Make MakeSpec.
Set Implicit Arguments.

Section P.
  Context {W Tgt Req Resp Err : Type} (svc : Service W Req Resp Err).
  Notation ev := (tev Req Resp Err).
  Notation TW := (W * tk ev)%type.
  Notation shsys := (shsys (Tgt := Tgt) svc).
  Notation shentry := (@shentry Tgt Req Resp Err).
  Notation shop := (shop (Tgt := Tgt)).

  Record inv (h : list shentry) (y : shsys) : Prop := MkInv {
    v_mks : length (sh_mks y) = length (makers h);
    v_mk : forall i s, nth_error (sh_mks y) i = Some (Some s) -> nth_error (makers h) i = Some (fst s);
    v_futs : length (sh_futs y) = length (made h);
    v_fut : forall j f, nth_error (sh_futs y) j = Some (Some f) ->
      match f with Some s => nth_error (made h) j = Some (fst s) /\ taken h j = false | None => taken h j = true end;
    v_new : forall j, length (sh_futs y) <= j -> taken h j = false;
    v_known : forall k, In k (known h) -> k < tk_next (snd (sh_w y)) }.
  Lemma inv0 (s : st svc) (w : W) : inv [] (ShSys (Tgt := Tgt) (svc := svc) [Some (0, s)] [] (w, Tk 1 [])).
  Proof.
    constructor; cbn; auto.
    - intros [|[|i]] s'; cbn; intros X; try discriminate. injection X as <-. reflexivity.
    - intros [|j] f X; discriminate.
    - intros k [<-|[]]. lia.
  Qed.
  Definition delta (w w1 : TW) : list ev := rev (firstn (length (log_of w1) - length (log_of w)) (log_of w1)).
  Lemma delta_app w w1 d : log_of w1 = d ++ log_of w -> delta w w1 = rev d.
  Proof. intros H. unfold delta. rewrite H, app_length. replace (_ + _ - _) with (length d + 0) by lia. rewrite firstn_app_2. cbn. now rewrite app_nil_r. Qed.
  Lemma makers_snoc (h : list shentry) (e : shentry) : makers (h ++ [e]) = makers h ++ match fst e with (ShClone _, BoCloned k) => [k] | _ => [] end.
  Proof. unfold makers. rewrite flat_map_app. cbn. now rewrite app_nil_r. Qed.
  Lemma made_snoc (h : list shentry) (e : shentry) : made (h ++ [e]) = made h ++ match e with (ShCall _ _, BoCalled, TClone _ k :: _) => [k] | _ => [] end.
  Proof. unfold made. rewrite flat_map_app. cbn. rewrite app_nil_r. destruct e as [[[] []] [|[]]]; reflexivity. Qed.
  Lemma taken_snoc (h : list shentry) (e : shentry) j : taken (h ++ [e]) j = taken h j || match fst e with (ShPoll j', BoMade _) => j' =? j | _ => false end.
  Proof. unfold taken. rewrite existsb_app. cbn. now rewrite orb_false_r. Qed.

  Lemma inv_plain (h : list shentry) (y y1 : shsys) (e : shentry) : inv h y ->
    (match fst e with (ShClone _, BoCloned _) | (ShCall _ _, BoCalled) | (ShPoll _, BoMade _) => False | _ => True end) ->
    length (sh_mks y1) = length (sh_mks y) -> (forall i s, nth_error (sh_mks y1) i = Some (Some s) -> nth_error (sh_mks y) i = Some (Some s)) ->
    length (sh_futs y1) = length (sh_futs y) -> (forall j f, nth_error (sh_futs y1) j = Some (Some f) -> nth_error (sh_futs y) j = Some (Some f)) ->
    tk_next (snd (sh_w y1)) = tk_next (snd (sh_w y)) -> inv (h ++ [e]) y1.
  Proof.
    intros V He H1 H2 H3 H4 H5.
    assert (X1 : makers (h ++ [e]) = makers h). { rewrite makers_snoc. destruct e as [[[] []] d]; cbn [fst] in He |- *; try contradiction; apply app_nil_r. }
    assert (X2 : made (h ++ [e]) = made h). { rewrite made_snoc. destruct e as [[[] []] d]; cbn [fst] in He |- *; try contradiction; apply app_nil_r. }
    assert (X3 : forall j, taken (h ++ [e]) j = taken h j). { intros j. rewrite taken_snoc. destruct e as [[[] []] d]; cbn [fst] in He |- *; try contradiction; apply orb_false_r. }
    constructor; rewrite ?X1, ?X2, ?H1, ?H3, ?H5.
    - apply (v_mks V).
    - intros i s X. apply (v_mk V). auto.
    - apply (v_futs V).
    - intros j f X. rewrite X3. apply (v_fut V). auto.
    - intros j X. rewrite X3. apply (v_new V). auto.
    - unfold known. rewrite X1, X2. apply (v_known V).
  Qed.
  Lemma sn_some {A} (l : list (option A)) i j x : nth_error (set_nth i None l) j = Some (Some x) -> nth_error l j = Some (Some x).
  Proof. rewrite sn_nth. destruct (i =? j); [destruct (nth_error l j); discriminate|auto]. Qed.

  Lemma sn_back {A} (l : list A) i j x z : nth_error l i = Some x -> nth_error (set_nth i x l) j = Some z -> nth_error l j = Some z.
  Proof. intros H. now rewrite (sn_same l i H). Qed.
  Lemma step_ok (h : list shentry) (y y1 : shsys) g o b : inv h y -> shstep g o y = (y1, b) ->
    let e := (o, b, delta (sh_w y) (sh_w y1)) in shared_ok h e /\ inv (h ++ [e]) y1.
  Proof.
    intros V H e. subst e.
    assert (None_ : forall o', (ShSys (Tgt := Tgt) (svc := svc) (sh_mks y) (sh_futs y) (tk_env g (sh_w y)), BoNone) = (y1, b) ->
      shared_ok h (o', b, delta (sh_w y) (sh_w y1)) /\ inv (h ++ [(o', b, delta (sh_w y) (sh_w y1))]) y1).
    { intros o' X. injection X as <- <-. assert (D : delta (sh_w y) (tk_env g (sh_w y)) = []) by (now apply (delta_app _ _ [])).
      cbn [sh_w]. rewrite D. split; [destruct o'; reflexivity|]. apply inv_plain with (y := y); cbn; auto. destruct o'; exact I. }
    destruct o; cbn [shstep] in H.
    - destruct (nth_error (sh_mks y) i) as [[s|]|] eqn:Em; [|exact (None_ _ H)|exact (None_ _ H)].
      cbn in H. injection H as <- <-. cbn [sh_w]. assert (D : delta (sh_w y) (tk_env g (sh_w y)) = []) by (now apply (delta_app _ _ [])). rewrite D.
      split; [cbn; auto|]. apply inv_plain with (y := y); cbn; auto using sn_len. intros k s'. exact (sn_back _ _ _ Em).
    - destruct (nth_error (sh_mks y) i) as [[[m s]|]|] eqn:Em; [|exact (None_ _ H)|exact (None_ _ H)].
      cbn in H. unfold bind, tk_lift, tk_fresh, tk_emit, ret in H. cbn in H.
      destruct (clone svc s (g (fst (sh_w y)))) as [w1 [s1| |]]; cbn in H; injection H as <- <-; cbn [sh_w].
      + set (n := tk_next (snd (sh_w y))). rewrite (delta_app _ _ [TClone m n]) by reflexivity. cbn [rev app].
        assert (Fr : ~ In n (known h)) by (intros X; apply (v_known V) in X; unfold n in X; lia).
        split; [cbn; exists m, n; split; [apply (v_mk V _ Em)|auto]|].
        match goal with |- inv (h ++ [?a]) ?Y => cut (forall e : shentry, e = a -> inv (h ++ [e]) Y); [intros G; apply G; reflexivity|intros e He] end.
        assert (X1 : makers (h ++ [e]) = makers h) by (rewrite makers_snoc, He; apply app_nil_r).
        assert (X2 : made (h ++ [e]) = made h ++ [n]) by (rewrite made_snoc, He; reflexivity).
        assert (X3 : forall j, taken (h ++ [e]) j = taken h j) by (intros j; rewrite taken_snoc, He; cbn; apply orb_false_r).
        constructor; cbn [sh_mks sh_futs sh_w snd tk_next]; rewrite ?X1, ?X2, ?app_length, ?sn_len.
        * apply (v_mks V).
        * intros k s' X. apply (v_mk V). exact (sn_back _ _ _ Em X).
        * cbn [length]. exact (f_equal (fun n => n + 1) (v_futs V)).
        * intros j f X. rewrite X3. rewrite nth_snoc in X. destruct (Nat.eqb_spec j (length (sh_futs y))) as [->|Nj].
          -- injection X as <-. cbn [fst]. split; [|apply (v_new V); lia]. rewrite (v_futs V), nth_error_app2, Nat.sub_diag by lia. reflexivity.
          -- assert (Lj : j < length (made h)). { rewrite <- (v_futs V). assert (Q : nth_error (sh_futs y) j <> None) by congruence. apply nth_error_Some in Q. exact Q. }
             rewrite nth_error_app1 by exact Lj. apply (v_fut V). exact X.
        * intros j X. rewrite X3. apply (v_new V). exact (Nat.le_trans _ _ _ (Nat.le_add_r _ 1) X).
        * intros k X. unfold known in X. rewrite X1, X2, app_assoc, in_app_iff in X. destruct X as [X|[<-|[]]]; [apply (v_known V) in X|]; unfold n; lia.
      + rewrite (delta_app _ _ []) by reflexivity. split; [cbn; auto|]. apply inv_plain with (y := y); cbn; auto.
      + rewrite (delta_app _ _ []) by reflexivity. split; [cbn; auto|]. apply inv_plain with (y := y); cbn; auto.
    - destruct (nth_error (sh_mks y) i) as [[[m s]|]|] eqn:Em; [|exact (None_ _ H)|exact (None_ _ H)].
      cbn in H. unfold bind, tk_lift, tk_fresh, tk_emit, ret in H. cbn in H.
      destruct (clone svc s (g (fst (sh_w y)))) as [w1 [s1| |]]; cbn in H; injection H as <- <-; cbn [sh_w fst].
      + set (n := tk_next (snd (sh_w y))). rewrite (delta_app _ _ [TClone m n]) by reflexivity. cbn [rev app].
        assert (Fr : ~ In n (known h)) by (intros X; apply (v_known V) in X; unfold n in X; lia).
        split; [cbn; exists m; split; [apply (v_mk V _ Em)|auto]|].
        match goal with |- inv (h ++ [?a]) ?Y => cut (forall e : shentry, e = a -> inv (h ++ [e]) Y); [intros G; apply G; reflexivity|intros e He] end.
        assert (X1 : makers (h ++ [e]) = makers h ++ [n]) by (rewrite makers_snoc, He; reflexivity).
        assert (X2 : made (h ++ [e]) = made h) by (rewrite made_snoc, He; apply app_nil_r).
        assert (X3 : forall j, taken (h ++ [e]) j = taken h j) by (intros j; rewrite taken_snoc, He; cbn; apply orb_false_r).
        constructor; cbn [sh_mks sh_futs sh_w snd tk_next]; rewrite ?X1, ?X2, ?app_length.
        * cbn [length]. exact (f_equal (fun n => n + 1) (v_mks V)).
        * intros k s' X. rewrite nth_snoc in X. destruct (Nat.eqb_spec k (length (sh_mks y))) as [->|Nj].
          -- injection X as <-. cbn [fst]. rewrite (v_mks V), nth_error_app2, Nat.sub_diag by lia. reflexivity.
          -- assert (Lj : k < length (makers h)). { rewrite <- (v_mks V). assert (Q : nth_error (sh_mks y) k <> None) by congruence. apply nth_error_Some in Q. exact Q. }
             rewrite nth_error_app1 by exact Lj. apply (v_mk V). exact X.
        * apply (v_futs V).
        * intros j f X. rewrite X3. apply (v_fut V). exact X.
        * intros j X. rewrite X3. apply (v_new V). exact X.
        * intros k X. unfold known in X. rewrite X1, X2, in_app_iff, in_app_iff in X.
          assert (K : In k (known h) \/ k = n) by (unfold known; rewrite in_app_iff; cbn [In] in X; clear - X; intuition).
          destruct K as [K| ->]; [apply (v_known V) in K|]; unfold n; lia.
      + rewrite (delta_app _ _ []) by reflexivity. split; [cbn; auto|]. apply inv_plain with (y := y); cbn; auto.
      + rewrite (delta_app _ _ []) by reflexivity. split; [cbn; auto|]. apply inv_plain with (y := y); cbn; auto.
    - destruct (nth_error (sh_mks y) i) as [[[m s]|]|] eqn:Em; [|exact (None_ _ H)|exact (None_ _ H)].
      cbn in H. injection H as <- <-. cbn [sh_w]. rewrite (delta_app _ _ [TDropSvc m]) by reflexivity. cbn [rev app].
      split; [cbn; split; [reflexivity|]; exists m; split; [apply (v_mk V _ Em)|reflexivity]|].
      apply inv_plain with (y := y); cbn; auto using sn_len. intros k s'. apply sn_some.
    - destruct (nth_error (sh_futs y) j) as [[[[m s]|]|]|] eqn:Em; [| |exact (None_ _ H)|exact (None_ _ H)]; assert (F := v_fut V _ Em); cbn [fst] in F.
      + cbn in H. injection H as <- <-. cbn [sh_w fst]. rewrite (delta_app _ _ []) by reflexivity. cbn [rev app]. destruct F as [F1 F2].
        split; [cbn; split; [reflexivity|]; exists m; split; [exact F1|now rewrite F2]|].
        match goal with |- inv (h ++ [?a]) ?Y => cut (forall e : shentry, e = a -> inv (h ++ [e]) Y); [intros G; apply G; reflexivity|intros e He] end.
        assert (X1 : makers (h ++ [e]) = makers h) by (rewrite makers_snoc, He; apply app_nil_r).
        assert (X2 : made (h ++ [e]) = made h) by (rewrite made_snoc, He; apply app_nil_r).
        assert (X3 : forall k, taken (h ++ [e]) k = taken h k || (j =? k)) by (intros k; rewrite taken_snoc, He; reflexivity).
        constructor; cbn [sh_mks sh_futs sh_w snd tk_next]; rewrite ?X1, ?X2, ?sn_len.
        * apply (v_mks V).
        * apply (v_mk V).
        * apply (v_futs V).
        * intros k f X. rewrite X3. rewrite sn_nth in X. destruct (Nat.eqb_spec j k) as [->|Nj].
          -- rewrite Em in X. injection X as <-. apply orb_true_r.
          -- rewrite orb_false_r. apply (v_fut V). exact X.
        * intros k X. rewrite X3. rewrite (v_new V) by exact X. cbn. apply Nat.eqb_neq. intros ->.
          assert (Q : nth_error (sh_futs y) k <> None) by congruence. apply nth_error_Some in Q. lia.
        * unfold known. rewrite X1, X2. apply (v_known V).
      + cbn in H. injection H as <- <-. cbn [sh_w]. rewrite (delta_app _ _ []) by reflexivity. cbn [rev app]. split.
        * cbn. split; [reflexivity|]. assert (L : j < length (made h)). { rewrite <- (v_futs V). assert (Q : nth_error (sh_futs y) j <> None) by congruence. apply nth_error_Some in Q. exact Q. }
          destruct (nth_error (made h) j) as [k|] eqn:Ek; [|apply nth_error_None in Ek; lia]. exists k. rewrite F. auto.
        * apply inv_plain with (y := y); cbn; auto.
    - destruct (nth_error (sh_futs y) j) as [[f|]|] eqn:Em; [|exact (None_ _ H)|exact (None_ _ H)]; assert (F := v_fut V _ Em).
      assert (L : j < length (made h)). { rewrite <- (v_futs V). assert (Q : nth_error (sh_futs y) j <> None) by congruence. apply nth_error_Some in Q. exact Q. }
      cbn in H. injection H as <- <-. cbn [sh_w]. destruct f as [[m s]|]; cbn [fst] in F.
      + rewrite (delta_app _ _ [TDropSvc m]) by reflexivity. cbn [rev app]. destruct F as [F1 F2].
        split; [cbn; split; [reflexivity|]; exists m; rewrite F2; auto|]. apply inv_plain with (y := y); cbn; auto using sn_len. intros k f'. apply sn_some.
      + rewrite (delta_app _ _ []) by reflexivity. cbn [rev app].
        split; [cbn; split; [reflexivity|]; destruct (nth_error (made h) j) as [k|] eqn:Ek; [|apply nth_error_None in Ek; lia]; exists k; rewrite F; auto|].
        apply inv_plain with (y := y); cbn; auto using sn_len. intros k f'. apply sn_some.
  Qed.
  Lemma run_ok l : forall (y : shsys) (h : list shentry), inv h y -> forall h1 e h2, shrun y l = h1 ++ e :: h2 -> shared_ok (h ++ h1) e.
  Proof.
    induction l as [|[g o] l IH]; intros y h V h1 e h2 Hr; cbn [shrun] in Hr; [destruct h1; discriminate|].
    destruct (shstep g o y) as [y1 b] eqn:Es. destruct (step_ok _ _ V Es) as [Hok V1]. destruct h1 as [|e1 h1].
    - injection Hr as <- _. rewrite app_nil_r. exact Hok.
    - injection Hr as <- Hr. specialize (IH _ _ V1 _ _ _ Hr). rewrite <- app_assoc in IH. exact IH.
  Qed.
  Lemma shared_history s w l h1 e h2 : shhistory (Tgt := Tgt) svc s w l = h1 ++ e :: h2 -> shared_ok h1 e.
  Proof. exact (run_ok l (inv0 s w) h1 e h2). Qed.

  (** The original is what is cloned, for ever. *)
  Lemma shared_clones ops : forall p (s : st svc) (w x : W) (t : Tgt) (f : option (st svc)) (x1 : W), In (x, ObsCall (svc := shared (Tgt := Tgt) svc) t f, x1) (run_svc (shared (Tgt := Tgt) svc) p s w ops) ->
    exists s1, f = Some s1 /\ clone svc s x = (x1, Val s1).
  Proof.
    induction ops as [|[g o] ops IH]; intros p s w x t f x1 H; cbn [run_svc] in H; [destruct H|].
    destruct o, p; cbn in H; try (destruct H as [H|H]; [discriminate|]; eauto).
    unfold bind, ret in H. destruct (clone svc s (g w)) as [w1 [s1| |]] eqn:Ec; cbn in H.
    - destruct H as [H|H]; [|eauto]. injection H as <- <- <- <-. eauto.
    - destruct H as [H|[]]. discriminate.
    - destruct H as [H|[]]. discriminate.
  Qed.
  (** The adapters. *)
  Lemma into_history {Made MErr} (mk : Service W Tgt Made MErr) s : same_history (a := mk) (b := into_service mk) (fun r => r) (fun e => e) (fun _ _ f => f) s s.
  Proof. apply (boxed_history mk s). Qed.
  Lemma into_drive {Made MErr} (mk : Service W Tgt Made MErr) f w gs : drive (poll_fut (into_service mk)) f w gs = drive (poll_fut mk) f w gs.
  Proof. reflexivity. Qed.
  Lemma into_rest {Made MErr} (mk : Service W Tgt Made MErr) s f w :
    clone (into_service mk) s w = clone mk s w /\ drop_svc (into_service mk) s w = drop_svc mk s w /\ drop_fut (into_service mk) f w = drop_fut mk f w.
  Proof. auto. Qed.
  Lemma as_history {Made MErr} (mk : Service W Tgt Made MErr) s : same_history (a := mk) (b := as_service mk) (fun r => r) (fun e => e) (fun _ _ f => f) s s.
  Proof. apply (@run_wrap _ _ _ _ _ _ _ mk (as_service mk) (fun s => s)); unfold as_service, make_poll_ready, make_service; wrap_tac. Qed.
  Lemma as_rest {Made MErr} (mk : Service W Tgt Made MErr) s f w gs :
    drive (poll_fut (as_service mk)) f w gs = drive (poll_fut mk) f w gs /\ drop_svc (as_service mk) s w = w /\ drop_fut (as_service mk) f w = drop_fut mk f w.
  Proof. auto. Qed.
End P.
