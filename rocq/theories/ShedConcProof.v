(** Proofs for C62. *)
From Verif Require Import Base Middleware Limits ConcSpec ConcProof ShedConcSpec Demo.
From Coq Require Import Lia.
Set Implicit Arguments.

Section Proof.
  Context {W Req Resp Err : Type} (svc : Service W Req Resp Err) (max : nat).
  Notation cl := (conc_limit svc (fun _ => false) true).
  Notation ls := (load_shed cl).
  Notation lst := (@load_shed_st (sem * W) Req Resp Err cl).
  Notation zsys := (zsys svc).
  Notation zmid := (zst (S := sys svc)).
  Notation fsame := (fun (futs : list (option (fut cl))) (f : option (option (fut cl))) (k : option (option nat)) =>
    match f, k with
    | None, None => True
    | Some None, Some None => True
    | Some (Some f), Some (Some k) => nth_error futs k = Some (Some f)
    | _, _ => False
    end).

  Definition zinsts (l : list (option lst)) : list (option (st cl)) := map (option_map (fun c : lst => ls_inner c)) l.
  Definition zyes (l : list (option lst)) : list (option bool) := map (option_map (fun c : lst => ls_ready c)) l.

  Definition zrel (z : zsys) (m : zmid) : Prop :=
    y_insts (z_under m) = zinsts (z_insts z) /\ z_yes m = zyes (z_insts z) /\ y_w (z_under m) = z_w z /\
    Forall2 (fsame (y_futs (z_under m))) (z_futs z) (z_req m) /\
    (forall j j' k, nth_error (z_req m) j = Some (Some (Some k)) -> nth_error (z_req m) j' = Some (Some (Some k)) -> j = j') /\
    accepted (z_futs z) = live (y_futs (z_under m)).

  Lemma f2_len {A B} (P : A -> B -> Prop) la lb : Forall2 P la lb -> length la = length lb.
  Proof. induction 1; cbn; auto. Qed.
  Lemma f2_nth {A B} (P : A -> B -> Prop) la lb : Forall2 P la lb -> forall j,
    match nth_error la j, nth_error lb j with
    | Some a, Some b => P a b
    | None, None => True
    | _, _ => False
    end.
  Proof. induction 1; intros [|j]; cbn; auto. apply IHForall2. Qed.
  Lemma f2_intro {A B} (P : A -> B -> Prop) la : forall lb, length la = length lb ->
    (forall j a b, nth_error la j = Some a -> nth_error lb j = Some b -> P a b) -> Forall2 P la lb.
  Proof.
    induction la as [|a la IH]; intros [|b lb] E H; try discriminate; constructor.
    - exact (H 0 a b eq_refl eq_refl).
    - apply IH; [cbn in E; lia|]. intros j x y. exact (H (S j) x y).
  Qed.

  Lemma zreq_fresh z m : zrel z m -> forall j k, nth_error (z_req m) j = Some (Some (Some k)) -> k < length (y_futs (z_under m)).
  Proof.
    intros (_ & _ & _ & H & _) j k E. pose proof (f2_nth H j) as K. rewrite E in K.
    match type of K with match ?x with _ => _ end => destruct x as [[[f|]|]|] end; try contradiction.
    apply nth_error_Some. intros N. rewrite N in K. discriminate.
  Qed.

  Lemma zstep_sim o z m : zrel z m ->
    let '(z1, b) := zsys_step o z in let '(m1, b') := zover_step (@sys_step _ _ _ _ svc) o m in
    b = b' /\ z_w z1 = y_w (z_under m1) /\ z_futs z1 = z_futs z1 /\
    (zstops b = true -> z_futs z1 = z_futs z) /\ (zstops b = false -> zrel z1 m1).
  Proof.
    intros HR. pose proof HR as (E1 & E2 & E3 & E4 & E5 & E6).
    pose proof (zreq_fresh HR) as Efr.
    destruct z as [insts futs w], m as [[yi yf yw] yes req].
    cbn [z_insts z_futs z_w z_under z_yes z_req y_insts y_futs y_w] in *. subst yi yes yw.
    assert (Hn : forall i, nth_error (zinsts insts) i =
      match @nth_error (option lst) insts i with Some (Some c) => Some (Some (ls_inner c)) | Some None => Some None | None => None end).
    { intros i. etransitivity; [apply nth_error_map|]. destruct (@nth_error (option lst) insts i) as [[?|]|]; reflexivity. }
    assert (Hy : forall i, nth_error (zyes insts) i =
      match @nth_error (option lst) insts i with Some (Some c) => Some (Some (ls_ready c)) | Some None => Some None | None => None end).
    { intros i. etransitivity; [apply nth_error_map|]. destruct (@nth_error (option lst) insts i) as [[?|]|]; reflexivity. }
    Ltac same := split; [reflexivity|]; split; [reflexivity|]; split; [reflexivity|]; split; [intros Hs; discriminate Hs|]; intros _; assumption.
    destruct o as [i|i r|i|s0|i|j|j|g]; cbn [zsys_step zover_step sys_step z_insts z_futs z_w z_under z_yes z_req y_insts y_futs y_w].
    all: change (st ls) with lst in *.
    all: change (fut ls) with (option (fut cl)) in *.
    - (* poll_ready *)
      rewrite Hn.
      destruct (@nth_error (option lst) insts i) as [[c|]|] eqn:Hi;
        [|same..].
      assert (E : poll_ready ls c w = match poll_ready cl (ls_inner c) w with
        | (w1, Val (s1, Ready (Er e))) => (w1, Val (LoadShedSt cl s1 (ls_ready c), Ready (Er (inl e))))
        | (w1, Val (s1, Ready (Ok _))) => (w1, Val (LoadShedSt cl s1 true, Ready (Ok tt)))
        | (w1, Val (s1, Pending)) => (w1, Val (LoadShedSt cl s1 false, Ready (Ok tt)))
        | (w1, Panic) => (w1, Panic) | (w1, Diverge) => (w1, Diverge) end).
      { cbn [poll_ready load_shed]. unfold bind at 1. destruct (poll_ready cl (ls_inner c) w) as [w1 [[s1 [|[?|?]]]| |]]; reflexivity. }
      rewrite E. clear E.
      destruct (poll_ready cl (ls_inner c) w) as [w1 [[s1 [|[u|e]]]| |]].
      all: cbn [zstops z_w z_futs z_insts z_under y_w y_insts y_futs z_yes z_req].
      all: split; [reflexivity|]; split; [reflexivity|]; split; [reflexivity|]; split; [intros; reflexivity|];
           intros Hs; try discriminate Hs.
      all: repeat split; cbn [z_w z_futs z_insts z_under y_w y_insts y_futs z_yes z_req]; auto.
      all: unfold zinsts, zyes; rewrite map_set; cbn [option_map ls_inner ls_ready]; auto.
      symmetry. apply set_nth_same. exact (eq_trans (Hy i) ltac:(rewrite Hi; reflexivity)).
    - (* call *)
      rewrite Hy.
      destruct (@nth_error (option lst) insts i) as [[c|]|] eqn:Hi;
        [|same..].
      destruct (ls_ready c) eqn:Hr.
      + rewrite Hn, Hi.
        assert (E : call ls c r w = match call cl (ls_inner c) r w with
          | (w1, Val (s1, f)) => (w1, Val (LoadShedSt cl s1 false, Some f))
          | (w1, Panic) => (w1, Panic) | (w1, Diverge) => (w1, Diverge) end).
        { cbn [call load_shed]. rewrite Hr. unfold bind at 1. destruct (call cl (ls_inner c) r w) as [w1 [[s1 f]| |]]; reflexivity. }
        rewrite E. clear E.
        destruct (call cl (ls_inner c) r w) as [w1 [[s1 f]| |]].
        all: cbn [zstops z_w z_futs z_insts z_under y_w y_insts y_futs z_yes z_req].
        2,3: split; [reflexivity|]; split; [reflexivity|]; split; [reflexivity|]; split; intros; auto; discriminate.
        split; [rewrite (f2_len E4); reflexivity|]. split; [reflexivity|]. split; [reflexivity|].
        split; [intros Hs; discriminate Hs|]. intros _.
        repeat split; cbn [z_w z_futs z_insts z_under y_w y_insts y_futs z_yes z_req]; auto.
        * unfold zinsts. rewrite map_set. reflexivity.
        * unfold zyes. rewrite map_set. reflexivity.
        * apply Forall2_app.
          -- eapply forall2_ext; [exact E4|]. intros [[f0|]|] [[k|]|] _ K; auto.
             rewrite nth_error_app1; [exact K|]. apply nth_error_Some. rewrite K. discriminate.
          -- constructor; [|constructor].
             refine (eq_trans (nth_error_app2 yf [Some f] (le_n (length yf))) _). rewrite Nat.sub_diag. reflexivity.
        * intros j j' k K K'.
          destruct (Nat.lt_ge_cases j (length req)) as [L|L];
            [rewrite nth_error_app1 in K by lia|rewrite nth_error_app2 in K by lia];
          (destruct (Nat.lt_ge_cases j' (length req)) as [L'|L'];
            [rewrite nth_error_app1 in K' by lia|rewrite nth_error_app2 in K' by lia]).
          -- eapply E5; eauto.
          -- destruct (j' - length req) as [|[|?]]; cbn in K'; try discriminate. injection K' as <-.
             apply Efr in K. exact (False_rect _ (Nat.lt_irrefl _ K)).
          -- destruct (j - length req) as [|[|?]]; cbn in K; try discriminate. injection K as <-.
             apply Efr in K'. exact (False_rect _ (Nat.lt_irrefl _ K')).
          -- destruct (j - length req) as [|[|?]] eqn:F; cbn in K; try discriminate.
             destruct (j' - length req) as [|[|?]] eqn:F'; cbn in K'; try discriminate. lia.
        * unfold accepted, live in *. rewrite !filter_app, !app_length. cbn [List.filter length]. lia.
      + assert (E : call ls c r w = (w, Val (c, None))).
        { cbn [call load_shed]. rewrite Hr. reflexivity. }
        rewrite E. cbn [zstops z_w z_futs z_insts z_under y_w y_insts y_futs z_yes z_req].
        split; [rewrite (f2_len E4); reflexivity|]. split; [reflexivity|]. split; [reflexivity|].
        split; [intros Hs; discriminate Hs|]. intros _.
        assert (Es : set_nth i (Some c) insts = insts) by exact (set_nth_same Hi).
        repeat split; cbn [z_w z_futs z_insts z_under y_w y_insts y_futs z_yes z_req]; auto.
        * exact (f_equal zinsts (eq_sym Es)).
        * exact (f_equal zyes (eq_sym Es)).
        * apply Forall2_app; [exact E4|]. constructor; [exact I|constructor].
        * intros j j' k K K'.
          assert (A : forall j, nth_error (req ++ [Some None]) j = Some (Some (Some k)) -> nth_error req j = Some (Some (Some k))).
          { clear. intros j K. destruct (Nat.lt_ge_cases j (length req)) as [L|L].
            - rewrite nth_error_app1 in K by lia. exact K.
            - rewrite nth_error_app2 in K by lia. destruct (j - length req) as [|[|?]]; cbn in K; discriminate. }
          eapply E5; eauto.
        * unfold accepted in *. rewrite !filter_app, !app_length. cbn [List.filter length]. lia.
    - (* clone *)
      rewrite Hn.
      destruct (@nth_error (option lst) insts i) as [[c|]|] eqn:Hi;
        [|same..].
      assert (E : clone ls c w = match clone cl (ls_inner c) w with
        | (w1, Val s1) => (w1, Val (LoadShedSt cl s1 false))
        | (w1, Panic) => (w1, Panic) | (w1, Diverge) => (w1, Diverge) end).
      { cbn [clone load_shed]. unfold bind at 1. destruct (clone cl (ls_inner c) w) as [w1 [s1| |]]; reflexivity. }
      rewrite E. clear E.
      destruct (clone cl (ls_inner c) w) as [w1 [s1| |]].
      all: cbn [zstops z_w z_futs z_insts z_under y_w y_insts y_futs z_yes z_req].
      2,3: split; [reflexivity|]; split; [reflexivity|]; split; [reflexivity|]; split; intros; auto; discriminate.
      split; [unfold zinsts; rewrite map_length; reflexivity|]. split; [reflexivity|]. split; [reflexivity|].
      split; [intros Hs; discriminate Hs|]. intros _.
      repeat split; cbn [z_w z_futs z_insts z_under y_w y_insts y_futs z_yes z_req]; auto.
      + unfold zinsts. rewrite map_app. reflexivity.
      + unfold zyes. rewrite map_app. reflexivity.
    - cbn [zstops z_w z_futs z_insts z_under y_w y_insts y_futs z_yes z_req].
      split; [unfold zinsts; rewrite map_length; reflexivity|]. split; [reflexivity|]. split; [reflexivity|].
      split; [intros Hs; discriminate Hs|]. intros _.
      repeat split; cbn [z_w z_futs z_insts z_under y_w y_insts y_futs z_yes z_req]; auto.
      + unfold zinsts. rewrite map_app. reflexivity.
      + unfold zyes. rewrite map_app. reflexivity.
    - (* drop *)
      rewrite Hn.
      destruct (@nth_error (option lst) insts i) as [[c|]|] eqn:Hi;
        [|same..].
      cbn [zstops z_w z_futs z_insts z_under y_w y_insts y_futs z_yes z_req].
      split; [reflexivity|]. split; [reflexivity|]. split; [reflexivity|].
      split; [intros Hs; discriminate Hs|]. intros _.
      repeat split; cbn [z_w z_futs z_insts z_under y_w y_insts y_futs z_yes z_req]; auto.
      + unfold zinsts. rewrite map_set. reflexivity.
      + unfold zyes. rewrite map_set. reflexivity.
    - (* poll of a response *)
      pose proof (f2_nth E4 j) as K.
      destruct (@nth_error (option (option (fut cl))) futs j) as [[[f|]|]|] eqn:Hj;
        destruct (nth_error req j) as [[[k|]|]|] eqn:Hq; try contradiction.
      2: { assert (E : poll_fut ls None w = (w, Val (None, Ready (Er (inr tt))))) by reflexivity.
           change (fut ls) with (option (fut cl)) in *.
           rewrite E. cbn [zstops z_w z_futs z_insts z_under y_w y_insts y_futs z_yes z_req].
           assert (Es : set_nth j (Some None) futs = futs) by exact (set_nth_same Hj).
           split; [reflexivity|]. split; [reflexivity|]. split; [reflexivity|].
           split; [intros Hs; discriminate Hs|]. intros _.
           rewrite Es. exact HR. }
      2,3: same.
      rewrite K.
      assert (E : poll_fut ls (Some f) w = match poll_fut cl f w with
        | (w1, Val (f1, a)) => (w1, Val (Some f1, poll_map (map_er inl) a))
        | (w1, Panic) => (w1, Panic) | (w1, Diverge) => (w1, Diverge) end).
      { cbn [poll_fut load_shed]. unfold bind at 1. destruct (poll_fut cl f w) as [w1 [[f1 a]| |]]; reflexivity. }
      change (fut ls) with (option (fut cl)) in *.
      rewrite E. clear E.
      destruct (poll_fut cl f w) as [w1 [[f1 a]| |]].
      all: cbn [zstops z_w z_futs z_insts z_under y_w y_insts y_futs z_yes z_req].
      2,3: split; [reflexivity|]; split; [reflexivity|]; split; [reflexivity|]; split; intros; auto; discriminate.
      split; [reflexivity|]. split; [reflexivity|]. split; [reflexivity|].
      split; [intros Hs; discriminate Hs|]. intros _.
      repeat split; cbn [z_w z_futs z_insts z_under y_w y_insts y_futs z_yes z_req]; auto.
      + apply f2_intro; [rewrite set_nth_len; exact (f2_len E4)|].
        intros j' a' b' Ha Hb. rewrite nth_set in Ha.
        destruct (Nat.eqb_spec j j') as [<-|Nj].
        * rewrite Hj in Ha. rewrite Hq in Hb. injection Ha as <-. injection Hb as <-.
          rewrite nth_set, Nat.eqb_refl, K. reflexivity.
        * pose proof (f2_nth E4 j') as K'. rewrite Ha, Hb in K'.
          destruct a' as [[f'|]|], b' as [[k'|]|]; auto.
          rewrite nth_set. destruct (Nat.eqb_spec k k') as [<-|Nk]; [|exact K'].
          exfalso. apply Nj. eapply E5; eauto.
      + pose proof (@cnt_set _ (fun f => match f with Some (Some _) => true | _ => false end) j (Some (Some f1)) _ futs Hj) as C1.
        pose proof (@cnt_set _ (fun f : option (fut cl) => match f with Some _ => true | None => false end) k (Some f1) _ yf K) as C2.
        unfold cnt in C1, C2. unfold accepted, live in *. cbn in C1, C2 |- *. cbn in E6. lia.
    - (* drop of a response *)
      pose proof (f2_nth E4 j) as K.
      destruct (@nth_error (option (option (fut cl))) futs j) as [[[f|]|]|] eqn:Hj;
        destruct (nth_error req j) as [[[k|]|]|] eqn:Hq; try contradiction.
      2: { change (fut ls) with (option (fut cl)) in *.
           cbn [zstops z_w z_futs z_insts z_under y_w y_insts y_futs z_yes z_req].
           split; [reflexivity|]. split; [reflexivity|]. split; [reflexivity|].
           split; [intros Hs; discriminate Hs|]. intros _.
           repeat split; cbn [z_w z_futs z_insts z_under y_w y_insts y_futs z_yes z_req]; auto.
           - apply f2_intro; [rewrite !set_nth_len; exact (f2_len E4)|].
             intros j' a' b' Ha Hb. rewrite nth_set in Ha; rewrite nth_set in Hb.
             destruct (Nat.eqb_spec j j') as [<-|Nj].
             + rewrite Hj in Ha. rewrite Hq in Hb. injection Ha as <-. injection Hb as <-. exact I.
             + pose proof (f2_nth E4 j') as K'. rewrite Ha, Hb in K'. exact K'.
           - intros j1 j2 k. rewrite !nth_set.
             destruct (Nat.eqb_spec j j1); [destruct (nth_error req j1); discriminate|].
             destruct (Nat.eqb_spec j j2); [destruct (nth_error req j2); discriminate|]. apply E5.
           - pose proof (@cnt_set _ (fun f => match f with Some (Some _) => true | _ => false end) j None _ futs Hj) as C1.
             unfold cnt in C1. unfold accepted, live in *. cbn in C1 |- *. cbn in E6. lia. }
      2,3: same.
      rewrite K.
      change (fut ls) with (option (fut cl)) in *.
      cbn [zstops z_w z_futs z_insts z_under y_w y_insts y_futs z_yes z_req].
      split; [reflexivity|]. split; [reflexivity|]. split; [reflexivity|].
      split; [intros Hs; discriminate Hs|]. intros _.
      repeat split; cbn [z_w z_futs z_insts z_under y_w y_insts y_futs z_yes z_req]; auto.
      + apply f2_intro; [rewrite !set_nth_len; exact (f2_len E4)|].
        intros j' a' b' Ha Hb. rewrite nth_set in Ha; rewrite nth_set in Hb.
        destruct (Nat.eqb_spec j j') as [<-|Nj].
        * rewrite Hj in Ha. rewrite Hq in Hb. injection Ha as <-. injection Hb as <-. exact I.
        * pose proof (f2_nth E4 j') as K'. rewrite Ha, Hb in K'.
          destruct a' as [[f'|]|], b' as [[k'|]|]; auto.
          rewrite nth_set. destruct (Nat.eqb_spec k k') as [<-|Nk]; [|exact K'].
          exfalso. apply Nj. eapply E5; eauto.
      + intros j1 j2 k0. rewrite !nth_set.
        destruct (Nat.eqb_spec j j1); [destruct (nth_error req j1); discriminate|].
        destruct (Nat.eqb_spec j j2); [destruct (nth_error req j2); discriminate|]. apply E5.
      + pose proof (@cnt_set _ (fun f => match f with Some (Some _) => true | _ => false end) j None _ futs Hj) as C1.
        pose proof (@cnt_set _ (fun f : option (fut cl) => match f with Some _ => true | None => false end) k None _ yf K) as C2.
        unfold cnt in C1, C2. unfold accepted, live in *. cbn in C1, C2 |- *. cbn in E6. lia.
    - cbn [zstops z_w z_futs z_insts z_under y_w y_insts y_futs z_yes z_req].
      split; [reflexivity|]. split; [reflexivity|]. split; [reflexivity|].
      split; [intros Hs; discriminate Hs|]. intros _.
      repeat split; cbn [z_w z_futs z_insts z_under y_w y_insts y_futs z_yes z_req]; auto.
  Qed.

  (** *** From the limited services to the line. *)
  Definition brel (m : zmid) (c : zst (S := spec svc)) : Prop :=
    z_yes m = z_yes c /\ z_req m = z_req c /\ rel max (z_under m) (z_under c).

  Lemma bstep_sim o m c : brel m c ->
    let '(m1, b) := zover_step (@sys_step _ _ _ _ svc) o m in
    let '(c1, b') := zover_step (spec_step max) o c in
    b = b' /\ snd (y_w (z_under m1)) = p_w (z_under c1) /\ (zstops b = false -> brel m1 c1).
  Proof.
    intros HR. pose proof HR as (E1 & E2 & HU).
    destruct m as [y yes req], c as [sp yes' req']. cbn [z_yes z_req z_under] in E1, E2, HU. subst yes' req'.
    assert (Hw : snd (y_w y) = p_w sp) by (destruct HU as (_ & _ & -> & _); reflexivity).
    assert (Hsame : forall b : zobs (Resp := Resp) (Err := Err), b = b /\ snd (y_w y) = p_w sp /\ (zstops b = false -> brel (ZSt y yes req) (ZSt sp yes req))) by (intros; auto).
    destruct o as [i|i r|i|s0|i|j|j|g]; cbn [zover_step z_under z_yes z_req].
    - pose proof (step_sim (CReady i) HU) as H.
      destruct (sys_step (CReady i) y) as [y1 b], (spec_step max (CReady i) sp) as [sp1 b'].
      destruct H as (<- & Hw1 & H).
      destruct b as [[|[u|e]]|?|?|?| | | |]; try exact (Hsame _);
        (split; [reflexivity|]; split; [exact Hw1|]; intros Hs; first [discriminate Hs | (split; [reflexivity|]; split; [reflexivity|]; destruct H as [H|H]; [discriminate H|exact H])]).
    - destruct (nth_error yes i) as [[[|]|]|]; try exact (Hsame _).
      + pose proof (step_sim (CCall i r) HU) as H.
        destruct (sys_step (CCall i r) y) as [y1 b], (spec_step max (CCall i r) sp) as [sp1 b'].
        destruct H as (<- & Hw1 & H).
        destruct b as [[|[u|e]]|?|?|?| | | |]; try exact (Hsame _);
          (split; [reflexivity|]; split; [exact Hw1|]; intros Hs; first [discriminate Hs | (split; [reflexivity|]; split; [reflexivity|]; destruct H as [H|H]; [discriminate H|exact H])]).
      + split; [reflexivity|]; split; [exact Hw|]; intros _. split; [reflexivity|]; split; [reflexivity|exact HU].
    - pose proof (step_sim (CClone i) HU) as H.
      destruct (sys_step (CClone i) y) as [y1 b], (spec_step max (CClone i) sp) as [sp1 b'].
      destruct H as (<- & Hw1 & H).
      destruct b as [[|[u|e]]|?|?|?| | | |]; try exact (Hsame _);
        (split; [reflexivity|]; split; [exact Hw1|]; intros Hs; first [discriminate Hs | (split; [reflexivity|]; split; [reflexivity|]; destruct H as [H|H]; [discriminate H|exact H])]).
    - pose proof (step_sim (CNew s0) HU) as H.
      destruct (sys_step (CNew s0) y) as [y1 b], (spec_step max (CNew s0) sp) as [sp1 b'].
      destruct H as (<- & Hw1 & H).
      destruct b as [[|[u|e]]|?|?|?| | | |]; try exact (Hsame _);
        (split; [reflexivity|]; split; [exact Hw1|]; intros Hs; first [discriminate Hs | (split; [reflexivity|]; split; [reflexivity|]; destruct H as [H|H]; [discriminate H|exact H])]).
    - pose proof (step_sim (CDropSvc i) HU) as H.
      destruct (sys_step (CDropSvc i) y) as [y1 b], (spec_step max (CDropSvc i) sp) as [sp1 b'].
      destruct H as (<- & Hw1 & H).
      destruct b as [[|[u|e]]|?|?|?| | | |]; try exact (Hsame _);
        (split; [reflexivity|]; split; [exact Hw1|]; intros Hs; first [discriminate Hs | (split; [reflexivity|]; split; [reflexivity|]; destruct H as [H|H]; [discriminate H|exact H])]).
    - destruct (nth_error req j) as [[[k|]|]|]; try exact (Hsame _).
      pose proof (step_sim (CPoll k) HU) as H.
      destruct (sys_step (CPoll k) y) as [y1 b], (spec_step max (CPoll k) sp) as [sp1 b'].
      destruct H as (<- & Hw1 & H).
      destruct b as [[|[u|e]]|?|?|?| | | |]; try exact (Hsame _);
        (split; [reflexivity|]; split; [exact Hw1|]; intros Hs; first [discriminate Hs | (split; [reflexivity|]; split; [reflexivity|]; destruct H as [H|H]; [discriminate H|exact H])]).
    - destruct (nth_error req j) as [[[k|]|]|]; try exact (Hsame _).
      + pose proof (step_sim (CDropFut k) HU) as H.
        destruct (sys_step (CDropFut k) y) as [y1 b], (spec_step max (CDropFut k) sp) as [sp1 b'].
        destruct H as (<- & Hw1 & H).
        destruct b as [[|[u|e]]|?|?|?| | | |]; try exact (Hsame _);
          (split; [reflexivity|]; split; [exact Hw1|]; intros Hs; first [discriminate Hs | (split; [reflexivity|]; split; [reflexivity|]; destruct H as [H|H]; [discriminate H|exact H])]).
      + split; [reflexivity|]; split; [exact Hw|]; intros _. split; [reflexivity|]; split; [reflexivity|exact HU].
    - pose proof (step_sim (CEnv g) HU) as H.
      destruct (sys_step (CEnv g) y) as [y1 b] eqn:E, (spec_step max (CEnv g) sp) as [sp1 b'].
      destruct H as (<- & Hw1 & H). cbn in E. injection E as _ <-.
      split; [reflexivity|]; split; [exact Hw1|]; intros _.
      split; [reflexivity|]; split; [reflexivity|]; destruct H as [H|H]; [discriminate H|exact H].
  Qed.

  Lemma zrun_sim l : forall z m c, zrel z m -> brel m c ->
    fst (zsys_run z l) = fst (zspec_run max c l).
  Proof.
    induction l as [|o l IH]; intros z m c HA HB; [reflexivity|].
    unfold zspec_run in *. cbn [zsys_run zover_run].
    pose proof (zstep_sim o HA) as KA. pose proof (bstep_sim o HB) as KB.
    destruct (zsys_step o z) as [z1 b], (zover_step (@sys_step _ _ _ _ svc) o m) as [m1 b'],
      (zover_step (spec_step max) o c) as [c1 b''].
    destruct KA as (<- & Hw & _ & _ & HA1). destruct KB as (<- & Hw' & HB1).
    assert (Ew : snd (z_w z1) = p_w (z_under c1)) by (rewrite Hw; exact Hw').
    rewrite Ew. destruct (zstops b) eqn:Hs; [reflexivity|].
    specialize (IH z1 m1 c1 (HA1 eq_refl) (HB1 eq_refl)).
    destruct (zsys_run z1 l), (zover_run (spec_step max) (p_w (svc := svc)) c1 l). cbn [fst] in *. rewrite IH. reflexivity.
  Qed.

  Definition zmid0 s w : zmid := ZSt (sys0 svc max s w) [Some false] [].
  Lemma zrel0 s w : zrel (zsys0 svc max s w) (zmid0 s w).
  Proof. repeat split; cbn; auto. intros [|?] ? ? H; discriminate H. Qed.
  Lemma brel0 s w : brel (zmid0 s w) (zspec0 svc s w).
  Proof. repeat split. apply rel0. Qed.

  Lemma shed_refines s w l :
    fst (zsys_run (zsys0 svc max s w) l) = fst (zspec_run max (zspec0 svc s w) l).
  Proof. exact (zrun_sim l (zrel0 s w) (brel0 s w)). Qed.

  Lemma shed_bound_gen l : forall z m c, zrel z m -> brel m c ->
    accepted (z_futs (snd (zsys_run z l))) <= max.
  Proof.
    induction l as [|o l IH]; intros z m c HA HB.
    - destruct HA as (_ & _ & _ & _ & _ & E). cbn [zsys_run snd]. rewrite E.
      destruct HB as (_ & _ & HU). exact (rel_live HU).
    - cbn [zsys_run].
      pose proof (zstep_sim o HA) as KA. pose proof (bstep_sim o HB) as KB.
      destruct (zsys_step o z) as [z1 b], (zover_step (@sys_step _ _ _ _ svc) o m) as [m1 b'],
        (zover_step (spec_step max) o c) as [c1 b''].
      destruct KA as (<- & Hw & _ & Hf & HA1). destruct KB as (<- & Hw' & HB1).
      destruct (zstops b) eqn:Hs.
      + cbn [snd]. rewrite (Hf eq_refl).
        destruct HA as (_ & _ & _ & _ & _ & E). rewrite E. destruct HB as (_ & _ & HU). exact (rel_live HU).
      + specialize (IH z1 m1 c1 (HA1 eq_refl) (HB1 eq_refl)). destruct (zsys_run z1 l). exact IH.
  Qed.
  Lemma shed_bound s w l : accepted (z_futs (snd (zsys_run (zsys0 svc max s w) l))) <= max.
  Proof. exact (shed_bound_gen l (zrel0 s w) (brel0 s w)). Qed.

  (** *** One instance only. *)
  Lemma zrun_rel l : forall z m c, zrel z m -> brel m c ->
    Forall (fun x => zstops (fst x) = false) (fst (zsys_run z l)) ->
    exists m1 c1, zrel (snd (zsys_run z l)) m1 /\ brel m1 c1 /\
      z_under c1 = z_under (snd (zspec_run max c l)).
  Proof.
    induction l as [|o l IH]; intros z m c HA HB HF; [exists m, c; auto|].
    unfold zspec_run in *. cbn [zsys_run zover_run] in *.
    pose proof (zstep_sim o HA) as KA. pose proof (bstep_sim o HB) as KB.
    destruct (zsys_step o z) as [z1 b], (zover_step (@sys_step _ _ _ _ svc) o m) as [m1 b'],
      (zover_step (spec_step max) o c) as [c1 b''].
    destruct KA as (<- & Hw & _ & _ & HA1). destruct KB as (<- & Hw' & HB1).
    destruct (zstops b) eqn:Hs.
    { exfalso. cbn in HF. inversion HF; cbn in *; congruence. }
    specialize (IH z1 m1 c1 (HA1 eq_refl) (HB1 eq_refl)).
    destruct (zsys_run z1 l) as [h z2], (zover_run (spec_step max) (p_w (svc := svc)) c1 l) as [h' c2]. cbn [fst snd] in *.
    apply IH. inversion HF; auto.
  Qed.

  Definition one (sp : spec svc) : Prop := length (p_insts sp) = 1 /\ (p_line sp = [] \/ p_line sp = [0]).
  Lemma one_step o sp : one sp -> match o with CClone _ | CNew _ => False | _ => True end -> one (fst (spec_step max o sp)).
  Proof.
    intros (H1 & H2) Ho. destruct sp as [ins line futs w]. cbn [p_insts p_line] in H1, H2.
    assert (Hi : forall i x, nth_error ins i = Some x -> i = 0).
    { intros i x E. assert (i < length ins) by (apply nth_error_Some; congruence). lia. }
    assert (Hl : forall i, leave i line = [] \/ leave i line = [0]).
    { intros i. destruct H2 as [->| ->]; [left; reflexivity|]. destruct i; [left|right]; reflexivity. }
    destruct o as [i|i r|i|s0|i|j|j|g]; cbn [spec_step p_insts p_line p_futs p_w]; try contradiction.
    - destruct (nth_error ins i) as [[[s b]|]|] eqn:E; try (split; auto; fail).
      specialize (Hi _ _ E). subst i.
      match goal with |- context [if ?x then _ else _] => destruct x end.
      + destruct (poll_ready svc s w) as [w1 [[s1 a]| |]]; split; cbn [fst p_insts p_line]; rewrite ?set_nth_len; auto; destruct b; auto.
      + split; cbn [fst p_insts p_line]; auto. right. unfold join. destruct H2 as [->| ->]; reflexivity.
    - destruct (nth_error ins i) as [[[s [|]]|]|] eqn:E; try (split; auto; fail).
      destruct (call svc s r w) as [w1 [[s1 f]| |]]; split; cbn [fst p_insts p_line]; rewrite ?set_nth_len; auto.
    - destruct (nth_error ins i) as [[[s b]|]|] eqn:E; try (split; auto; fail).
      split; cbn [fst p_insts p_line]; rewrite ?set_nth_len; auto.
    - destruct (nth_error futs j) as [[f|]|]; try (split; auto; fail).
      destruct (poll_fut svc f w) as [w1 [[f1 a]| |]]; split; auto.
    - destruct (nth_error futs j) as [[f|]|]; try (split; auto; fail).
    - split; auto.
  Qed.
  Lemma one_zstep o c : one (z_under c) -> alone (svc := svc) o -> one (z_under (fst (zover_step (spec_step max) o c))).
  Proof.
    intros H Ho. destruct c as [sp yes req]. cbn [z_under] in H.
    destruct o as [i|i r|i|s0|i|j|j|g]; cbn [zover_step z_under z_yes z_req]; try contradiction.
    - pose proof (@one_step (CReady i) sp H I) as K. destruct (spec_step max (CReady i) sp) as [u b].
      destruct b as [[|[?|?]]|?|?|?| | | |]; auto.
    - destruct (nth_error yes i) as [[[|]|]|]; auto.
      pose proof (@one_step (CCall i r) sp H I) as K. destruct (spec_step max (CCall i r) sp) as [u b].
      destruct b; auto.
    - pose proof (@one_step (CDropSvc i) sp H I) as K. destruct (spec_step max (CDropSvc i) sp) as [u b].
      destruct b; auto.
    - destruct (nth_error req j) as [[[k|]|]|]; auto.
      pose proof (@one_step (CPoll k) sp H I) as K. destruct (spec_step max (CPoll k) sp) as [u b].
      destruct b; auto.
    - destruct (nth_error req j) as [[[k|]|]|]; auto.
      pose proof (@one_step (CDropFut k) sp H I) as K. destruct (spec_step max (CDropFut k) sp) as [u b].
      destruct b; auto.
    - pose proof (@one_step (CEnv g) sp H I) as K. destruct (spec_step max (CEnv g) sp) as [u b]. exact K.
  Qed.
  Lemma one_zrun l : forall c, one (z_under c) -> Forall (alone (svc := svc)) l -> one (z_under (snd (zspec_run max c l))).
  Proof.
    induction l as [|o l IH]; intros c H HF; [exact H|]. inversion HF as [|? ? Ho Hl]; subst.
    unfold zspec_run in *. cbn [zover_run]. pose proof (one_zstep _ _ H Ho) as K.
    destruct (zover_step (spec_step max) o c) as [c1 b]. cbn [fst] in K.
    destruct (zstops b); [exact K|]. specialize (IH c1 K Hl).
    destruct (zover_run (spec_step max) (p_w (svc := svc)) c1 l). exact IH.
  Qed.

  Lemma shed_alone s w l c w1 c1 : Forall (alone (svc := svc)) l ->
    let h := zsys_run (zsys0 svc max s w) l in
    Forall (fun x => zstops (fst x) = false) (fst h) ->
    nth_error (z_insts (snd h)) 0 = Some (Some c) ->
    poll_ready ls c (z_w (snd h)) = (w1, Val (c1, Ready (Ok tt))) ->
    ls_ready c1 = false ->
    accepted (z_futs (snd h)) = max \/
    exists s1, poll_ready svc (cl_inner (ls_inner c)) (snd (z_w (snd h))) = (snd w1, Val (s1, Pending)).
  Proof.
    intros Hal h HF Hc Hp Hr.
    destruct (zrun_rel l (zrel0 s w) (brel0 s w) HF) as (m & b & HA & HB & Eb). fold h in HA.
    pose proof (@one_zrun l (zspec0 svc s w) (conj eq_refl (or_introl eq_refl)) Hal) as H1. rewrite <- Eb in H1. clear Eb.
    destruct HA as (E1 & E2 & E3 & E4 & E5 & E6). destruct HB as (F1 & F2 & HU).
    assert (Hc' : nth_error (y_insts (z_under m)) 0 = Some (Some (ls_inner c))).
    { rewrite E1. refine (eq_trans (nth_error_map _ _ _) _). exact (f_equal (option_map (option_map (fun c : lst => ls_inner c))) Hc). }
    assert (Hpc : poll_ready cl (ls_inner c) (z_w (snd h)) = (w1, Val (ls_inner c1, Pending))).
    { revert Hp. cbn [poll_ready load_shed]. unfold bind at 1.
      destruct (poll_ready cl (ls_inner c) (z_w (snd h))) as [w2 [[s2 [|[?|?]]]| |]]; intros K; try discriminate K;
        injection K as <- <-; cbn [ls_ready] in Hr; try discriminate Hr; reflexivity. }
    pose proof (step_sim (CReady 0) HU) as HS. cbn [sys_step] in HS. rewrite Hc' in HS. rewrite E3 in HS. rewrite Hpc in HS.
    set (sp := z_under b) in *.
    assert (Hv : nth_error (p_insts sp) 0 = Some (Some (cl_inner (ls_inner c), cl_permit (ls_inner c)))).
    { destruct HU as (-> & _). refine (eq_trans (nth_error_map _ _ _) _). exact (f_equal (option_map (@view _ _ _ _ svc)) Hc'). }
    assert (Hpw : p_w sp = snd (z_w (snd h))) by (destruct HU as (_ & _ & -> & _); rewrite E3; reflexivity).
    cbn [spec_step] in HS. rewrite Hv in HS.
    destruct (cl_permit (ls_inner c) || (ahead 0 (p_line sp) <? unused max sp)) eqn:Eg.
    - right. rewrite <- Hpw. destruct (poll_ready svc (cl_inner (ls_inner c)) (p_w sp)) as [w2 [[s2 a]| |]];
        destruct HS as (K & Kw & _); try discriminate K. injection K as <-. cbn [p_w y_w] in Kw. subst w2. eauto.
    - left. apply Bool.orb_false_iff in Eg. destruct Eg as (Ep & Ea). apply Nat.ltb_ge in Ea.
      destruct H1 as (L1 & L2).
      assert (ahead 0 (p_line sp) = 0) by (destruct L2 as [->| ->]; reflexivity).
      assert (holding sp = 0).
      { unfold holding. destruct (p_insts sp) as [|x [|? ?]]; cbn in L1; try discriminate. cbn in Hv. injection Hv as ->. rewrite Ep. reflexivity. }
      unfold unused in Ea. assert (Hb : live (y_futs (z_under m)) = in_flight sp).
      { destruct HU as (_ & Ef & _). unfold in_flight. rewrite Ef. reflexivity. }
      pose proof (rel_live HU) as Hle. rewrite E6, Hb. rewrite Hb in Hle. lia.
  Qed.
  Lemma shed_refused s w l c w1 c1 r w2 c2 : Forall (alone (svc := svc)) l ->
    let h := zsys_run (zsys0 svc max s w) l in
    Forall (fun x => zstops (fst x) = false) (fst h) ->
    nth_error (z_insts (snd h)) 0 = Some (Some c) ->
    poll_ready ls c (z_w (snd h)) = (w1, Val (c1, Ready (Ok tt))) ->
    call ls c1 r w1 = (w2, Val (c2, None)) ->
    accepted (z_futs (snd h)) = max \/
    exists s1, poll_ready svc (cl_inner (ls_inner c)) (snd (z_w (snd h))) = (snd w1, Val (s1, Pending)).
  Proof.
    intros Ha h HF Hc Hp Hcall. eapply shed_alone; eauto.
    destruct (ls_ready c1) eqn:E; [exfalso|reflexivity]. revert Hcall. cbn [call load_shed]. rewrite E.
    unfold bind at 1. destruct (call cl (ls_inner c1) r w1) as [? [[? ?]| |]]; discriminate.
  Qed.
End Proof.

Lemma shed_starves_gen I w : (forall F, zsys_step (svc := demo) (ZReady 0) (ZSys I F w) = (ZSys I F w, ZoReady (Ready (Ok tt)))) ->
  (forall F, zsys_step (svc := demo) (ZCall 0 6) (ZSys I F w) = (ZSys I (F ++ [Some None]) w, ZoCalled (length F))) ->
  forall n F, snd (zsys_run (ZSys I F w) (concat (repeat [ZReady 0; ZCall 0 6] n))) = ZSys I (F ++ repeat (Some None) n) w.
Proof.
  intros H1 H2. induction n as [|n IH]; intros F; [cbn; rewrite app_nil_r; reflexivity|].
  cbn [repeat concat app zsys_run]. rewrite H1. cbn [zstops]. rewrite H2. cbn [zstops].
  specialize (IH (F ++ [Some None])).
  destruct (zsys_run (ZSys I (F ++ [Some None]) w) (concat (repeat [ZReady 0; ZCall 0 6] n))) as [h z]. cbn [snd] in *.
  rewrite IH, <- app_assoc. reflexivity.
Qed.

Lemma shed_starves n :
  let start := [ZClone 0; ZReady 0; ZCall 0 5; ZReady 1; ZDropFut 0] in
  let h := zsys_run (zsys0 demo 1 7 scr0) (start ++ concat (repeat [ZReady 0; ZCall 0 6] n)) in
  z_futs (snd h) = None :: repeat (Some None) n /\ accepted (z_futs (snd h)) = 0.
Proof.
  cbv zeta.
  assert (E : z_futs (snd (zsys_run (zsys0 demo 1 7 scr0)
    ([ZClone 0; ZReady 0; ZCall 0 5; ZReady 1; ZDropFut 0] ++ concat (repeat [ZReady 0; ZCall 0 6] n))))
    = None :: repeat (Some None) n).
  { destruct n as [|n]; [reflexivity|].
    set (z1 := snd (zsys_run (zsys0 demo 1 7 scr0) [ZClone 0; ZReady 0; ZCall 0 5; ZReady 1; ZDropFut 0; ZReady 0; ZCall 0 6])).
    pose proof (@shed_starves_gen (z_insts z1) (z_w z1) (fun F => eq_refl) (fun F => eq_refl) n (z_futs z1)) as K.
    refine (eq_trans (y := z_futs (snd (zsys_run z1 (concat (repeat [ZReady 0; ZCall 0 6] n))))) _ (f_equal (@z_futs _ _ _ _ demo) K)).
    cbn [repeat concat]. generalize (concat (repeat [ZReady (svc := demo) 0; ZCall 0 6] n)). intros l.
    subst z1. cbn. destruct (zsys_run _ l). reflexivity. }
  rewrite E. split; [reflexivity|]. unfold accepted. cbn. clear E. induction n; cbn; auto.
Qed.
