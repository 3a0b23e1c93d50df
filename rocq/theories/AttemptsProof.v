(** Proofs for C93. *)
From Verif Require Import Base DriveSpec Middleware Track MeterSpec MeterProof Attempts AttemptsSpec.
Set Implicit Arguments.

Section AttemptsProof.
  Context {W Req Resp Err : Type} (svc : Service W Req Resp Err).
  Notation TW := (W * tk (tev Req Resp Err))%type.
  Notation ts := (tracked (L := tev Req Resp Err) (fun e => e) svc).
  Notation ap := (attempts (W := TW) (Req := Req) (Resp := Resp) (Err := Err)).
  Notation ph := (aphase Resp Err).

  Lemma attempting_app i (r : Req) (a b c : ph) l l' :
    attempting i r a l b -> attempting i r b l' c -> attempting i r a (l ++ l') c.
  Proof.
    induction 1; cbn; intros H1; auto; try (constructor; auto; fail);
      inversion H1; subst; constructor.
  Qed.

  Definition aabs (r : Req) (f : retry_fut ap ts) (a : ph) : Prop :=
    rf_req f = Some r /\
    match rf_state f with
    | RCalled x => a = Trying (rf_pol f) (fst x)
    | RWaiting _ | RRetrying => a = Again (rf_pol f)
    end.
  Definition ainst (f : retry_fut ap ts) : nat := fst (rf_svc f).

  Definition went (i : nat) (r : Req) (a : ph) (w w1 : TW) (P : ph -> list (tev Req Resp Err) -> Prop) : Prop :=
    exists l c, log_of w1 = rev l ++ log_of w /\ attempting i r a l c /\ P c l.

  Lemma went_cons i r a e b w w1 w2 (P Q : ph -> list (tev Req Resp Err) -> Prop) :
    attempting i r a e b -> log_of w1 = rev e ++ log_of w ->
    went i r b w1 w2 P -> (forall c l, P c l -> Q c (e ++ l)) -> went i r a w w2 Q.
  Proof.
    intros H1 H2 (l & c & H3 & H4 & H5) H6. exists (e ++ l), c. split; [|split].
    - rewrite rev_app_distr, <- app_assoc, <- H2. exact H3.
    - eapply attempting_app; eauto.
    - auto.
  Qed.

  Ltac fin_ l c := exists l, c; split; [reflexivity | split; [repeat (constructor)|]].

  Lemma aiter_ok r f a w :
    aabs r f a ->
    match retry_iter f w with
    | (w1, Val (inl f1)) => ainst f1 = ainst f /\ went (ainst f) r a w w1 (fun c _ => aabs r f1 c)
    | (w1, Val (inr (f1, Pending))) => ainst f1 = ainst f /\
        went (ainst f) r a w w1 (fun c l => aabs r f1 c /\ exists l' e, l = l' ++ [e] /\ waits e)
    | (w1, Val (inr (f1, Ready res))) => went (ainst f) r a w w1 (fun c _ => c = Over res)
    | (w1, _) => went (ainst f) r a w w1 (fun _ _ => True)
    end.
  Proof.
    destruct f as [rq p [i s] st0]. change (pst ap) with nat in p. unfold aabs, retry_iter, ainst.
    cbn [rf_state rf_req rf_pol rf_svc fst]. intros [-> Ha].
    destruct st0 as [[j x]|t|]; subst a.
    - cbn. unfold bind, tk_lift. cbn.
      destruct (poll_fut svc x (fst w)) as [w1 [[x1 [|[v|e]]]| |]]; cbn.
      + split; [reflexivity|]. fin_ ([TPoll (Req := Req) (Resp := Resp) (Err := Err) j Pending]) (Trying (Resp := Resp) (Err := Err) p j).
        split; [auto|]. exists [], (TPoll j Pending). split; [reflexivity | exact I].
      + fin_ ([TPoll (Req := Req) (Resp := Resp) (Err := Err) j (Ready (Ok v))]) (Over (Resp := Resp) (Err := Err) (Ok v)). reflexivity.
      + destruct p as [|p]; cbn.
        * fin_ ([TPoll (Req := Req) (Resp := Resp) (Err := Err) j (Ready (Er e))]) (Over (Resp := Resp) (Err := Err) (Er e)). reflexivity.
        * split; [reflexivity|]. fin_ ([TPoll (Req := Req) (Resp := Resp) (Err := Err) j (Ready (Er e)); TDropFut j]) (Again (Resp := Resp) (Err := Err) p).
          auto.
      + fin_ (@nil (tev Req Resp Err)) (Trying (Resp := Resp) (Err := Err) p j). exact I.
      + fin_ (@nil (tev Req Resp Err)) (Trying (Resp := Resp) (Err := Err) p j). exact I.
    - cbn. split; [reflexivity|]. fin_ (@nil (tev Req Resp Err)) (Again (Resp := Resp) (Err := Err) p). auto.
    - cbn. unfold bind, tk_lift. cbn.
      destruct (poll_ready svc s (fst w)) as [w1 [[s1 [|[[]|e]]]| |]]; cbn.
      + split; [reflexivity|]. fin_ ([TReady (Req := Req) (Resp := Resp) (Err := Err) i Pending]) (Again (Resp := Resp) (Err := Err) p).
        split; [auto|]. exists [], (TReady i Pending). split; [reflexivity | exact I].
      + unfold bind, tk_lift. cbn.
        destruct (call svc s1 r w1) as [w3 [[s2 x]| |]]; cbn.
        * split; [reflexivity|].
          fin_ ([TReady (Resp := Resp) i (Ready (Ok tt)); TCall (Err := Err) i r (tk_next (snd w))]) (Trying (Resp := Resp) (Err := Err) p (tk_next (snd w))).
          auto.
        * fin_ ([TReady (Req := Req) (Resp := Resp) (Err := Err) i (Ready (Ok tt))]) (Sending (Resp := Resp) (Err := Err) p). exact I.
        * fin_ ([TReady (Req := Req) (Resp := Resp) (Err := Err) i (Ready (Ok tt))]) (Sending (Resp := Resp) (Err := Err) p). exact I.
      + fin_ ([TReady (Req := Req) (Resp := Resp) (Err := Err) i (Ready (Er e))]) (Over (Resp := Resp) (Err := Err) (Er e)). reflexivity.
      + fin_ (@nil (tev Req Resp Err)) (Again (Resp := Resp) (Err := Err) p). exact I.
      + fin_ (@nil (tev Req Resp Err)) (Again (Resp := Resp) (Err := Err) p). exact I.
  Qed.

  Lemma apoll_ok fuel r f a w :
    aabs r f a ->
    match retry_poll fuel f w with
    | (w1, Val (f1, Pending)) => ainst f1 = ainst f /\
        went (ainst f) r a w w1 (fun c l => aabs r f1 c /\ exists l' e, l = l' ++ [e] /\ waits e)
    | (w1, Val (f1, Ready res)) => went (ainst f) r a w w1 (fun c _ => c = Over res)
    | (w1, _) => went (ainst f) r a w w1 (fun _ _ => True)
    end.
  Proof.
    revert f a w. induction fuel as [|n IH]; intros f a w Ha.
    { cbn. exists [], a. split; [reflexivity | split; [constructor | exact I]]. }
    cbn [retry_poll]. unfold bind at 1. generalize (@aiter_ok r f a w Ha).
    destruct (retry_iter f w) as [w1 [[f1|[f1 [|res]]]| |]]; cbn; auto.
    intros [Hi (l & c & H1 & H2 & H3)].
    generalize (@IH f1 c w1 H3). rewrite Hi.
    destruct (retry_poll n f1 w1) as [w2 [[f2 [|res]]| |]].
    - intros [Hj H]. split; [congruence|]. eapply went_cons; eauto.
      intros c' l0 [H4 (l' & e & -> & H5)]. split; auto. exists (l ++ l'), e. rewrite app_assoc. auto.
    - intros H. eapply went_cons; eauto.
    - intros H. eapply went_cons; eauto.
    - intros H. eapply went_cons; eauto.
  Qed.

  Lemma adrive fuel r f a w gs :
    aabs r f a ->
    let d := drive (poll_fut (retry ap ts fuel)) f w (map tk_env gs) in
    Forall (fun x => exists e l, log_of x = e :: l /\ waits e) (fst d) /\
    match snd d with
    | Finished _ w1 res => went (ainst f) r a w w1 (fun c _ => c = Over res)
    | Unfinished _ w1 => went (ainst f) r a w w1 (fun c _ => forall res, c <> Over res)
    | Panicked w1 | Spun w1 => went (ainst f) r a w w1 (fun _ _ => True)
    end.
  Proof.
    cbv zeta. revert f a w. induction gs as [|g gs IH]; intros f a w Ha; cbn [map drive].
    { split; [constructor|]. cbn. exists [], a. split; [reflexivity | split; [constructor|]].
      destruct f as [rq p s0 st0]. destruct Ha as [_ Ha]. cbn in Ha. destruct st0; subst a; discriminate. }
    change (poll_fut (retry ap ts fuel) f) with (retry_poll fuel f).
    generalize (@apoll_ok fuel r f a (tk_env g w) Ha).
    destruct (retry_poll fuel f (tk_env g w)) as [w1 [[f1 [|res]]| |]].
    - intros [Hi (l & c & H1 & H2 & H3 & l' & e & -> & H4)].
      specialize (@IH f1 c w1 H3). rewrite Hi in IH.
      destruct (drive (poll_fut (retry ap ts fuel)) f1 w1 (map tk_env gs)) as [ws en].
      destruct IH as [IH1 IH2]. split.
      + constructor; auto. exists e. rewrite rev_app_distr in H1. cbn in H1. eauto.
      + cbn [snd] in *. destruct en; (eapply went_cons; [eassumption | exact H1 | exact IH2 |]); auto.
    - intros H. split; [constructor|]. exact H.
    - intros H. split; [constructor|]. exact H.
    - intros H. split; [constructor|]. exact H.
  Qed.

  (** One request. *)
  Lemma attempts_call fuel n i s r w w1 ps f :
    call (retry ap ts fuel) (n, (i, s)) r w = (w1, Val (ps, f)) ->
    fst ps = n /\ fst (snd ps) = i /\
    exists j i', log_of w1 = [TClone i i'; TCall i r j] ++ log_of w /\ ainst f = i' /\ aabs r f (Trying n j).
  Proof.
    cbn. unfold bind, tk_lift. cbn.
    destruct (call svc s r (fst w)) as [w3 [[s1 x]| |]]; try discriminate. cbn.
    destruct (clone svc s1 w3) as [w5 [s2| |]]; try discriminate. cbn.
    intros E. injection E as <- <- <-. cbn. split; [reflexivity|]. split; [reflexivity|].
    exists (tk_next (snd w)), (S (tk_next (snd w))). repeat split.
  Qed.
  Lemma attempts_request fuel n i s r w w1 ps f :
    call (retry ap ts fuel) (n, (i, s)) r w = (w1, Val (ps, f)) ->
    fst ps = n /\ fst (snd ps) = i /\
    exists j i',
      log_of w1 = [TClone i i'; TCall i r j] ++ log_of w /\
      forall gs, let d := drive (poll_fut (retry ap ts fuel)) f w1 (map tk_env gs) in
      Forall (fun x => exists e l, log_of x = e :: l /\ waits e) (fst d) /\
      match snd d with
      | Finished _ w2 res =>
          exists l, log_of w2 = rev l ++ log_of w1 /\ attempting i' r (Trying n j) l (Over res)
      | Unfinished _ w2 =>
          exists l a, log_of w2 = rev l ++ log_of w1 /\ attempting i' r (Trying n j) l a /\
            forall res, a <> Over res
      | Panicked w2 | Spun w2 =>
          exists l a, log_of w2 = rev l ++ log_of w1 /\ attempting i' r (Trying n j) l a
      end.
  Proof.
    intros Hc. destruct (attempts_call _ _ _ _ _ Hc) as (H0 & H1 & j & i' & H2 & H3 & H4).
    split; [exact H0|]. split; [exact H1|]. exists j, i'. split; [exact H2|]. intros gs. cbv zeta.
    destruct (@adrive fuel r f _ w1 gs H4) as [H5 H6]. split; [exact H5|]. rewrite H3 in H6.
    destruct (drive (poll_fut (retry ap ts fuel)) f w1 (map tk_env gs)) as [ws en]. cbn [fst snd] in *.
    destruct en as [y w2|y w2 res|w2|w2]; destruct H6 as (l & c & H6 & H7 & H8).
    - exists l, c. auto.
    - subst c. exists l. auto.
    - exists l, c. auto.
    - exists l, c. auto.
  Qed.

  (** What the protocol says. *)
  Definition left_of (a : ph) : nat :=
    match a with Trying n _ => n | Again n => S n | Sending n => S n | Over _ => 0 end.
  Lemma over_stuck i (r : Req) res l (c : ph) : attempting i r (Over res) l c -> l = [] /\ c = Over res.
  Proof. inversion 1; auto. Qed.

  Lemma sends_le i (r : Req) (a : ph) l c :
    attempting i r a l c -> how_many is_send l <= left_of a.
  Proof.
    unfold how_many. induction 1; cbn in *; try lia.
  Qed.
  Lemma same_request i (r : Req) (a : ph) l c k q j :
    attempting i r a l c -> In (TCall k q j) l -> k = i /\ q = r.
  Proof.
    intros H. induction H; cbn; intros X;
      repeat (destruct X as [X|X]; [try discriminate X | ]); try contradiction; auto.
    injection X as <- <- _. auto.
  Qed.
  (** An [Ok] is the last attempt's answer, and every one before it failed. *)
  Lemma ok_means i (r : Req) (a : ph) l v :
    attempting i r a l (Over (Ok v)) -> (forall res, a <> Over res) ->
    exists l' j, l = l' ++ [TPoll j (Ready (Ok v))] /\
        how_many is_fail l' + match a with Trying _ _ => 0 | _ => 1 end = how_many is_send l'.
  Proof.
    remember (Over (Ok v)) as c eqn:Ec. unfold how_many. intros H Ha.
    induction H; subst; try discriminate.
    - exfalso. eapply Ha. reflexivity.
    - destruct IHattempting as (l' & j' & -> & E); [reflexivity | discriminate|].
      exists (TPoll j Pending :: l'), j'. split; [reflexivity|]. cbn. exact E.
    - injection Ec as ->. exists [], j. split; reflexivity.
    - destruct IHattempting as (l' & j' & -> & E); [reflexivity | discriminate|].
      exists (TPoll j (Ready (Er e)) :: TDropFut j :: l'), j'. split; [reflexivity|]. cbn in *. lia.
    - destruct IHattempting as (l' & j' & -> & E); [reflexivity | discriminate|].
      exists (TReady i Pending :: l'), j'. split; [reflexivity|]. cbn. exact E.
    - destruct IHattempting as (l' & j' & -> & E); [reflexivity | discriminate|].
      exists (TReady i (Ready (Ok tt)) :: l'), j'. split; [reflexivity|]. cbn. exact E.
    - destruct IHattempting as (l' & j' & -> & E); [reflexivity | discriminate|].
      exists (TCall i r j :: l'), j'. split; [reflexivity|]. cbn in *. lia.
  Qed.
  (** An error: every attempt failed, and either there was none left or the service broke. *)
  Lemma er_means i (r : Req) (a : ph) l e :
    attempting i r a l (Over (Er e)) -> (forall res, a <> Over res) ->
    (exists l' j, l = l' ++ [TPoll j (Ready (Er e))] /\
        how_many is_send l = left_of a /\
        how_many is_fail l = how_many is_send l + match a with Trying _ _ => 1 | _ => 0 end) \/
    (exists l', l = l' ++ [TReady i (Ready (Er e))] /\
        how_many is_fail l = how_many is_send l + match a with Trying _ _ => 1 | _ => 0 end /\
        how_many is_send l < left_of a).
  Proof.
    remember (Over (Er e)) as c eqn:Ec. unfold how_many. intros H Ha.
    induction H; subst; try discriminate.
    - exfalso. eapply Ha. reflexivity.
    - destruct IHattempting as [(l' & j' & -> & E1 & E2)|(l' & -> & E1 & E2)]; [reflexivity | discriminate| |].
      + left. exists (TPoll j Pending :: l'), j'. split; [reflexivity|]. cbn in *. lia.
      + right. exists (TPoll j Pending :: l'). split; [reflexivity|]. cbn in *. lia.
    - injection Ec as ->. left. exists [], j. split; [reflexivity|]. cbn. lia.
    - destruct IHattempting as [(l' & j' & -> & E1 & E2)|(l' & -> & E1 & E2)]; [reflexivity | discriminate| |].
      + left. exists (TPoll j (Ready (Er e0)) :: TDropFut j :: l'), j'. split; [reflexivity|]. cbn in *. lia.
      + right. exists (TPoll j (Ready (Er e0)) :: TDropFut j :: l'). split; [reflexivity|]. cbn in *. lia.
    - destruct IHattempting as [(l' & j' & -> & E1 & E2)|(l' & -> & E1 & E2)]; [reflexivity | discriminate| |].
      + left. exists (TReady i Pending :: l'), j'. split; [reflexivity|]. cbn in *. lia.
      + right. exists (TReady i Pending :: l'). split; [reflexivity|]. cbn in *. lia.
    - injection Ec as ->. right. exists []. split; [reflexivity|]. cbn. lia.
    - destruct IHattempting as [(l' & j' & -> & E1 & E2)|(l' & -> & E1 & E2)]; [reflexivity | discriminate| |].
      + left. exists (TReady i (Ready (Ok tt)) :: l'), j'. split; [reflexivity|]. cbn in *. lia.
      + right. exists (TReady i (Ready (Ok tt)) :: l'). split; [reflexivity|]. cbn in *. lia.
    - destruct IHattempting as [(l' & j' & -> & E1 & E2)|(l' & -> & E1 & E2)]; [reflexivity | discriminate| |].
      + left. exists (TCall i r j :: l'), j'. split; [reflexivity|]. cbn in *. lia.
      + right. exists (TCall i r j :: l'). split; [reflexivity|]. cbn in *. lia.
  Qed.
End AttemptsProof.

Section AttemptsFuel.
  Context {W Req Resp Err : Type} (svc : Service W Req Resp Err).
  Notation ap := (attempts (W := W) (Req := Req) (Resp := Resp) (Err := Err)).

  (** How often one poll can still go around. *)
  Definition rounds (f : retry_fut ap svc) : nat :=
    match rf_state f with
    | RCalled _ => S (3 * rf_pol f)
    | RWaiting _ => 3 + 3 * rf_pol f
    | RRetrying => 2 + 3 * rf_pol f
    end.

  Lemma iter_rounds (f : retry_fut ap svc) w :
    match retry_iter f w with
    | (w1, Val (inl f1)) => S (rounds f1) = rounds f
    | (w1, Val (inr (f1, _))) => rounds f1 <= rounds f
    | _ => True
    end.
  Proof.
    destruct f as [rq p s st0]. change (pst ap) with nat in p. unfold rounds, retry_iter, bind. cbn [rf_state rf_req rf_pol rf_svc].
    destruct st0 as [x|t|]; cbn.
    - destruct (poll_fut svc x w) as [w2 [[x1 [|[v|e]]]| |]]; cbn; auto.
      + destruct rq; cbn; lia.
      + destruct rq as [q|]; cbn; [|lia]. destruct p as [|p]; cbn; lia.
    - lia.
    - destruct (poll_ready svc s w) as [w2 [[s1 [|[[]|e]]]| |]]; cbn; auto.
      destruct rq as [q|]; cbn; auto. unfold bind. destruct (call svc s1 q w2) as [w3 [[s2 x]| |]]; cbn; auto.
  Qed.

  Lemma poll_rounds fuel (f : retry_fut ap svc) w :
    match retry_poll fuel f w with (_, Val (f1, _)) => rounds f1 <= rounds f | _ => True end.
  Proof.
    revert f w. induction fuel as [|n IH]; intros f w; cbn [retry_poll]; [exact I|].
    unfold bind. generalize (iter_rounds f w).
    destruct (retry_iter f w) as [w1 [[f1|[f1 a]]| |]]; cbn; auto.
    intros E. specialize (IH f1 w1). destruct (retry_poll n f1 w1) as [w2 [[f2 a]| |]]; auto. lia.
  Qed.

  Lemma poll_fuel n1 n2 (f : retry_fut ap svc) w :
    rounds f <= n1 -> rounds f <= n2 -> retry_poll n1 f w = retry_poll n2 f w.
  Proof.
    revert n2 f w. induction n1 as [|n1 IH]; intros n2 f w H1 H2.
    { exfalso. destruct f as [rq p s [x|t|]]; unfold rounds in H1; cbn in H1; lia. }
    destruct n2 as [|n2]. { exfalso. destruct f as [rq p s [x|t|]]; unfold rounds in H2; cbn in H2; lia. }
    cbn [retry_poll]. unfold bind. generalize (iter_rounds f w).
    destruct (retry_iter f w) as [w1 [[f1|[f1 a]]| |]]; cbn; auto.
    intros E. apply IH; lia.
  Qed.

  Lemma attempts_fuel n1 n2 n s r w w1 ps f gs :
    3 * n < n1 -> 3 * n < n2 ->
    call (retry ap svc n1) (n, s) r w = (w1, Val (ps, f)) ->
    drive (poll_fut (retry ap svc n1)) f w1 gs = drive (poll_fut (retry ap svc n2)) f w1 gs.
  Proof.
    intros H1 H2 Hc.
    assert (K : rounds f <= S (3 * n)).
    { revert Hc. cbn. unfold bind. cbn. destruct (call svc s r w) as [w3 [[s1 x]| |]]; try discriminate. cbn.
      destruct (clone svc s1 w3) as [w5 [s2| |]]; try discriminate. cbn. intros E. injection E as <- <- <-. cbn. lia. }
    clear Hc. revert f w1 K. induction gs as [|g gs IH]; intros f w1 K; [reflexivity|].
    cbn [drive]. change (poll_fut (retry ap svc n1) f) with (retry_poll n1 f).
    change (poll_fut (retry ap svc n2) f) with (retry_poll n2 f).
    rewrite (@poll_fuel n1 n2 f (g w1)) by lia.
    generalize (poll_rounds n2 f (g w1)).
    destruct (retry_poll n2 f (g w1)) as [w2 [[f2 [|a]]| |]]; auto.
    intros E. cbn. rewrite IH by lia. reflexivity.
  Qed.

  Lemma iter_returns (f : retry_fut ap svc) w :
    (forall s w, snd (poll_ready svc s w) <> Diverge) ->
    (forall s r w, snd (call svc s r w) <> Diverge) ->
    (forall x w, snd (poll_fut svc x w) <> Diverge) ->
    snd (retry_iter f w) <> Diverge.
  Proof.
    intros H1 H2 H3. destruct f as [rq p s st0]. change (pst ap) with nat in p. unfold retry_iter, bind. cbn [rf_state rf_req rf_pol rf_svc].
    destruct st0 as [x|t|]; cbn.
    - generalize (H3 x w). destruct (poll_fut svc x w) as [w2 [[x1 [|[v|e]]]| |]]; cbn; auto; try discriminate.
      + destruct rq; cbn; discriminate.
      + destruct rq as [q|]; cbn; [|discriminate]. destruct p as [|p]; cbn; discriminate.
    - discriminate.
    - generalize (H1 s w). destruct (poll_ready svc s w) as [w2 [[s1 [|[[]|e]]]| |]]; cbn; auto; try discriminate.
      destruct rq as [q|]; cbn; [|discriminate]. unfold bind. generalize (H2 s1 q w2).
      destruct (call svc s1 q w2) as [w3 [[s2 x]| |]]; cbn; auto; discriminate.
  Qed.

  Lemma attempts_returns fuel n s r w w1 ps f gs :
    (forall s w, snd (poll_ready svc s w) <> Diverge) ->
    (forall s r w, snd (call svc s r w) <> Diverge) ->
    (forall x w, snd (poll_fut svc x w) <> Diverge) ->
    3 * n < fuel -> call (retry ap svc fuel) (n, s) r w = (w1, Val (ps, f)) ->
    match snd (drive (poll_fut (retry ap svc fuel)) f w1 gs) with Spun _ => False | _ => True end.
  Proof.
    intros H1 H2 H3 Hf Hc.
    assert (K : rounds f <= S (3 * n)).
    { revert Hc. cbn. unfold bind. cbn. destruct (call svc s r w) as [w3 [[s1 x]| |]]; try discriminate. cbn.
      destruct (clone svc s1 w3) as [w5 [s2| |]]; try discriminate. cbn. intros E. injection E as <- <- <-. cbn. lia. }
    assert (P : forall k f0 w0, rounds f0 <= k -> snd (retry_poll k f0 w0) <> Diverge).
    { induction k as [|k IH]; intros f0 w0 Hk.
      { exfalso. destruct f0 as [rq p s0 [x|t|]]; unfold rounds in Hk; cbn in Hk; lia. }
      cbn [retry_poll]. unfold bind. generalize (iter_rounds f0 w0) (iter_returns f0 w0 H1 H2 H3).
      destruct (retry_iter f0 w0) as [w2 [[f1|[f1 a]]| |]]; cbn; auto; try discriminate.
      intros E _. apply IH. lia. }
    clear Hc. revert f w1 K. induction gs as [|g gs IH]; intros f w1 K; [exact I|].
    cbn [drive]. change (poll_fut (retry ap svc fuel) f) with (retry_poll fuel f).
    assert (Q : rounds f <= fuel) by lia.
    generalize (poll_rounds fuel f (g w1)) (P fuel f (g w1) Q).
    destruct (retry_poll fuel f (g w1)) as [w2 [[f2 [|a]]| |]]; cbn; auto.
    intros E _. specialize (IH f2 w2). 
    change (drive (retry_poll fuel) f2 w2 gs) with (drive (poll_fut (retry ap svc fuel)) f2 w2 gs).
    destruct (drive (poll_fut (retry ap svc fuel)) f2 w2 gs) as [ws en]. apply IH. lia.
  Qed.
End AttemptsFuel.

Lemma at_most : forall Req Resp Err i (r : Req) n j l (c : aphase Resp Err),
  attempting i r (Trying n j) l c ->
  how_many is_send l <= n /\ forall k q j', In (TCall k q j') l -> k = i /\ q = r.
Proof.
  intros Req Resp Err i r n j l c H. split; [exact (sends_le H)|]. intros k q j'. exact (fun X => same_request _ _ _ H X).
Qed.

Lemma a_response : forall Req Resp Err i (r : Req) n j l (v : Resp),
  attempting i r (Trying (Err := Err) n j) l (Over (Ok v)) ->
  exists l' j', l = l' ++ [TPoll j' (Ready (Ok v))] /\ how_many is_fail l' = how_many is_send l'.
Proof.
  intros Req Resp Err i r n j l v H. destruct (ok_means H) as (l' & j' & H1 & H2); [discriminate|].
  exists l', j'. split; [exact H1|]. lia.
Qed.

Lemma an_error : forall Req Resp Err i (r : Req) n j l (e : Err),
  attempting i r (Trying (Resp := Resp) n j) l (Over (Er e)) ->
  (exists l' j', l = l' ++ [TPoll j' (Ready (Er e))] /\ how_many is_send l = n /\ how_many is_fail l = S n) \/
  (exists l', l = l' ++ [TReady i (Ready (Er e))] /\ how_many is_send l < n /\
     how_many is_fail l = S (how_many is_send l)).
Proof.
  intros Req Resp Err i r n j l e H. destruct (er_means H) as [(l' & j' & H1 & H2 & H3)|(l' & H1 & H2 & H3)]; [discriminate| |].
  - left. exists l', j'. cbn in *. split; [exact H1|]. split; [exact H2|]. lia.
  - right. exists l'. cbn in *. split; [exact H1|]. split; [exact H3|]. lia.
Qed.

Lemma attempts_bounded : forall W Req Resp Err (calls : W -> nat) k (svc : Service W Req Resp Err) I fuel n,
  bounded calls k svc I -> bounded calls (k * S n) (retry attempts svc fuel) (fun s => fst s <= n /\ I (snd s)).
Proof.
  intros W Req Resp Err calls k svc I fuel n H.
  eapply (@bd_retry _ _ _ _ calls k svc I (attempts (W := W)) fuel n (fun p => p <= n) (fun p _ => p)).
  - exact H.
  - split; [intros t; apply still_ret | intros t w; reflexivity].
  - auto.
  - intros p r Hp w. cbn. split; [reflexivity |]. intros a E. injection E as <-. cbn. auto.
  - intros p r v Hp w. destruct v as [v|e]; [|destruct p as [|p]]; cbn; (split; [reflexivity |]);
      intros a E; injection E as <-; cbn; auto with arith.
  - intros p Hp w. cbn. split; [reflexivity |]. intros a E. injection E as <-. exact Hp.
Qed.
