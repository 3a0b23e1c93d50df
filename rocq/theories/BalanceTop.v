(** The Balance theorems. *)
From Verif Require Import Base Track ContractSpec Middleware ReadyCache CacheSpec CacheProof CacheHist CacheCons BalanceSpec BalanceProof.
Set Implicit Arguments.

Section Steps.
  Context {K Req Resp Err DErr Metric : Type} (keq : forall a b : K, {a = b} + {a <> b}).
  Context (le : Metric -> Metric -> bool).
  Notation bev := (@bev K Req Resp Err DErr Metric).
  Notation ev := (tev Req Resp Err).
  Notation idj := (fun e : ev => e).
  Notation inj := (@BIn K Req Resp Err DErr Metric).
  Notation inserted := (@inserted K Req Resp Err DErr Metric).
  Notation removed := (@removed K Req Resp Err DErr Metric).

  Definition ins (l : list bev) : list ev := flat_map (fun e => match e with BIn e => [e] | _ => [] end) l.
  Lemma ins_app l m : ins (l ++ m) = ins l ++ ins m.
  Proof. apply flat_map_app. Qed.
  Lemma ins_map l : ins (map inj l) = l.
  Proof. induction l as [|e l IH]; [reflexivity|]. exact (f_equal (cons e) IH). Qed.
  Lemma in_ins e l : In e (ins l) <-> In (inj e) l.
  Proof.
    unfold ins. rewrite in_flat_map. split.
    - intros ([e'| |] & H & E); cbn in E; try contradiction. destruct E as [<-|[]]. exact H.
    - intros H. exists (inj e). split; [exact H|left; reflexivity].
  Qed.

  Inductive bmv : slots K -> nat -> list bev -> option (K * nat) -> slots K -> nat -> Prop :=
  | bm_in a n l b m : mv keq a n l None b m -> bmv a n (map inj l) None b m
  | bm_ins a n k m : n < m -> bmv a n [inserted k n] (Some (k, n)) (pushed keq k n a) m
  | bm_rem a n k m : n <= m ->
      bmv a n (removed k :: map inj (map TDropSvc (opt_list (in_ready a k)))) None (evicted keq k a) m
  | bm_quiet a n u m : n <= m -> (forall c, u <> Ready (Some (Ok c))) -> bmv a n [BUpd u] None a m
  | bm_load a n i v m : n <= m -> bmv a n [BLoad i v] None a m.
  Inductive bmvs : slots K -> nat -> list bev -> list (K * nat) -> slots K -> nat -> Prop :=
  | bmvs_nil a n n1 : n <= n1 -> bmvs a n [] [] a n1
  | bmvs_cons a n l p b m l' ps c q :
      bmv a n l p b m -> bmvs b m l' ps c q -> bmvs a n (l ++ l') (ps ++ opt_list p) c q.

  Lemma bmv_mv a n l p b m : bmv a n l p b m -> mv keq a n (ins l) p b m.
  Proof.
    destruct 1 as [a n l b m H|a n k m H|a n k m H|a n u m H Hu|a n i v m H].
    - rewrite ins_map. exact H.
    - apply mv_push. exact H.
    - change (ins (removed k :: map inj (map TDropSvc (opt_list (in_ready a k)))))
        with (ins (map inj (map TDropSvc (opt_list (in_ready a k))))). rewrite ins_map. apply mv_evict. exact H.
    - apply mv_idle. exact H.
    - apply mv_idle. exact H.
  Qed.
  Lemma bmvs_mvs a n l p b m : bmvs a n l p b m -> mvs keq a n (ins l) p b m.
  Proof.
    induction 1 as [|? ? ? ? ? ? ? ? ? ? H _ IH]; [constructor; assumption|]. rewrite ins_app.
    econstructor; [apply bmv_mv; exact H|exact IH].
  Qed.
  Lemma bmvs_pre a n n1 l p b m : n <= n1 -> bmvs a n1 l p b m -> bmvs a n l p b m.
  Proof.
    intros L H. change l with (map inj [] ++ l). replace p with (p ++ opt_list (@None (K * nat))) by apply app_nil_r.
    econstructor; [apply bm_in; apply mv_idle; exact L|exact H].
  Qed.
  Lemma bmvs_app a n l p b m l' p' c q : bmvs a n l p b m -> bmvs b m l' p' c q -> bmvs a n (l ++ l') (p' ++ p) c q.
  Proof.
    induction 1 as [? ? ? L|? ? ? ? ? ? ? ? ? ? H _ IH]; intros H2.
    - cbn. rewrite app_nil_r. eapply bmvs_pre; eauto.
    - rewrite <- (app_assoc l), (app_assoc p'). econstructor; eauto.
  Qed.
  Lemma bmvs_one a n l p b m : bmv a n l p b m -> bmvs a n l (opt_list p) b m.
  Proof.
    intros H. rewrite <- (app_nil_r l). change (opt_list p) with ([] ++ opt_list p).
    econstructor; [exact H|]. constructor. lia.
  Qed.
  Lemma bmvs_mvs1 a n l b m : mvs keq a n l [] b m -> bmvs a n (map inj l) [] b m.
  Proof.
    intros H. remember [] as ps eqn:E. induction H as [|a n l p b m l' ps c q H H2 IH]; [constructor; assumption|].
    apply app_eq_nil in E as [-> E]. destruct p; [discriminate|]. rewrite map_app.
    change (@nil (K * nat)) with (@nil (K * nat) ++ opt_list None).
    econstructor; [apply bm_in; exact H|apply IH; reflexivity].
  Qed.

  Lemma bmvs_split a n l ps c q : bmvs a n l ps c q -> forall l1 e l2, l = l1 ++ e :: l2 ->
    exists lx psx a' n' ly lz p b' m' lw psw,
      bmvs a n lx psx a' n' /\ bmv a' n' (ly ++ e :: lz) p b' m' /\ bmvs b' m' lw psw c q /\
      l1 = lx ++ ly /\ l2 = lz ++ lw /\ ps = psw ++ opt_list p ++ psx.
  Proof.
    induction 1 as [? ? ? L|a n l p b m l' ps c q H H2 IH]; intros l1 e l2 E.
    { destruct l1; discriminate. }
    assert (X : (exists l3, l = l1 ++ e :: l3 /\ l2 = l3 ++ l') \/ (exists l3, l1 = l ++ l3 /\ l' = l3 ++ e :: l2)).
    { clear - E. revert l1 E. induction l as [|y l IH]; intros l1 E; cbn in E.
      - right. exists l1. auto.
      - destruct l1 as [|z l1]; cbn in E; injection E as -> E.
        + left. exists l. auto.
        + destruct (IH _ E) as [(l3 & -> & ->)|(l3 & -> & ->)]; [left|right]; exists l3; auto. }
    destruct X as [(l3 & -> & ->)|(l3 & -> & ->)].
    - exists [], [], a, n, l1, l3, p, b, m, l', ps. split; [constructor; lia|]. split; [exact H|]. split; [exact H2|].
      split; [reflexivity|]. split; [reflexivity|]. rewrite app_nil_r. reflexivity.
    - destruct (IH _ _ _ eq_refl) as (lx & psx & a' & n' & ly & lz & p' & b' & m' & lw & psw & B1 & B2 & B3 & -> & -> & ->).
      exists (l ++ lx), (psx ++ opt_list p), a', n', ly, lz, p', b', m', lw, psw.
      split; [econstructor; eauto|]. split; [exact B2|]. split; [exact B3|]. rewrite !app_assoc. auto.
  Qed.

  Lemma bmvs_pushed a n l ps b m : bmvs a n l ps b m -> forall k i, In (k, i) ps <-> In (inserted k i) l.
  Proof.
    induction 1 as [|? ? ? ? ? ? ? ? ? ? H _ IH]; intros k i; [reflexivity|].
    rewrite !in_app_iff, IH.
    assert (X : In (k, i) (opt_list p) <-> In (inserted k i) l).
    { destruct H as [a n l b m H|a n k0 m H|a n k0 m H|a n u m H Hu|a n j v m H]; cbn.
      - split; [tauto|]. intros H0. apply in_map_iff in H0 as (e & E & _). discriminate.
      - split; intros [E|[]]; left; injection E as -> ->; reflexivity.
      - split; [tauto|]. intros [E|E]; [discriminate|]. apply in_map_iff in E as (e & E & _). discriminate.
      - split; [tauto|]. intros [E|[]]. injection E as ->. eapply Hu. reflexivity.
      - split; [tauto|]. intros [E|[]]. discriminate. }
    rewrite X. tauto.
  Qed.

  (** The phases of [poll_ready] are such steps. *)
  Lemma pps_inj a l b : pp_steps keq inj a l b -> exists l', l = map inj l' /\ pp_steps keq idj a l' b.
  Proof.
    induction 1 as [a|a l b m c H _ (m' & -> & IH)]; [exists []; split; [reflexivity|constructor]|].
    assert (X : exists l', l = map inj l' /\ pp_step keq idj a l' b).
    { destruct H as [a k i Hp|a k i Hp|a i l1 l2 E].
      - exists [TReady i Pending]. split; [reflexivity|exact (pp_wait keq idj a k Hp)].
      - exists (TReady i (Ready (Ok tt)) :: map TDropSvc (opt_list (in_ready a k))). split; [|exact (pp_ready keq idj a k Hp)].
        cbn. rewrite map_map. reflexivity.
      - exists [TDropSvc i]. split; [reflexivity|exact (pp_gone keq idj a i l1 l2 E)]. }
    destruct X as (l' & -> & X). exists (l' ++ m'). split; [rewrite map_app; reflexivity|eapply pps_cons; eauto].
  Qed.
  Lemma pp_bmvs a l p b n : pp_answer keq inj a l p b -> bmvs a n l [] b n.
  Proof.
    intros H. inversion H as [? ? ? S N|? ? ? S N|? l0 b0 k i e S N]; subst; apply pps_inj in S as (l' & -> & S).
    - apply bmvs_mvs1. apply pp_mvs. exact S.
    - apply bmvs_mvs1. apply pp_mvs. exact S.
    - change [inj (TReady i (Ready (Er e))); inj (TDropSvc i)] with (map inj [TReady i (Ready (Er e)); TDropSvc i]).
      rewrite <- map_app. apply bmvs_mvs1. change (@nil (K * nat)) with (@opt_list (K * nat) None ++ []).
      eapply mvs_app; [apply pp_mvs; exact S|]. apply mvs_one. apply mv_fail; [lia|exact N].
  Qed.
  Lemma promotes_bmvs a l b n : promotes keq a l b -> bmvs a n l [] b n.
  Proof.
    induction 1 as [a l p b H _|a l x b m c H _ IH]; [eapply pp_bmvs; eauto|].
    change (@nil (K * nat)) with (@nil (K * nat) ++ []). eapply bmvs_app; [eapply pp_bmvs; eauto|exact IH].
  Qed.
  Lemma check_bmvs a k l v b n : check_answer keq inj a k l v b -> bmvs a n l [] b n.
  Proof.
    intros H. change (@nil (K * nat)) with (@opt_list (K * nat) None).
    assert (X : exists l', l = map inj l' /\ check_answer keq idj a k l' v b).
    { destruct H as [a k Hr|a k i Hr|a k i Hr|a k i e Hr].
      - exists []. split; [reflexivity|exact (ck_absent keq idj a k Hr)].
      - exists [TReady i (Ready (Ok tt))]. split; [reflexivity|exact (ck_ready keq idj a k Hr)].
      - exists (TReady i Pending :: dropped_aside idj k i a). split; [|exact (ck_unready keq idj a k Hr)].
        unfold dropped_aside. destruct (in_pend a k); reflexivity.
      - exists [TReady i (Ready (Er e)); TDropSvc i]. split; [reflexivity|exact (ck_failed keq idj a k e Hr)]. }
    destruct X as (l' & -> & X). apply bmvs_one, bm_in. eapply mv_check; [lia|exact X].
  Qed.
  Lemma call_bmvs a k r l j b n m : n <= m -> call_answer keq inj a k r l j b -> bmvs a n l [] b m.
  Proof.
    intros L H. inversion H as [? ? ? i ? Hr]; subst. change (@nil (K * nat)) with (@opt_list (K * nat) None).
    replace (inj (TCall i r j) :: dropped_aside inj k i a) with (map inj (TCall i r j :: dropped_aside idj k i a)).
    - apply bmvs_one, bm_in. eapply mv_call; [exact L|]. exact (cl_called keq idj a k r j Hr).
    - unfold dropped_aside. destruct (in_pend a k); reflexivity.
  Qed.
  Lemma picks_bmvs a l k i n : picks le a l k i -> bmvs a n l [] a n.
  Proof.
    assert (X : forall i m i' m', bmvs a n [BLoad i m; BLoad i' m'] [] a n).
    { intros j m j' m'. change (@nil (K * nat)) with ((@opt_list (K * nat) None) ++ @opt_list (K * nat) None).
      change [BLoad j m; BLoad j' m'] with ([BLoad j m] ++ [BLoad j' m'] : list bev).
      eapply bmvs_cons; [apply bm_load, le_n|]. apply bmvs_one. apply bm_load, le_n. }
    destruct 1; [constructor; lia|apply X|apply X].
  Qed.
  Lemma chooses_bmvs a l o b n : chooses keq le a l o b -> bmvs a n l [] b n.
  Proof.
    induction 1 as [a|a l k i lc b HP HC|a l k i lc v b m o c HP HC Hv _ IH].
    - constructor. lia.
    - change (@nil (K * nat)) with (@nil (K * nat) ++ []). eapply bmvs_app; [eapply picks_bmvs; eauto|eapply check_bmvs; eauto].
    - change (@nil (K * nat)) with (@nil (K * nat) ++ []). eapply bmvs_app; [eapply picks_bmvs; eauto|].
      change (@nil (K * nat)) with (@nil (K * nat) ++ []). eapply bmvs_app; [eapply check_bmvs; eauto|exact IH].
  Qed.
  Lemma news_bmvs a n l r b m : news keq a n l r b m -> exists ps, bmvs a n l ps b m.
  Proof.
    induction 1 as [a n|a n|a n e|a n k l r b m _ (ps & IH)|a n k l r b m _ (ps & IH)].
    - exists []. change (@nil (K * nat)) with (@opt_list (K * nat) None). apply bmvs_one, bm_quiet; [lia|discriminate].
    - exists []. change (@nil (K * nat)) with (@opt_list (K * nat) None). apply bmvs_one, bm_quiet; [lia|discriminate].
    - exists []. change (@nil (K * nat)) with (@opt_list (K * nat) None). apply bmvs_one, bm_quiet; [lia|discriminate].
    - eexists. change (BUpd (Ready (Some (Ok (Insert k n)))) :: l) with ([inserted k n] ++ l).
      eapply bmvs_cons; [apply bm_ins, le_n|exact IH].
    - eexists. rewrite app_comm_cons. eapply bmvs_cons; [|exact IH].
      replace (map (fun i => inj (TDropSvc i)) (opt_list (in_ready a k))) with (map inj (map TDropSvc (opt_list (in_ready a k)))) by apply map_map.
      apply bm_rem. lia.
  Qed.
  Lemma polls_bmvs a n held l p o b m : polls keq le a n held l p o b m -> exists ps, bmvs a n l ps b m.
  Proof.
    destruct 1 as [a n held l e b m HN|a n held ln b m lp c lc o d HN HP HC|a n h ln b m lp c k i lc d HN HP Hr HC|a n h ln b m lp c k lr v d lc o e HN HP HC Hv HH];
      destruct (news_bmvs HN) as (ps & HN'); exists ps; auto;
      change ps with ([] ++ ps); (eapply bmvs_app; [exact HN'|]);
      change (@nil (K * nat)) with (@nil (K * nat) ++ []); (eapply bmvs_app; [apply promotes_bmvs; eassumption|]).
    - eapply chooses_bmvs; eauto.
    - eapply check_bmvs; eauto.
    - change (@nil (K * nat)) with (@nil (K * nat) ++ []). eapply bmvs_app; [eapply check_bmvs; eauto|eapply chooses_bmvs; eauto].
  Qed.

  (** ** Using an endpoint *)
  Lemma above_mvs a n (l : list ev) ps b m own k th :
    mvs keq a n l ps b m -> WF a n own -> th <= n -> above k th a -> above k th b.
  Proof.
    intros H. revert own. induction H as [? ? ? L|? ? ? ? ? ? ? ? ? ? H _ IH]; intros own HW Ht Ha; [exact Ha|].
    assert (L := mv_le H). eapply (IH _ (WF_mv H HW)); [lia|]. eapply above_mv; eauto.
  Qed.

  (** The step in which an endpoint is used. *)
  Lemma use_step a n ly e lz p b m i : bmv a n (ly ++ inj e :: lz) p b m -> uses i e = true ->
    ly = [] /\ p = None /\ (forall f j, In (inj f) lz -> uses j f = false) /\
    exists lz', lz = map inj lz' /\ mv keq a n (e :: lz') None b m.
  Proof.
    intros H Hu. remember (ly ++ inj e :: lz) as LL eqn:E.
    destruct H as [a n l b m M|a n k m L|a n k m L|a n u m L Hq|a n j v m L].
    - assert (X : exists ly' lz', ly = map inj ly' /\ lz = map inj lz' /\ l = ly' ++ e :: lz').
      { clear - E. revert ly E. induction l as [|y l IH]; intros [|z ly] E; cbn in E; try discriminate.
        - injection E as E1 E2. exists [], l. subst. auto.
        - injection E as E1 E2. destruct (IH _ E2) as (ly' & lz' & -> & -> & ->). exists (y :: ly'), lz'. subst. auto. }
      destruct X as (ly' & lz' & -> & -> & ->). destruct (use_first _ _ _ _ M Hu) as [-> Hz].
      split; [reflexivity|]. split; [reflexivity|]. split.
      + intros f j Hf. apply Hz. apply in_map_iff in Hf as (f' & Ef & Hf). injection Ef as ->. exact Hf.
      + exists lz'. auto.
    - destruct ly as [|? ly]; [discriminate|]. injection E as _ E. destruct ly; discriminate.
    - exfalso. destruct ly as [|? ly]; [discriminate|]. injection E as _ E.
      assert (X : In (inj e) (map inj (map TDropSvc (opt_list (in_ready a k))))) by (rewrite E; apply in_or_app; right; left; reflexivity).
      apply in_map_iff in X as (f & Ef & X). injection Ef as ->. apply in_map_iff in X as (q & <- & _). discriminate.
    - destruct ly as [|? ly]; [discriminate|]. injection E as _ E. destruct ly; discriminate.
    - destruct ly as [|? ly]; [discriminate|]. injection E as _ E. destruct ly; discriminate.
  Qed.

  Lemma upd_step a n ly u lz p b m : bmv a n (ly ++ BUpd u :: lz) p b m ->
    ly = [] /\
    match u with
    | Ready (Some (Ok (Insert k i))) => lz = [] /\ p = Some (k, i) /\ i = n /\ n < m /\ b = pushed keq k i a
    | Ready (Some (Ok (Remove k))) => p = None /\ b = evicted keq k a
    | _ => True
    end.
  Proof.
    intros H. remember (ly ++ BUpd u :: lz) as LL eqn:E.
    destruct H as [a n l b m M|a n k m L|a n k m L|a n u0 m L Hq|a n j v m L].
    - exfalso. assert (X : In (BUpd u) (map inj l)) by (rewrite E; apply in_or_app; right; left; reflexivity).
      apply in_map_iff in X as (f & Ef & X). discriminate.
    - destruct ly as [|? ly]; [|injection E as _ E; destruct ly; discriminate]. injection E as <- <-. auto 10.
    - destruct ly as [|? ly].
      + injection E as <- _. auto.
      + exfalso. injection E as _ E. assert (X : In (BUpd u) (map inj (map TDropSvc (opt_list (in_ready a k))))) by (rewrite E; apply in_or_app; right; left; reflexivity).
        apply in_map_iff in X as (f & Ef & X). discriminate.
    - destruct ly as [|? ly]; [|injection E as _ E; destruct ly; discriminate]. injection E as <- <-. split; [reflexivity|].
      destruct u0 as [|[[c|]|]]; auto. exfalso. eapply Hq. reflexivity.
    - destruct ly as [|? ly]; [discriminate|injection E as _ E; destruct ly; discriminate].
  Qed.

  (** An endpoint used was announced, and neither removed since nor replaced by one that became ready. *)
  Lemma used_ok n L ps b m l1 e l2 i :
    bmvs slots0 n L ps b m -> L = l1 ++ inj e :: l2 -> uses i e = true ->
    exists k u v, l1 = u ++ inserted k i :: v /\ ~ In (removed k) v /\
      forall i', In (inserted k i') v -> ~ In (inj (TReady i' (Ready (Ok tt)))) v.
  Proof.
    intros H E Hu.
    destruct (bmvs_split H _ _ _ E) as (lx & psx & a' & n' & ly & lz & p & b' & m' & lw & psw & B1 & B2 & B3 & B4 & B5 & B6).
    destruct (@use_step _ _ _ _ _ _ _ _ _ B2 Hu) as (-> & -> & _ & lz' & _ & M). rewrite app_nil_r in B4. subst l1.
    assert (HW := WF_mvs (bmvs_mvs B1) (WF_new n)). rewrite app_nil_r in HW.
    destruct (use_slot M _ _ (or_introl eq_refl) Hu) as (k & Hk).
    assert (Hin : In (k, i) psx) by (destruct Hk as [Hk|Hk]; [apply (w_ready HW), Hk|apply (w_pend HW), Hk]).
    assert (Hin' := Hin). apply (bmvs_pushed B1) in Hin'. apply in_split in Hin' as (u & v & Euv).
    exists k, u, v. split; [exact Euv|].
    destruct (bmvs_split B1 _ _ _ Euv) as (lx1 & psx1 & a1 & n1 & ly1 & lz1 & p1 & b1 & m1 & lw1 & psw1 & C1 & C2 & C3 & C4 & C5 & C6).
    destruct (@upd_step _ _ _ _ _ _ _ _ C2) as (-> & -> & -> & -> & L1 & ->). cbn in C5. subst lw1.
    assert (HW1 := WF_mvs (bmvs_mvs C1) (WF_new n)). rewrite app_nil_r in HW1.
    assert (HW2 := WF_mv (bmv_mv C2) HW1). cbn [opt_cons] in HW2.
    split.
    - intros Hr. apply in_split in Hr as (v1 & v2 & Ev).
      destruct (bmvs_split C3 _ _ _ Ev) as (lx2 & psx2 & a2 & n2 & ly2 & lz2 & p2 & b2 & m2 & lw2 & psw2 & D1 & D2 & D3 & _).
      destruct (@upd_step _ _ _ _ _ _ _ _ D2) as (-> & -> & ->).
      assert (HW3 := WF_mvs (bmvs_mvs D1) HW2). assert (L2 := mvs_le (bmvs_mvs D1)).
      assert (L3 := mv_le (bmv_mv D2)).
      assert (AB : above k n2 a').
      { eapply above_mvs; [exact (bmvs_mvs D3)|exact (WF_mv (bmv_mv D2) HW3)|exact L3|]. apply evict_above. }
      apply AB in Hk. lia.
    - intros i' Hi' Hr. apply in_split in Hr as (v1 & v2 & Ev).
      destruct (bmvs_split C3 _ _ _ Ev) as (lx2 & psx2 & a2 & n2 & ly2 & lz2 & p2 & b2 & m2 & lw2 & psw2 & D1 & D2 & D3 & _ & _ & D6).
      assert (Hu' : @uses Req Resp Err i' (TReady i' (Ready (Ok tt))) = true) by (cbn; apply Nat.eqb_refl).
      destruct (@use_step _ _ _ _ _ _ _ _ _ D2 Hu') as (-> & -> & _ & lz2' & _ & M2).
      assert (HW3 := WF_mvs (bmvs_mvs D1) HW2).
      apply (bmvs_pushed C3) in Hi'. assert (Li := pushed_late (bmvs_mvs C3) _ _ Hi').
      assert (Ho : In (k, i') (psx2 ++ (k, n1) :: psx1)).
      { destruct (use_slot M2 _ i' (or_introl eq_refl) Hu') as (k' & Hk').
        assert (Hk2 : In (k', i') (psx2 ++ (k, n1) :: psx1)) by (destruct Hk' as [Hk'|Hk']; [apply (w_ready HW3), Hk'|apply (w_pend HW3), Hk']).
        assert (k' = k) as ->; [|exact Hk2].
        apply (w_fun HW) with i'.
        - rewrite C6, D6. rewrite !in_app_iff in *. cbn in *. tauto.
        - rewrite C6. rewrite !in_app_iff. tauto. }
      assert (L3 := mv_le (bmv_mv D2)).
      assert (AB : above k i' a').
      { eapply above_mvs; [exact (bmvs_mvs D3)|exact (WF_mv (bmv_mv D2) HW3)| |].
        - assert (X := w_lt HW3 _ _ Ho). lia.
        - eapply (@ready_above _ _ _ _ keq a2 n2 [] lz2' None b2 m2); [exact M2|exact HW3|exact Ho]. }
      apply AB in Hk. lia.
  Qed.

  (** An endpoint superseded by a newer announcement serves at most one more request, unless a newer one fails. *)
  Lemma superseded_once n L ps b m l1 i r j l2 k i' :
    bmvs slots0 n L ps b m -> L = l1 ++ inj (TCall i r j) :: l2 ->
    In (inserted k i) l1 -> In (inserted k i') l1 -> i < i' ->
    (forall e, In (inj e) l2 -> uses i e = false) \/
    exists q x, i < q /\ In (inserted k q) l1 /\ In (inj (TReady q (Ready (Er x)))) l1.
  Proof.
    intros H E Hi Hi' Hlt.
    destruct (bmvs_split H _ _ _ E) as (lx & psx & a' & n' & ly & lz & p & b' & m' & lw & psw & B1 & B2 & B3 & B4 & B5 & B6).
    assert (Hu : @uses Req Resp Err i (TCall i r j) = true) by (cbn; apply Nat.eqb_refl).
    destruct (@use_step _ _ _ _ _ _ _ _ _ B2 Hu) as (-> & -> & Hz & lz' & Ez & M). rewrite app_nil_r in B4. subst l1.
    apply (bmvs_pushed B1) in Hi, Hi'.
    assert (HW := WF_mvs (bmvs_mvs B1) (WF_new n)).
    destruct (pushed_superseded k i' (bmvs_mvs B1) (WF_new n) Hi') as [S|(q & x & Q1 & Q2 & Q3)].
    2:{ right. exists q, x. rewrite app_nil_r in Q2. split; [lia|]. split; [apply (bmvs_pushed B1); exact Q2|apply in_ins; exact Q3]. }
    left. rewrite app_nil_r in HW. intros e He. rewrite B5 in He. apply in_app_or in He as [He|He]; [eapply Hz; exact He|].
    assert (AB : above k i' b').
    { eapply (@call_above _ _ _ _ keq a' n' [] lz' None b' m'); [exact M|exact HW|exact Hi|exact Hlt|exact S]. }
    assert (HW2 := WF_mv M HW). cbn in HW2. apply in_ins in He.
    assert (Ln := w_lt HW _ _ Hi'). assert (Lm := mv_le M).
    refine (above_for_ever (k := k) (th := i') (bmvs_mvs B3) HW2 _ AB Hi Hlt _ He). lia.
  Qed.

  (** Every call follows at once the answer of that endpoint that it is ready. *)
  Definition call_follows (l : list bev) : Prop :=
    forall l2 i r j l1, l = l2 ++ inj (TCall i r j) :: l1 -> exists l0, l1 = inj (TReady i (Ready (Ok tt))) :: l0.
  Definition no_call (l : list bev) : Prop := forall i r j, ~ In (inj (TCall i r j)) l.

  Lemma app_cases A (l m : list A) l2 e l1 : l ++ m = l2 ++ e :: l1 ->
    (exists u, l = l2 ++ e :: u /\ l1 = u ++ m) \/ (exists u, l2 = l ++ u /\ m = u ++ e :: l1).
  Proof.
    revert l. induction l2 as [|z l2 IH]; intros l E.
    - destruct l as [|y l]; cbn in E.
      + right. exists []. auto.
      + left. exists l. injection E as E1 E2. subst. auto.
    - destruct l as [|y l]; cbn in E.
      + right. exists (z :: l2). auto.
      + injection E as E1 E2. destruct (IH _ E2) as [(u & F1 & F2)|(u & F1 & F2)]; [left|right]; exists u; subst; auto.
  Qed.

  Lemma follows_app l m : no_call l -> call_follows m -> call_follows (l ++ m).
  Proof.
    intros Hn Hm l2 i r j l1 E. apply app_cases in E as [(u & -> & ->)|(u & -> & E)].
    - exfalso. apply (Hn i r j). apply in_or_app. right. left. reflexivity.
    - eapply Hm. exact E.
  Qed.
  Lemma no_call_app l m : no_call l -> no_call m -> no_call (l ++ m).
  Proof. intros A B i r j C. apply in_app_or in C as [C|C]; [eapply A|eapply B]; exact C. Qed.
  Lemma no_call_rev l : no_call l -> no_call (rev l).
  Proof. intros A i r j C. apply in_rev in C. eapply A. exact C. Qed.
  Lemma no_call_drops f (l : list nat) : (forall i, f i = inj (TDropSvc i)) -> no_call (map f l).
  Proof. intros Hf i r j C. apply in_map_iff in C as (q & E & _). rewrite Hf in E. discriminate. Qed.
  Lemma no_call_aside k i (a : slots K) : no_call (dropped_aside inj k i a).
  Proof. unfold dropped_aside. destruct (in_pend a k); intros j r q C; cbn in C; [destruct C as [C|[]]; discriminate|exact C]. Qed.

  Lemma check_no_call a k l v b : check_answer keq inj a k l v b -> no_call l.
  Proof.
    destruct 1; intros j r q C; cbn in C; try (destruct C as [C|C]; [discriminate|]);
      try contradiction; try (destruct C as [C|[]]; discriminate).
    eapply no_call_aside; exact C.
  Qed.
  Lemma picks_no_call a l k i : picks le a l k i -> no_call l.
  Proof. destruct 1; intros j r q C; cbn in C; repeat destruct C as [C|C]; try discriminate; contradiction. Qed.
  Lemma chooses_no_call a l o b : chooses keq le a l o b -> no_call l.
  Proof.
    induction 1 as [a|a l k i lc b HP HC|a l k i lc v b m o c HP HC Hv _ IH]; [intros ? ? ? []| |];
      repeat apply no_call_app; eauto using picks_no_call, check_no_call.
  Qed.
  Lemma pps_no_call a l b : pp_steps keq inj a l b -> no_call l.
  Proof.
    induction 1 as [a|a l b m c H _ IH]; [intros ? ? ? []|]. apply no_call_app; [|exact IH].
    destruct H as [a k i Hp|a k i Hp|a i l1 l2 E]; intros j r q C; cbn in C; (destruct C as [C|C]; [discriminate|]); try contradiction.
    eapply no_call_drops; [|exact C]. reflexivity.
  Qed.
  Lemma pp_no_call a l p b : pp_answer keq inj a l p b -> no_call l.
  Proof.
    destruct 1 as [a l b S N|a l b S N|a l b k i e S N]; apply pps_no_call in S; auto.
    apply no_call_app; [exact S|]. intros j r q C. cbn in C. repeat destruct C as [C|C]; try discriminate; contradiction.
  Qed.
  Lemma promotes_no_call a l b : promotes keq a l b -> no_call l.
  Proof. induction 1; [eapply pp_no_call; eauto|]. apply no_call_app; [eapply pp_no_call; eauto|assumption]. Qed.
  Lemma news_no_call a n l r b m : news keq a n l r b m -> no_call l.
  Proof.
    induction 1 as [a n|a n|a n e|a n k l r b m _ IH|a n k l r b m _ IH]; intros j q x C; cbn in C;
      (destruct C as [C|C]; [discriminate|]); try contradiction; [eapply IH; exact C|].
    apply in_app_or in C as [C|C]; [|eapply IH; exact C]. eapply no_call_drops; [|exact C]. reflexivity.
  Qed.

  Lemma check_true a k i l b : in_ready a k = Some i -> check_answer keq inj a k l (Ok true) b -> l = [inj (TReady i (Ready (Ok tt)))].
  Proof. intros H C. inversion C; congruence. Qed.
  Lemma picks_ready a (l : list bev) k i : picks le a l k i -> in_ready a k = Some i.
  Proof. destruct 1; assumption. Qed.
  Lemma chooses_last a (l : list bev) o b : chooses keq le a l o b ->
    match o with Some i => exists l', l = l' ++ [inj (TReady i (Ready (Ok tt)))] | None => True end.
  Proof.
    induction 1 as [a|a l k i lc b HP HC|a l k i lc v b m o c HP HC Hv _ IH]; auto.
    - exists l. rewrite (check_true (picks_ready HP) HC). reflexivity.
    - destruct o; [|exact I]. destruct IH as (l' & ->). exists (l ++ lc ++ l'). rewrite !app_assoc. reflexivity.
  Qed.

  Lemma polls_follow a n held (l : list bev) p o b m : polls keq le a n held l p o b m ->
    no_call l /\ match o with Some i => exists l', l = l' ++ [inj (TReady i (Ready (Ok tt)))] | None => True end.
  Proof.
    destruct 1 as [a n held l e b m HN|a n held ln b m lp c lc o d HN HP HC|a n h ln b m lp c k i lc d HN HP Hr HC|a n h ln b m lp c k lr v d lc o e HN HP HC Hv HH].
    - split; [eapply news_no_call; eauto|exact I].
    - split; [repeat apply no_call_app; eauto using news_no_call, promotes_no_call, chooses_no_call|].
      apply chooses_last in HC. destruct o; [|exact I]. destruct HC as (l' & ->). exists (ln ++ lp ++ l'). rewrite !app_assoc. reflexivity.
    - split; [repeat apply no_call_app; eauto using news_no_call, promotes_no_call, check_no_call|].
      rewrite (check_true Hr HC). exists (ln ++ lp). rewrite !app_assoc. reflexivity.
    - split; [repeat apply no_call_app; eauto using news_no_call, promotes_no_call, chooses_no_call, check_no_call|].
      apply chooses_last in HH. destruct o; [|exact I]. destruct HH as (l' & ->). exists (ln ++ lp ++ lr ++ l'). rewrite !app_assoc. reflexivity.
  Qed.
End Steps.
