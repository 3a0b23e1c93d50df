(** Proofs for ReadyCache: every operation refines the two-slots-per-key
    specification of CacheSpec.v. *)
From Coq Require Import Permutation.
From Verif Require Import Base Track Middleware ReadyCache CacheSpec.
Set Implicit Arguments.

(** ** IndexMap *)
Section IM.
  Context {K V : Type} (keq : forall a b : K, {a = b} + {a <> b}).

  Lemma im_find_some (m : list (K * V)) k n v :
    im_find keq k m = Some (n, v) -> nth_error m n = Some (k, v).
  Proof.
    revert n. induction m as [|[k1 v1] m IH]; cbn; intros n H; [discriminate|].
    destruct (keq k1 k) as [->|Hk].
    - injection H as <- <-. reflexivity.
    - destruct (im_find keq k m) as [[j v2]|]; [|discriminate]. injection H as <- <-. cbn. auto.
  Qed.
  Lemma im_find_none (m : list (K * V)) k : im_find keq k m = None -> ~ In k (map fst m).
  Proof.
    induction m as [|[k1 v1] m IH]; cbn; intros H; [tauto|].
    destruct (keq k1 k) as [->|Hk]; [discriminate|].
    destruct (im_find keq k m) as [[j v2]|]; [discriminate|]. intros [E|E]; [congruence|tauto].
  Qed.
  Lemma im_find_in (m : list (K * V)) k v : NoDup (map fst m) -> In (k, v) m -> exists n, im_find keq k m = Some (n, v).
  Proof.
    intros ND Hi. destruct (im_find keq k m) as [[n v1]|] eqn:E.
    - apply im_find_some in E. apply nth_error_In in E.
      assert (v1 = v) as ->; [|eauto].
      revert ND Hi E. clear. induction m as [|[k1 x] m IH]; cbn; [tauto|]. intros ND [A|A] [B|B].
      + congruence.
      + inversion ND; subst. injection A as -> ->. exfalso. apply H1. apply (in_map fst) in B. exact B.
      + inversion ND; subst. injection B as -> ->. exfalso. apply H1. apply (in_map fst) in A. exact A.
      + inversion ND; subst. auto.
    - exfalso. apply (im_find_none _ _ E). apply (in_map fst) in Hi. exact Hi.
  Qed.

  Lemma im_insert_spec (m : list (K * V)) k v :
    match im_insert keq k v m with
    | (m1, None) => ~ In k (map fst m) /\ m1 = m ++ [(k, v)]
    | (m1, Some v0) => exists a b, m = a ++ (k, v0) :: b /\ m1 = a ++ (k, v) :: b
    end.
  Proof.
    induction m as [|[k1 v1] m IH]; cbn; [split; [tauto|reflexivity]|].
    destruct (keq k1 k) as [->|Hk].
    - exists [], m. split; reflexivity.
    - destruct (im_insert keq k v m) as [m1 [v0|]].
      + destruct IH as (a & b & -> & ->). exists ((k1, v1) :: a), b. split; reflexivity.
      + destruct IH as [H ->]. split; [|reflexivity]. intros [E|E]; [congruence|tauto].
  Qed.
End IM.

Lemma nth_error_split' A (l : list A) n x : nth_error l n = Some x ->
  exists a b, l = a ++ x :: b /\ length a = n.
Proof. apply nth_error_split. Qed.

Lemma set_nth_split A (a b : list A) x y : set_nth (length a) y (a ++ x :: b) = a ++ y :: b.
Proof. induction a as [|z a IH]; cbn; [reflexivity|]. now rewrite IH. Qed.

Lemma removelast_app1 A (l : list A) x : removelast (l ++ [x]) = l.
Proof. rewrite removelast_app by discriminate. cbn. apply app_nil_r. Qed.

Lemma swap_remove_spec A (m : list A) n :
  match swap_remove n m with
  | Some (x, m1) => nth_error m n = Some x /\ Permutation m (x :: m1)
  | None => nth_error m n = None
  end.
Proof.
  unfold swap_remove. destruct (nth_error m n) as [x|] eqn:E; [|reflexivity].
  destruct (nth_error_split' _ _ E) as (a & b & -> & <-).
  destruct (rev (a ++ x :: b)) as [|z r] eqn:Er.
  { apply (f_equal (@rev A)) in Er. rewrite rev_involutive in Er. destruct a; discriminate. }
  split; [reflexivity|].
  assert (Hm : a ++ x :: b = rev r ++ [z]) by (apply (f_equal (@rev A)) in Er; rewrite rev_involutive in Er; exact Er).
  rewrite Hm, removelast_app1.
  destruct (S (length a) =? length (rev r ++ [z])) eqn:El.
  - apply Nat.eqb_eq in El. rewrite <- Hm in El. rewrite app_length in El. cbn in El.
    destruct b as [|y b]; [|cbn in El; lia].
    apply app_inj_tail in Hm as [-> ->]. symmetry. apply Permutation_cons_append.
  - apply Nat.eqb_neq in El. rewrite <- Hm in El. rewrite app_length in El. cbn in El.
    destruct b as [|y b] using rev_ind; [cbn in El; lia|].
    assert (Hr : rev r = a ++ x :: b /\ y = z).
    { rewrite app_comm_cons, app_assoc in Hm. apply app_inj_tail in Hm as [H1 H2]. split; congruence. }
    destruct Hr as [-> ->]. rewrite set_nth_split.
    etransitivity; [apply Permutation_app_comm|]. cbn.
    transitivity (z :: x :: a ++ b); [constructor; apply Permutation_sym, Permutation_middle|].
    etransitivity; [apply perm_swap|]. constructor. apply Permutation_middle.
Qed.

Lemma im_swap_remove_spec K V (keq : forall a b : K, {a = b} + {a <> b}) (m : list (K * V)) k :
  match im_swap_remove keq k m with
  | Some (v, m1) => Permutation m ((k, v) :: m1)
  | None => ~ In k (map fst m)
  end.
Proof.
  unfold im_swap_remove. destruct (im_find keq k m) as [[n v]|] eqn:E.
  - apply im_find_some in E. generalize (swap_remove_spec m n).
    destruct (swap_remove n m) as [[[k1 v1] m1]|]; [|congruence].
    intros [H P]. rewrite E in H. injection H as <- <-. exact P.
  - apply (im_find_none keq _ _ E).
Qed.

Lemma NoDup_app_remove_r A (l l' : list A) : NoDup (l ++ l') -> NoDup l.
Proof.
  induction l as [|x l IH]; cbn; intros H; [constructor|]. inversion H; subst.
  constructor; [intros C; apply H2, in_or_app; tauto|auto].
Qed.

(** ** The invariant, on the keys, cancelation tokens and numbers only *)
Section Inv.
  Context {K : Type} (keq : forall a b : K, {a = b} + {a <> b}).
  Notation sig := (K * nat * nat)%type.   (* key, token, number *)
  Definition s_tok (x : sig) : nat := snd (fst x).
  Definition s_key (x : sig) : K := fst (fst x).
  Definition memb (cn : list nat) (t : nat) : bool := existsb (Nat.eqb t) cn.

  Lemma memb_in cn t : memb cn t = true <-> In t cn.
  Proof.
    unfold memb. rewrite existsb_exists. split.
    - intros (x & H & E). apply Nat.eqb_eq in E. subst. exact H.
    - intros H. exists t. split; [exact H|apply Nat.eqb_refl].
  Qed.
  Lemma memb_not cn t : memb cn t = false <-> ~ In t cn.
  Proof. rewrite <- memb_in. destruct (memb cn t); split; congruence. Qed.

  Record Inv (ps rs : list sig) (txs : list (K * nat)) (cn : list nat) (fr nx : nat) (a : slots K) : Prop := {
    i_tok : NoDup (map s_tok (ps ++ rs));
    i_id : NoDup (map snd (ps ++ rs));
    i_fr : forall t, In t (map s_tok (ps ++ rs)) \/ In t cn -> t < fr;
    i_nx : forall i, In i (map snd (ps ++ rs)) -> i < nx;
    i_rk : NoDup (map s_key rs);
    i_tx : NoDup (map fst txs);
    i_rcn : forall k t i, In (k, t, i) rs -> ~ In t cn;
    i_act : forall k t i, In (k, t, i) ps -> ~ In t cn -> In (k, t) txs;
    i_txs : forall k t, In (k, t) txs -> ~ In t cn /\ exists i, In (k, t, i) ps;
    i_pend : forall k i, in_pend a k = Some i <-> exists t, In (k, t, i) ps /\ ~ In t cn;
    i_ready : forall k i, in_ready a k = Some i <-> exists t, In (k, t, i) rs;
    i_doom : Permutation (doomed a) (map snd (List.filter (fun x => memb cn (s_tok x)) ps))
  }.

  Lemma Inv_new : Inv [] [] [] [] 0 0 slots0.
  Proof.
    constructor; cbn; try constructor; try tauto; try discriminate.
    - intros (t & [] & _).
    - intros (t & []).
  Qed.

  Lemma filter_perm A (f : A -> bool) l l' : Permutation l l' -> Permutation (List.filter f l) (List.filter f l').
  Proof.
    induction 1; cbn.
    - constructor.
    - destruct (f x); auto.
    - destruct (f x), (f y); auto using perm_swap.
    - etransitivity; eauto.
  Qed.

  Lemma Inv_perm ps ps' rs rs' txs txs' cn fr nx a :
    Permutation ps ps' -> Permutation rs rs' -> Permutation txs txs' ->
    Inv ps rs txs cn fr nx a -> Inv ps' rs' txs' cn fr nx a.
  Proof.
    intros P1 P2 P3 H.
    assert (P : Permutation (ps ++ rs) (ps' ++ rs')) by (apply Permutation_app; assumption).
    constructor.
    - eapply Permutation_NoDup; [|apply (i_tok H)]. apply Permutation_map, P.
    - eapply Permutation_NoDup; [|apply (i_id H)]. apply Permutation_map, P.
    - intros t Ht. apply (i_fr H). destruct Ht as [Ht|Ht]; [left|tauto].
      eapply Permutation_in; [|exact Ht]. apply Permutation_map, Permutation_sym, P.
    - intros i Hi. apply (i_nx H). eapply Permutation_in; [|exact Hi]. apply Permutation_map, Permutation_sym, P.
    - eapply Permutation_NoDup; [|apply (i_rk H)]. apply Permutation_map, P2.
    - eapply Permutation_NoDup; [|apply (i_tx H)]. apply Permutation_map, P3.
    - intros k t i Hi. apply (i_rcn H k t i). eapply Permutation_in; [apply Permutation_sym, P2|exact Hi].
    - intros k t i Hi Hn. eapply Permutation_in; [apply P3|]. apply (i_act H k t i); auto.
      eapply Permutation_in; [apply Permutation_sym, P1|exact Hi].
    - intros k t Hi. destruct (i_txs H k t) as [A (i & B)].
      { eapply Permutation_in; [apply Permutation_sym, P3|exact Hi]. }
      split; [exact A|]. exists i. eapply Permutation_in; [apply P1|exact B].
    - intros k i. rewrite (i_pend H). split; intros (t & A & B); exists t; split; auto;
        (eapply Permutation_in; [|exact A]); auto using Permutation_sym.
    - intros k i. rewrite (i_ready H). split; intros (t & A); exists t;
        (eapply Permutation_in; [|exact A]); auto using Permutation_sym.
    - etransitivity; [apply (i_doom H)|]. apply Permutation_map, filter_perm, P1.
  Qed.

  Lemma Inv_ext ps rs txs cn fr nx a b :
    (forall k, in_pend b k = in_pend a k) -> (forall k, in_ready b k = in_ready a k) ->
    Permutation (doomed b) (doomed a) ->
    Inv ps rs txs cn fr nx a -> Inv ps rs txs cn fr nx b.
  Proof.
    intros E1 E2 E3 H. destruct H. constructor; auto.
    - intros k i. rewrite E1. auto.
    - intros k i. rewrite E2. auto.
    - etransitivity; eauto.
  Qed.

  Lemma NoDup_inv_key A B (f : A -> B) l x y : NoDup (map f l) -> In x l -> In y l -> f x = f y -> x = y.
  Proof.
    induction l as [|z l IH]; cbn; [tauto|]. intros ND Hx Hy E. inversion ND; subst.
    destruct Hx as [->|Hx], Hy as [->|Hy]; auto.
    - exfalso. apply H1. rewrite E. apply in_map, Hy.
    - exfalso. apply H1. rewrite <- E. apply in_map, Hx.
  Qed.

  (** At most one active pending service per key. *)
  Lemma Inv_active_unique ps rs txs cn fr nx a k t i t' i' :
    Inv ps rs txs cn fr nx a -> In (k, t, i) ps -> ~ In t cn -> In (k, t', i') ps -> ~ In t' cn ->
    t = t' /\ i = i'.
  Proof.
    intros H A1 A2 B1 B2. assert (C1 := i_act H _ _ _ A1 A2). assert (C2 := i_act H _ _ _ B1 B2).
    assert (E := @NoDup_inv_key _ _ fst txs _ _ (i_tx H) C1 C2 eq_refl). injection E as <-.
    split; [reflexivity|].
    assert (E : (k, t, i) = (k, t, i')); [|congruence].
    apply (@NoDup_inv_key _ _ s_tok ps); auto.
    generalize (i_tok H). rewrite map_app. intros X. apply NoDup_app_remove_r in X. exact X.
  Qed.

  Lemma put_same k v m : put keq k v m k = v.
  Proof. unfold put. destruct (keq k k); congruence. Qed.
  Lemma put_other k v m x : x <> k -> put keq k v m x = m x.
  Proof. unfold put. destruct (keq x k); congruence. Qed.

  Lemma pend_none_tx ps rs txs cn fr nx a k :
    Inv ps rs txs cn fr nx a -> (in_pend a k = None <-> ~ In k (map fst txs)).
  Proof.
    intros H. split.
    - intros E Hk. apply in_map_iff in Hk as ([k1 t] & <- & Hk). cbn in *.
      destruct (i_txs H _ _ Hk) as [A (i & B)].
      assert (in_pend a k1 = Some i) by (apply (i_pend H); eauto). congruence.
    - intros Hk. destruct (in_pend a k) as [i|] eqn:E; [|reflexivity].
      apply (i_pend H) in E as (t & A & B). exfalso. apply Hk.
      apply (in_map fst) with (x := (k, t)). apply (i_act H _ _ _ A B).
  Qed.
  Lemma ready_none_key ps rs txs cn fr nx a k :
    Inv ps rs txs cn fr nx a -> (in_ready a k = None <-> ~ In k (map s_key rs)).
  Proof.
    intros H. split.
    - intros E Hk. apply in_map_iff in Hk as ([[k1 t] i] & <- & Hk). cbn in *.
      assert (in_ready a k1 = Some i) by (apply (i_ready H); eauto). congruence.
    - intros Hk. destruct (in_ready a k) as [i|] eqn:E; [|reflexivity].
      apply (i_ready H) in E as (t & A). exfalso. apply Hk.
      apply (in_map s_key) in A. exact A.
  Qed.

  (** Removing a ready service. *)
  Lemma Inv_unready ps rs rs1 txs cn fr nx a k t i :
    Permutation rs ((k, t, i) :: rs1) -> Inv ps rs txs cn fr nx a ->
    in_ready a k = Some i /\
    Inv ps rs1 txs cn fr nx (Slots (put keq k None (in_ready a)) (in_pend a) (doomed a)).
  Proof.
    intros P H0. assert (H := Inv_perm (Permutation_refl _) P (Permutation_refl _) H0). clear H0 P.
    split. { apply (i_ready H). exists t. left. reflexivity. }
    assert (PP : Permutation (ps ++ (k, t, i) :: rs1) ((k, t, i) :: ps ++ rs1)).
    { apply Permutation_sym, Permutation_middle. }
    constructor; cbn.
    - generalize (Permutation_NoDup (Permutation_map s_tok PP) (i_tok H)). cbn. now inversion 1.
    - generalize (Permutation_NoDup (Permutation_map snd PP) (i_id H)). cbn. now inversion 1.
    - intros x [Hx|Hx]; apply (i_fr H); [left|right; exact Hx].
      eapply Permutation_in; [apply Permutation_sym, Permutation_map, PP|]. right. exact Hx.
    - intros x Hx. apply (i_nx H).
      eapply Permutation_in; [apply Permutation_sym, Permutation_map, PP|]. right. exact Hx.
    - generalize (i_rk H). cbn. now inversion 1.
    - apply (i_tx H).
    - intros k1 t1 i1 Hi. apply (i_rcn H k1 t1 i1). right. exact Hi.
    - apply (i_act H).
    - apply (i_txs H).
    - apply (i_pend H).
    - intros k1 i1. assert (R := i_rk H). cbn in R. inversion R; subst.
      destruct (keq k1 k) as [->|Hk].
      + rewrite put_same. split; [discriminate|]. intros (t1 & Ht). exfalso.
        apply H2. apply (in_map s_key) in Ht. exact Ht.
      + rewrite put_other by exact Hk. rewrite (i_ready H). split; intros (t1 & Ht); exists t1.
        * destruct Ht as [E|Ht]; [congruence|exact Ht].
        * right. exact Ht.
    - apply (i_doom H).
  Qed.

  (** Removing an active pending service together with its cancelation handle. *)
  Lemma Inv_unpend ps ps1 rs txs txs1 cn fr nx a k t i t' :
    Permutation ps ((k, t, i) :: ps1) -> ~ In t cn -> Permutation txs ((k, t') :: txs1) ->
    Inv ps rs txs cn fr nx a ->
    t' = t /\ in_pend a k = Some i /\
    Inv ps1 rs txs1 cn fr nx (Slots (in_ready a) (put keq k None (in_pend a)) (doomed a)) /\
    ~ In k (map fst txs1) /\ ~ In t (map s_tok (ps1 ++ rs)) /\ ~ In i (map snd (ps1 ++ rs)) /\ t < fr /\ i < nx.
  Proof.
    intros P1 Ht P2 H0. assert (H := Inv_perm P1 (Permutation_refl _) P2 H0). clear H0 P1 P2.
    assert (Ha : In (k, t) ((k, t') :: txs1)) by (apply (i_act H k t i); [left; reflexivity|exact Ht]).
    assert (NT := i_tx H). cbn in NT. inversion NT as [|? ? N1 N2]; subst.
    assert (t' = t) as ->.
    { destruct Ha as [E|Ha]; [congruence|]. exfalso. apply N1. apply (in_map fst) in Ha. exact Ha. }
    split; [reflexivity|]. split. { apply (i_pend H). exists t. split; [left; reflexivity|exact Ht]. }
    assert (NK := i_tok H). cbn in NK. inversion NK as [|? ? K1 K2]; subst.
    assert (NI := i_id H). cbn in NI. inversion NI as [|? ? J1 J2]; subst.
    split.
    - constructor; cbn; auto.
      + intros x [Hx|Hx]; apply (i_fr H); [left; right; exact Hx|right; exact Hx].
      + intros x Hx. apply (i_nx H). right. exact Hx.
      + apply (i_rk H).
      + apply (i_rcn H).
      + intros k1 t1 i1 Hi Hn. destruct (i_act H k1 t1 i1) as [E|E]; [right; exact Hi|exact Hn| |exact E].
        injection E as <- <-. exfalso. apply K1. cbn. rewrite map_app. apply in_or_app. left.
        apply (in_map s_tok) in Hi. exact Hi.
      + intros k1 t1 Hi. destruct (i_txs H k1 t1) as [A (i1 & [E|B])]; [right; exact Hi| |].
        * injection E as <- <- <-. exfalso. apply N1. apply (in_map fst) in Hi. exact Hi.
        * split; [exact A|]. eauto.
      + intros k1 i1. destruct (keq k1 k) as [->|Hk].
        * rewrite put_same. split; [discriminate|]. intros (t1 & A & B). exfalso.
          assert (X := i_act H k t1 i1 (or_intror A) B). destruct X as [E|X].
          -- injection E as <-. apply K1. cbn. rewrite map_app. apply in_or_app. left.
             apply (in_map s_tok) in A. exact A.
          -- apply N1. apply (in_map fst) in X. exact X.
        * rewrite put_other by exact Hk. rewrite (i_pend H). split; intros (t1 & A & B); exists t1; (split; [|exact B]).
          -- destruct A as [E|A]; [congruence|exact A].
          -- right. exact A.
      + apply (i_ready H).
      + assert (D := i_doom H). cbn in D. unfold s_tok at 1 in D. cbn in D.
        rewrite (proj2 (memb_not cn t) Ht) in D. exact D.
    - split; [exact N1|]. split; [exact K1|]. split; [exact J1|]. split.
      + apply (i_fr H). left. left. reflexivity.
      + apply (i_nx H). left. reflexivity.
  Qed.

  (** Adding an active pending service for a key that has none. *)
  Lemma Inv_pend ps rs txs cn fr nx a k t i :
    ~ In k (map fst txs) -> ~ In t cn -> ~ In t (map s_tok (ps ++ rs)) -> ~ In i (map snd (ps ++ rs)) -> t < fr -> i < nx ->
    Inv ps rs txs cn fr nx a ->
    Inv ((k, t, i) :: ps) rs ((k, t) :: txs) cn fr nx
      (Slots (in_ready a) (put keq k (Some i) (in_pend a)) (doomed a)).
  Proof.
    intros N1 Ht K1 J1 L1 L2 H. constructor; cbn.
    - constructor; [exact K1|apply (i_tok H)].
    - constructor; [exact J1|apply (i_id H)].
    - intros x [[<-|Hx]|Hx]; [exact L1| |]; apply (i_fr H); tauto.
    - intros x [<-|Hx]; [exact L2|]. apply (i_nx H). exact Hx.
    - apply (i_rk H).
    - constructor; [exact N1|apply (i_tx H)].
    - apply (i_rcn H).
    - intros k1 t1 i1 [E|Hi] Hn; [left; congruence|right]. apply (i_act H k1 t1 i1 Hi Hn).
    - intros k1 t1 [E|Hi].
      + injection E as <- <-. split; [exact Ht|]. exists i. left. reflexivity.
      + destruct (i_txs H _ _ Hi) as [A (i1 & B)]. split; [exact A|]. exists i1. right. exact B.
    - intros k1 i1. destruct (keq k1 k) as [->|Hk].
      + rewrite put_same. split.
        * intros [= <-]. exists t. split; [left; reflexivity|exact Ht].
        * intros (t1 & [E|A] & B); [congruence|]. exfalso. apply N1.
          apply (in_map fst) with (x := (k, t1)). apply (i_act H _ _ _ A B).
      + rewrite put_other by exact Hk. rewrite (i_pend H). split; intros (t1 & A & B); exists t1; (split; [|exact B]).
        * right. exact A.
        * destruct A as [E|A]; [congruence|exact A].
    - apply (i_ready H).
    - unfold s_tok at 1. cbn. rewrite (proj2 (memb_not cn t) Ht). apply (i_doom H).
  Qed.

  (** Adding a ready service for a key that has none. *)
  Lemma Inv_rdy ps rs txs cn fr nx a k t i :
    ~ In k (map s_key rs) -> ~ In t cn -> ~ In t (map s_tok (ps ++ rs)) -> ~ In i (map snd (ps ++ rs)) -> t < fr -> i < nx ->
    Inv ps rs txs cn fr nx a ->
    Inv ps ((k, t, i) :: rs) txs cn fr nx
      (Slots (put keq k (Some i) (in_ready a)) (in_pend a) (doomed a)).
  Proof.
    intros N1 Ht K1 J1 L1 L2 H.
    assert (PP : Permutation ((k, t, i) :: ps ++ rs) (ps ++ (k, t, i) :: rs)) by apply Permutation_middle.
    constructor; cbn.
    - eapply Permutation_NoDup; [apply Permutation_map, PP|]. cbn. constructor; [exact K1|apply (i_tok H)].
    - eapply Permutation_NoDup; [apply Permutation_map, PP|]. cbn. constructor; [exact J1|apply (i_id H)].
    - intros x [Hx|Hx]; [|apply (i_fr H); tauto].
      apply (Permutation_in _ (Permutation_map s_tok (Permutation_sym PP))) in Hx. cbn in Hx.
      destruct Hx as [<-|Hx]; [exact L1|]. apply (i_fr H). tauto.
    - intros x Hx. apply (Permutation_in _ (Permutation_map snd (Permutation_sym PP))) in Hx. cbn in Hx.
      destruct Hx as [<-|Hx]; [exact L2|]. apply (i_nx H). exact Hx.
    - constructor; [exact N1|apply (i_rk H)].
    - apply (i_tx H).
    - intros k1 t1 i1 [E|Hi]; [congruence|]. apply (i_rcn H _ _ _ Hi).
    - apply (i_act H).
    - apply (i_txs H).
    - apply (i_pend H).
    - intros k1 i1. destruct (keq k1 k) as [->|Hk].
      + rewrite put_same. split.
        * intros [= <-]. exists t. left. reflexivity.
        * intros (t1 & [E|A]); [congruence|]. exfalso. apply N1. apply (in_map s_key) in A. exact A.
      + rewrite put_other by exact Hk. rewrite (i_ready H). split; intros (t1 & A); exists t1.
        * right. exact A.
        * destruct A as [E|A]; [congruence|exact A].
    - apply (i_doom H).
  Qed.

  (** Dropping a canceled pending service. *)
  Lemma Inv_gone ps ps1 rs txs cn fr nx a k t i :
    Permutation ps ((k, t, i) :: ps1) -> In t cn -> Inv ps rs txs cn fr nx a ->
    exists l1 l2, doomed a = l1 ++ i :: l2 /\
      Inv ps1 rs txs cn fr nx (Slots (in_ready a) (in_pend a) (l1 ++ l2)).
  Proof.
    intros P1 Ht H0. assert (H := Inv_perm P1 (Permutation_refl _) (Permutation_refl _) H0). clear H0 P1.
    assert (D := i_doom H). cbn in D. unfold s_tok at 1 in D. cbn in D.
    rewrite (proj2 (memb_in cn t) Ht) in D. cbn in D.
    destruct (in_split i (doomed a)) as (l1 & l2 & E).
    { eapply Permutation_in; [apply Permutation_sym, D|left; reflexivity]. }
    exists l1, l2. split; [exact E|].
    assert (NK := i_tok H). cbn in NK. inversion NK as [|? ? K1 K2]; subst.
    assert (NI := i_id H). cbn in NI. inversion NI as [|? ? J1 J2]; subst.
    constructor; cbn; auto.
    - intros x [Hx|Hx]; apply (i_fr H); [left; right; exact Hx|right; exact Hx].
    - intros x Hx. apply (i_nx H). right. exact Hx.
    - apply (i_rk H).
    - apply (i_tx H).
    - apply (i_rcn H).
    - intros k1 t1 i1 Hi Hn. apply (i_act H k1 t1 i1); [right; exact Hi|exact Hn].
    - intros k1 t1 Hi. destruct (i_txs H k1 t1 Hi) as [A (i1 & [E1|B])].
      + injection E1 as <- <- <-. contradiction.
      + split; [exact A|]. eauto.
    - intros k1 i1. rewrite (i_pend H). split; intros (t1 & A & B); exists t1; (split; [|exact B]).
      + destruct A as [E1|A]; [congruence|exact A].
      + right. exact A.
    - apply (i_ready H).
    - rewrite E in D. eapply Permutation_cons_inv. etransitivity; [|exact D]. apply Permutation_middle.
  Qed.

  (** Canceling the pending service of [k]. *)
  Lemma Inv_cancel ps rs txs txs1 cn fr nx a k t :
    Permutation txs ((k, t) :: txs1) -> Inv ps rs txs cn fr nx a ->
    exists i, in_pend a k = Some i /\ ~ In k (map fst txs1) /\
    Inv ps rs txs1 (t :: cn) fr nx (Slots (in_ready a) (put keq k None (in_pend a)) (i :: doomed a)).
  Proof.
    intros P H0. assert (H := Inv_perm (Permutation_refl _) (Permutation_refl _) P H0). clear H0 P.
    destruct (i_txs H k t (or_introl eq_refl)) as [Ht (i & Hi)].
    destruct (in_split _ _ Hi) as (p1 & p2 & E).
    assert (P : Permutation ps ((k, t, i) :: p1 ++ p2)) by (rewrite E; apply Permutation_sym, Permutation_middle).
    assert (NT := i_tx H). cbn in NT. inversion NT as [|? ? N1 N2]; subst.
    assert (NK := Permutation_NoDup (Permutation_map s_tok (Permutation_app P (Permutation_refl rs))) (i_tok H)).
    cbn in NK. inversion NK as [|? ? K1 K2]; subst.
    exists i. split. { apply (i_pend H). eauto. } split; [exact N1|].
    constructor; cbn; auto.
    - apply (i_tok H).
    - apply (i_id H).
    - intros x [Hx|[<-|Hx]]; apply (i_fr H); auto. left. rewrite map_app. apply in_or_app. left.
      apply (in_map s_tok) in Hi. exact Hi.
    - apply (i_nx H).
    - apply (i_rk H).
    - intros k1 t1 i1 Hr [<-|Hc].
      + apply K1. rewrite map_app. apply in_or_app. right. apply (in_map s_tok) in Hr. exact Hr.
      + apply (i_rcn H _ _ _ Hr Hc).
    - intros k1 t1 i1 Hp Hn. destruct (i_act H k1 t1 i1 Hp) as [E1|E1]; [tauto| |exact E1].
      injection E1 as <- <-. exfalso. apply Hn. left. reflexivity.
    - intros k1 t1 Hx. destruct (i_txs H k1 t1 (or_intror Hx)) as [A (i1 & B)]. split; [|eauto].
      intros [<-|Hc]; [|tauto].
      assert (X : (k, t, i) = (k1, t, i1)).
      { apply (@NoDup_inv_key _ _ s_tok (p1 ++ (k, t, i) :: p2)); auto.
        generalize (i_tok H). rewrite map_app. intros X. apply NoDup_app_remove_r in X. exact X. }
      injection X as <- <-. apply N1. apply (in_map fst) in Hx. exact Hx.
    - intros k1 i1. destruct (keq k1 k) as [->|Hk].
      + rewrite put_same. split; [discriminate|]. intros (t1 & A & B). exfalso.
        assert (Hn : ~ In t1 cn) by tauto.
        destruct (i_act H k t1 i1 A Hn) as [X|X].
        * injection X as <-. apply B. left. reflexivity.
        * apply N1. apply (in_map fst) in X. exact X.
      + rewrite put_other by exact Hk. rewrite (i_pend H). split; intros (t1 & A & B); exists t1; (split; [exact A|]).
        * intros [<-|Hc]; [|tauto].
          assert (X : (k, t, i) = (k1, t, i1)); [|congruence].
          apply (@NoDup_inv_key _ _ s_tok (p1 ++ (k, t, i) :: p2)); auto.
          generalize (i_tok H). rewrite map_app. intros X. apply NoDup_app_remove_r in X. exact X.
        * tauto.
    - apply (i_ready H).
    - assert (D := i_doom H).
      etransitivity; [apply perm_skip, D|].
      assert (X : forall l, ~ In t (map s_tok l) ->
        List.filter (fun x => memb (t :: cn) (s_tok x)) l = List.filter (fun x => memb cn (s_tok x)) l).
      { intros l Hl. apply filter_ext_in. intros x Hx. cbn.
        destruct (s_tok x =? t) eqn:E1; [|reflexivity]. apply Nat.eqb_eq in E1. subst t. exfalso. apply Hl, in_map, Hx. }
      rewrite !filter_app. cbn. unfold s_tok at 2 4. cbn.
      rewrite (proj2 (memb_not cn t) Ht), Nat.eqb_refl. cbn.
      rewrite !map_app in *. cbn in *.
      assert (Y : ~ In t (map s_tok p1) /\ ~ In t (map s_tok p2)).
      { split; intros C; apply K1; rewrite !in_app_iff; tauto. }
      rewrite !X by tauto. apply Permutation_middle.
  Qed.
End Inv.

(** ** The operations *)
Section Ops.
  Context {W K Req Resp Err L : Type} (keq : forall a b : K, {a = b} + {a <> b}).
  Context (svc : Service W Req Resp Err).
  Context (inj : tev Req Resp Err -> L).
  Notation ts := (tracked (L := L) inj svc).
  Notation TW := (W * tk L)%type.

  (** What is known about the services themselves: [R] while waiting, [Rdy] when
      ready; [pan]/[dv]: may they panic / fail to return? *)
  Context (R Rdy : st svc -> Prop) (pan dv : Prop).
  Hypothesis Hready : forall s w, R s \/ Rdy s ->
    match poll_ready svc s w with
    | (_, Val (s1, Pending)) => R s1
    | (_, Val (s1, Ready (Ok _))) => Rdy s1
    | (_, Val (_, Ready (Er _))) => True
    | (_, Panic) => pan
    | (_, Diverge) => dv
    end.
  Hypothesis Hcall : forall s r w, Rdy s ->
    match call svc s r w with
    | (_, Val (s1, _)) => R s1
    | (_, Panic) => pan
    | (_, Diverge) => dv
    end.

  Definition psig (p : pend (K := K) ts) : K * nat * nat := (pd_key p, pd_cancel p, fst (pd_svc p)).
  Definition rsig (x : K * (st ts * nat)) : K * nat * nat := (fst x, snd (snd x), fst (fst (snd x))).

  Lemma keys_rsig l : map s_key (map rsig l) = map fst l.
  Proof. rewrite map_map. apply map_ext. reflexivity. Qed.

  Record CInv (c : cache (K := K) ts) (nx : nat) (a : slots K) : Prop := {
    ci_inv : Inv (map psig (rc_pending c)) (map rsig (rc_ready c)) (rc_txs c) (rc_canceled c) (rc_fresh c) nx a;
    ci_pend : Forall (fun p : pend (K := K) ts => R (snd (pd_svc p))) (rc_pending c);
    ci_ready : Forall (fun x : K * (st ts * nat) => Rdy (snd (fst (snd x)))) (rc_ready c)
  }.

  (** [adds x l x1]: between [x] and [x1] exactly the events [l] (oldest first) happened. *)
  Definition adds (x : TW) (l : list L) (x1 : TW) : Prop := log_of x1 = rev l ++ log_of x.
  Lemma adds_nil x : adds x [] x.
  Proof. reflexivity. Qed.
  Lemma adds_app x l y m z : adds x l y -> adds y m z -> adds x (l ++ m) z.
  Proof. unfold adds. intros -> ->. rewrite rev_app_distr, app_assoc. reflexivity. Qed.

  Lemma Inv_nx ps rs txs cn fr nx nx' a : nx <= nx' -> Inv (K := K) ps rs txs cn fr nx a -> Inv ps rs txs cn fr nx' a.
  Proof. intros Hl H. destruct H. constructor; auto. intros i Hi. specialize (i_nx0 i Hi). lia. Qed.
  Lemma CInv_nx c nx nx' a : nx <= nx' -> CInv c nx a -> CInv c nx' a.
  Proof. intros Hl [H1 H2 H3]. constructor; auto. eapply Inv_nx; eauto. Qed.

  Lemma CInv_new nx : CInv (cache_new ts) nx slots0.
  Proof. constructor; cbn; auto. eapply Inv_nx; [|apply Inv_new]. lia. Qed.

  (** push *)
  Lemma push_pending_perm (c : cache (K := K) ts) k s t :
    match im_insert keq k t (rc_txs c) with
    | (txs1, old) =>
        push_pending keq c k s t =
        Cache (rc_pending c ++ [Pend k t s]) txs1 (rc_ready c)
          (match old with Some t0 => t0 :: rc_canceled c | None => rc_canceled c end) (rc_fresh c)
    end.
  Proof. unfold push_pending, set_canceled. destruct (im_insert keq k t (rc_txs c)); reflexivity. Qed.

  Lemma perm_last (l : list (K * nat * nat)) x : Permutation (x :: l) (l ++ [x]).
  Proof. apply Permutation_cons_append. Qed.

  Lemma push_ok c nx a k s :
    CInv c nx a -> R s -> CInv (push keq c k (nx, s)) (S nx) (pushed keq k nx a).
  Proof.
    intros [HI HP HR] Hs. unfold push.
    generalize (push_pending_perm c k (nx, s) (rc_fresh c)).
    generalize (im_insert_spec keq (rc_txs c) k (rc_fresh c)).
    destruct (im_insert keq k (rc_fresh c) (rc_txs c)) as [txs1 old]. intros Hins ->. cbn.
    constructor; cbn; [|apply Forall_app; split; auto|auto].
    rewrite map_app. cbn.
    assert (F1 : ~ In (rc_fresh c) (map s_tok (map psig (rc_pending c) ++ map rsig (rc_ready c)))).
    { intros C. assert (X := i_fr HI (rc_fresh c) (or_introl C)). lia. }
    assert (F2 : ~ In (rc_fresh c) (rc_canceled c)).
    { intros C. assert (X := i_fr HI (rc_fresh c) (or_intror C)). lia. }
    assert (F3 : ~ In nx (map snd (map psig (rc_pending c) ++ map rsig (rc_ready c)))).
    { intros C. assert (X := i_nx HI _ C). lia. }
    assert (HI' : Inv (map psig (rc_pending c)) (map rsig (rc_ready c)) (rc_txs c) (rc_canceled c)
                    (S (rc_fresh c)) (S nx) a).
    { destruct HI. constructor; auto; [intros t Ht; specialize (i_fr0 t Ht)|intros i Hi; specialize (i_nx0 i Hi)]; lia. }
    destruct old as [t0|].
    - destruct Hins as (l1 & l2 & E1 & E2).
      assert (P : Permutation (rc_txs c) ((k, t0) :: l1 ++ l2)).
      { rewrite E1. apply Permutation_sym, Permutation_middle. }
      destruct (Inv_cancel keq P HI') as (i0 & Hp & Hk & HI2).
      assert (F2' : ~ In (rc_fresh c) (t0 :: rc_canceled c)).
      { intros [->|C]; [|tauto]. assert (X := i_txs HI k (rc_fresh c)).
        destruct X as [_ (i & X)]; [eapply Permutation_in; [apply Permutation_sym, P|left; reflexivity]|].
        apply F1. rewrite map_app. apply in_or_app. left. apply (in_map s_tok) in X. exact X. }
      assert (X := @Inv_pend _ keq _ _ _ _ _ _ _ k (rc_fresh c) nx Hk F2' F1 F3 (Nat.lt_succ_diag_r _) (Nat.lt_succ_diag_r _) HI2).
      eapply Inv_perm; [apply perm_last|apply Permutation_refl| |].
      2:{ eapply Inv_ext; [| | |exact X].
          - intros k1. unfold pushed. cbn. unfold put. destruct (keq k1 k); reflexivity.
          - intros k1. reflexivity.
          - unfold pushed. cbn. rewrite Hp. reflexivity. }
      rewrite E2. apply Permutation_middle.
    - destruct Hins as [Hk ->].
      assert (X := @Inv_pend _ keq _ _ _ _ _ _ _ k (rc_fresh c) nx Hk F2 F1 F3 (Nat.lt_succ_diag_r _) (Nat.lt_succ_diag_r _) HI').
      eapply Inv_perm; [apply perm_last|apply Permutation_refl|apply Permutation_cons_append|].
      eapply Inv_ext; [| | |exact X]; try reflexivity.
      unfold pushed. cbn. rewrite (proj2 (pend_none_tx _ HI) Hk). reflexivity.
  Qed.

  (** evict *)
  Lemma evict_ok c nx a k x : CInv c nx a ->
    exists x1 c1 hit, evict keq c k x = (x1, Val (c1, hit)) /\
      adds x (map (fun j => inj (TDropSvc j)) (opt_list (in_ready a k))) x1 /\
      tk_next (snd x1) = tk_next (snd x) /\
      CInv c1 nx (evicted keq k a) /\
      (hit = true <-> in_ready a k <> None \/ in_pend a k <> None).
  Proof.
    intros [HI HP HR]. unfold evict.
    set (T := im_swap_remove keq k (rc_txs c)).
    assert (HT : exists txs1 cn1 hit1,
      match T with
      | Some (t, txs1) => (txs1, set_canceled t (rc_canceled c), true)
      | None => (rc_txs c, rc_canceled c, false)
      end = (txs1, cn1, hit1) /\
      Inv (map psig (rc_pending c)) (map rsig (rc_ready c)) txs1 cn1 (rc_fresh c) nx
        (Slots (in_ready a) (put keq k None (in_pend a)) (opt_list (in_pend a k) ++ doomed a)) /\
      (hit1 = true <-> in_pend a k <> None)).
    { generalize (im_swap_remove_spec keq (rc_txs c) k). fold T. destruct T as [[t txs1]|]; intros HS.
      - destruct (Inv_cancel keq HS HI) as (i0 & Hp & Hk & HI2).
        exists txs1, (t :: rc_canceled c), true. split; [reflexivity|]. rewrite Hp. split; [exact HI2|].
        split; [discriminate|reflexivity].
      - exists (rc_txs c), (rc_canceled c), false. split; [reflexivity|].
        assert (Hp := proj2 (pend_none_tx _ HI) HS). rewrite Hp. split.
        + eapply Inv_ext; [| | |exact HI]; try reflexivity.
          intros k1. cbn. unfold put. destruct (keq k1 k); congruence.
        + split; [discriminate|congruence]. }
    destruct HT as (txs1 & cn1 & hit1 & -> & HI2 & Hh).
    generalize (im_swap_remove_spec keq (rc_ready c) k).
    destruct (im_swap_remove keq k (rc_ready c)) as [[[[i s] t] ready1]|]; intros HS.
    - assert (HS' := Permutation_map rsig HS). cbn in HS'.
      destruct (Inv_unready keq HS' HI2) as [Hr HI3]. cbn in Hr.
      unfold bind, modify, ret. eexists _, _, _. split; [reflexivity|].
      rewrite Hr. cbn. split; [reflexivity|]. split; [reflexivity|]. split.
      + constructor; cbn; auto.
        assert (X := Permutation_Forall HS HR). inversion X; auto.
      + split; [left; discriminate|reflexivity].
    - unfold ret. eexists _, _, _. split; [reflexivity|].
      assert (Hr : in_ready a k = None).
      { apply (ready_none_key k HI). rewrite keys_rsig. exact HS. }
      rewrite Hr. cbn. split; [reflexivity|]. split; [reflexivity|]. split.
      + constructor; cbn; auto.
        eapply Inv_ext; [| | |exact HI2]; try reflexivity.
        intros k1. unfold evicted. cbn. unfold put. destruct (keq k1 k); congruence.
      + rewrite Hh. tauto.
  Qed.

  (** Polling the pending services. *)
  Definition waits (cn : list nat) (ps : list (K * nat * nat)) (e : L) : Prop :=
    exists k t i, e = inj (TReady i Pending) /\ In (k, t, i) ps /\ ~ In t cn.

  Lemma remove_nth_perm A (l : list A) n x : nth_error l n = Some x -> Permutation l (x :: remove_nth n l).
  Proof.
    revert n. induction l as [|y l IH]; intros [|n] H; cbn in *; try discriminate.
    - injection H as ->. reflexivity.
    - etransitivity; [apply perm_skip, (IH _ H)|]. apply perm_swap.
  Qed.
  Lemma map_set_nth A B (f : A -> B) l n x y : nth_error l n = Some x -> f y = f x -> map f (set_nth n y l) = map f l.
  Proof.
    revert n. induction l as [|z l IH]; intros [|n] H E; cbn in *; try discriminate; [congruence|].
    f_equal. eauto.
  Qed.
  Lemma Forall_set_nth A (P : A -> Prop) l n y : Forall P l -> P y -> Forall P (set_nth n y l).
  Proof. intros H Hy. revert n. induction H; intros [|n]; cbn; constructor; auto. Qed.
  Lemma Forall_nth A (P : A -> Prop) l n x : Forall P l -> nth_error l n = Some x -> P x.
  Proof. intros H E. apply nth_error_In in E. rewrite Forall_forall in H. auto. Qed.

  Lemma fu_poll_ok cn order (l : list (pend (K := K) ts)) x :
    Forall (fun p : pend (K := K) ts => R (snd (pd_svc p))) l ->
    match fu_poll (memb cn) order l x with
    | (x1, Val (l1, o)) =>
        tk_next (snd x1) = tk_next (snd x) /\ Forall (fun p : pend (K := K) ts => R (snd (pd_svc p))) l1 /\
        exists ws, Forall (waits cn (map psig l)) ws /\
        match o with
        | None => adds x ws x1 /\ map psig l1 = map psig l
        | Some (PoReady k s t) =>
            Permutation (map psig l) ((k, t, fst s) :: map psig l1) /\ ~ In t cn /\ Rdy (snd s) /\
            adds x (ws ++ [inj (TReady (fst s) (Ready (Ok tt)))]) x1
        | Some (PoCanceled k) =>
            exists t i, Permutation (map psig l) ((k, t, i) :: map psig l1) /\ In t cn /\
            adds x (ws ++ [inj (TDropSvc i)]) x1
        | Some (PoFailed k e) =>
            exists t i, Permutation (map psig l) ((k, t, i) :: map psig l1) /\ ~ In t cn /\
            adds x (ws ++ [inj (TReady i (Ready (Er e))); inj (TDropSvc i)]) x1
        end
    | (_, Panic) => pan
    | (_, Diverge) => dv
    end.
  Proof.
    revert l x. induction order as [|n order IH]; intros l x HF; cbn [fu_poll].
    - cbn. split; [reflexivity|]. split; [exact HF|]. exists []. split; [constructor|]. split; reflexivity.
    - destruct (nth_error l n) as [p|] eqn:E; [|apply IH, HF].
      assert (P := remove_nth_perm _ _ E). assert (PF := Permutation_Forall P HF). inversion PF as [|? ? Hp HF1]; subst.
      assert (PM := Permutation_map psig P). cbn in PM.
      destruct (memb cn (pd_cancel p)) eqn:Ec.
      + apply memb_in in Ec. unfold bind, modify, ret. cbn.
        split; [reflexivity|]. split; [exact HF1|]. exists []. split; [constructor|].
        exists (pd_cancel p), (fst (pd_svc p)). split; [exact PM|]. split; [exact Ec|]. reflexivity.
      + apply memb_not in Ec. cbn. unfold bind at 1. unfold bind at 1. unfold tk_lift.
        generalize (@Hready (snd (pd_svc p)) (fst x) (or_introl Hp)).
        destruct (poll_ready svc (snd (pd_svc p)) (fst x)) as [w1 [[s1 a]| |]]; intros Hs; [|exact Hs|exact Hs].
        unfold bind at 1. unfold tk_emit. cbn.
        destruct a as [|[[]|e]].
        * set (x' := (w1, Tk (tk_next (snd x)) (inj (TReady (fst (pd_svc p)) Pending) :: tk_log (snd x)))).
          set (p' := Pend (svc := ts) (pd_key p) (pd_cancel p) (fst (pd_svc p), s1)).
          assert (Em : map psig (set_nth n p' l) = map psig l) by (apply (@map_set_nth _ _ psig _ _ _ p' E); reflexivity).
          assert (HF' : Forall (fun p : pend (K := K) ts => R (snd (pd_svc p))) (set_nth n p' l)) by (apply Forall_set_nth; [exact HF|exact Hs]).
          generalize (IH (set_nth n p' l) x' HF'). rewrite Em.
          destruct (fu_poll (memb cn) order (set_nth n p' l) x') as [x1 [[l1 o]| |]]; [|auto|auto].
          intros (En & HF2 & ws & Hws & Ho). split; [exact En|]. split; [exact HF2|].
          exists (inj (TReady (fst (pd_svc p)) Pending) :: ws). split.
          { constructor; [|exact Hws]. exists (pd_key p), (pd_cancel p), (fst (pd_svc p)).
            split; [reflexivity|]. split; [|exact Ec]. eapply Permutation_in; [apply Permutation_sym, PM|]. left. reflexivity. }
          assert (A0 : adds x [inj (TReady (fst (pd_svc p)) Pending)] x') by reflexivity.
          destruct o as [[k s t|k|k e]|].
          -- destruct Ho as (B1 & B2 & B3 & B4). split; [exact B1|]. split; [exact B2|]. split; [exact B3|].
             exact (adds_app A0 B4).
          -- destruct Ho as (t & i & B1 & B2 & B3). exists t, i. split; [exact B1|]. split; [exact B2|]. exact (adds_app A0 B3).
          -- destruct Ho as (t & i & B1 & B2 & B3). exists t, i. split; [exact B1|]. split; [exact B2|]. exact (adds_app A0 B3).
          -- destruct Ho as (B1 & B2). split; [exact (adds_app A0 B1)|exact B2].
        * cbn. split; [reflexivity|]. split; [exact HF1|]. exists []. split; [constructor|].
          split; [exact PM|]. split; [exact Ec|]. split; [exact Hs|]. reflexivity.
        * cbn. split; [reflexivity|]. split; [exact HF1|]. exists []. split; [constructor|].
          exists (pd_cancel p), (fst (pd_svc p)). split; [exact PM|]. split; [exact Ec|]. reflexivity.
  Qed.

  Lemma waits_steps ps rs txs cn fr nx a ws :
    Inv ps rs txs cn fr nx a -> Forall (waits cn ps) ws -> pp_steps keq inj a ws a.
  Proof.
    intros HI H. induction H as [|e ws (k & t & i & -> & A & B) _ IH]; [constructor|].
    apply (pps_cons (l := [inj (TReady i Pending)]) (b := a)); [|exact IH].
    apply (pp_wait keq inj a k). apply (i_pend HI). eauto.
  Qed.
  Lemma pps_app a l b m c : pp_steps keq inj a l b -> pp_steps keq inj b m c -> pp_steps keq inj a (l ++ m) c.
  Proof.
    induction 1 as [|a l b l2 b2 H1 H2 IH]; intros H; [exact H|]. rewrite <- app_assoc. econstructor; eauto.
  Qed.
  Lemma pps_one a l b : pp_step keq inj a l b -> pp_steps keq inj a l b.
  Proof. intros H. rewrite <- (app_nil_r l). econstructor; [exact H|constructor]. Qed.

  Lemma nothing_pending_iff ps rs txs cn fr nx (a : slots K) : Inv ps rs txs cn fr nx a -> (nothing_pending a <-> ps = []).
  Proof.
    intros HI. split.
    - intros [H1 H2]. destruct ps as [|[[k t] i] ps]; [reflexivity|]. exfalso.
      destruct (memb cn t) eqn:E.
      + assert (D := i_doom HI). cbn in D. unfold s_tok at 1 in D. cbn in D. rewrite E, H2 in D.
        apply Permutation_nil in D. discriminate.
      + apply memb_not in E. assert (X : in_pend a k = Some i) by (apply (i_pend HI); exists t; split; [left; reflexivity|exact E]).
        rewrite H1 in X. discriminate.
    - intros ->. split.
      + intros k. destruct (in_pend a k) as [i|] eqn:E; [|reflexivity]. apply (i_pend HI) in E as (t & [] & _).
      + assert (D := i_doom HI). cbn in D. apply Permutation_sym, Permutation_nil in D. exact D.
  Qed.

  Lemma is_canceled_memb (c : cache (K := K) ts) : is_canceled c = memb (rc_canceled c).
  Proof. reflexivity. Qed.

  Lemma not_in_sub A B (f : A -> B) y ps rs z rs1 :
    Permutation rs (z :: rs1) -> ~ In y (map f (ps ++ rs)) -> ~ In y (map f (ps ++ rs1)).
  Proof.
    intros P H C. apply H. rewrite map_app, in_app_iff in *. destruct C as [C|C]; [tauto|right].
    eapply Permutation_in; [apply Permutation_sym, Permutation_map, P|]. right. exact C.
  Qed.

  Context (sched : nat -> W -> W * list nat).
  Lemma poll_loop_ok n (c : cache (K := K) ts) a x :
    length (rc_pending c) < n -> CInv c (tk_next (snd x)) a ->
    match poll_pending_loop keq (tsched sched) n c x with
    | (x1, Val (c1, p)) =>
        tk_next (snd x1) = tk_next (snd x) /\
        exists l b, adds x l x1 /\ pp_answer keq inj a l p b /\ CInv c1 (tk_next (snd x1)) b /\
          match p with Ready (Er _) => length (rc_pending c1) < length (rc_pending c) | _ => True end /\
          match p with Pending => rc_pending c1 <> [] | Ready (Ok _) => rc_pending c1 = [] | _ => True end
    | (_, Panic) => pan
    | (_, Diverge) => dv
    end.
  Proof.
    revert c a x. induction n as [|n IH]; intros c a x Hn HC; [lia|]. cbn [poll_pending_loop].
    unfold bind at 1. unfold fu_poll_next. rewrite is_canceled_memb.
    destruct HC as [HI HP HR].
    destruct (rc_pending c) as [|p0 pend0] eqn:Ep.
    - cbn. split; [reflexivity|]. exists [], a. split; [reflexivity|].
      split; [constructor; [constructor|]; apply (nothing_pending_iff HI); reflexivity|].
      split; [constructor; rewrite ?Ep; auto|]. split; [exact I|exact Ep].
    - rewrite <- Ep in *. assert (Hne : rc_pending c <> []) by congruence. clear Ep p0 pend0.
      unfold bind at 1. unfold tsched at 1. destruct (sched (length (rc_pending c)) (fst x)) as [w0 order].
      set (x0 := (w0, snd x) : W * tk L).
      assert (Hx0 : tk_next (snd x0) = tk_next (snd x)) by reflexivity.
      assert (A0 : adds x [] x0) by reflexivity.
      unfold bind at 1.
      generalize (@fu_poll_ok (rc_canceled c) order (rc_pending c) x0 HP).
      destruct (fu_poll (memb (rc_canceled c)) order (rc_pending c) x0) as [x1 [[l1 o]| |]]; [|auto|auto].
      intros (En & HP1 & ws & Hws & Ho). assert (HW := waits_steps HI Hws).
      rewrite Hx0 in En.
      destruct o as [[k s t|k|k e]|].
      + destruct Ho as (B1 & B2 & B3 & B4). unfold ret at 1. cbv beta iota.
        generalize (im_swap_remove_spec keq (rc_txs c) k).
        assert (Htx : In (k, t) (rc_txs c)).
        { apply (i_act HI k t (fst s)); [|exact B2]. eapply Permutation_in; [apply Permutation_sym, B1|left; reflexivity]. }
        destruct (im_swap_remove keq k (rc_txs c)) as [[tx txs1]|]; intros HS.
        2:{ exfalso. apply HS. apply (in_map fst) in Htx. exact Htx. }
        destruct (Inv_unpend keq B1 B2 HS HI) as (-> & Hp & HI2 & Hk & F1 & F2 & F3 & F4).
        generalize (im_insert_spec keq (rc_ready c) k (s, t)).
        destruct (im_insert keq k (s, t) (rc_ready c)) as [ready1 old]. intros Hins.
        assert (X : exists evs, evs = map (fun j => inj (TDropSvc j)) (opt_list (in_ready a k)) /\
          let x2 := (match old with Some (s0, _) => drop_svc ts s0 | None => fun w => w end) x1 in
          adds x1 evs x2 /\ tk_next (snd x2) = tk_next (snd x1) /\
          CInv (Cache l1 txs1 ready1 (rc_canceled c) (rc_fresh c)) (tk_next (snd x)) (promoted keq k (fst s) a)).
        { destruct old as [[s0 t0]|].
          - destruct Hins as (u & v & E1 & E2).
            assert (P : Permutation (map rsig (rc_ready c)) ((k, t0, fst s0) :: map rsig (u ++ v))).
            { rewrite E1. rewrite !map_app. cbn. apply Permutation_sym, Permutation_middle. }
            destruct (Inv_unready keq P HI2) as [Hr HI3]. cbn in Hr. rewrite Hr.
            eexists. split; [reflexivity|]. cbn. split; [reflexivity|]. split; [reflexivity|].
            constructor; cbn; auto.
            + assert (G1 : ~ In t (map s_tok (map psig l1 ++ map rsig (u ++ v)))).
              { eapply not_in_sub; [exact P|exact F1]. }
              assert (G2 : ~ In (fst s) (map snd (map psig l1 ++ map rsig (u ++ v)))).
              { eapply not_in_sub; [exact P|exact F2]. }
              assert (G3 : ~ In k (map s_key (map rsig (u ++ v)))).
              { apply (ready_none_key k HI3). cbn. apply put_same. }
              assert (Y := @Inv_rdy _ keq _ _ _ _ _ _ _ k t (fst s) G3 B2 G1 G2 F3 F4 HI3).
              eapply Inv_perm; [apply Permutation_refl| |apply Permutation_refl|].
              2:{ eapply Inv_ext; [| | |exact Y]; try reflexivity.
                  intros k1. cbn. unfold put. destruct (keq k1 k); reflexivity. }
              rewrite E2, !map_app. cbn. apply Permutation_middle.
            + rewrite E2. rewrite E1 in HR. apply Forall_app in HR as [U V]. inversion V; subst.
              apply Forall_app. split; [exact U|]. constructor; auto.
          - destruct Hins as [Hk2 E2].
            assert (Hr : in_ready a k = None).
            { apply (ready_none_key k HI). rewrite keys_rsig. exact Hk2. }
            rewrite Hr. eexists. split; [reflexivity|]. cbn. split; [reflexivity|]. split; [reflexivity|].
            constructor; cbn; auto.
            + assert (G3 : ~ In k (map s_key (map rsig (rc_ready c)))) by (rewrite keys_rsig; exact Hk2).
              assert (Y := @Inv_rdy _ keq _ _ _ _ _ _ _ k t (fst s) G3 B2 F1 F2 F3 F4 HI2).
              eapply Inv_perm; [apply Permutation_refl| |apply Permutation_refl|exact Y].
              rewrite E2, map_app. cbn. apply Permutation_cons_append.
            + rewrite E2. apply Forall_app. split; [exact HR|]. constructor; auto. }
        destruct X as (evs & Eevs & Hadd & Enx & HC2).
        unfold bind at 1. unfold modify.
        assert (Hlen : length l1 < n).
        { apply Permutation_length in B1. cbn in B1. rewrite !map_length in B1. lia. }
        set (x2 := (match old with Some (s0, _) => drop_svc ts s0 | None => fun w => w end) x1) in *.
        change (match old with Some (s0, _) => drop_svc ts s0 | None => fun w => w end x1) with x2.
        rewrite <- En in HC2. rewrite <- Enx in HC2.
        generalize (fun H => IH _ _ x2 H HC2). cbn [rc_pending]. intros IH2. specialize (IH2 Hlen). revert IH2.
        destruct (poll_pending_loop keq (tsched sched) n (Cache l1 txs1 ready1 (rc_canceled c) (rc_fresh c)) x2)
          as [x3 [[c3 p3]| |]]; [|auto|auto].
        intros (En3 & l3 & b3 & A3 & PA & HC3 & Hl3 & Hp3). split; [congruence|].
        assert (ST : pp_steps keq inj a (ws ++ (inj (TReady (fst s) (Ready (Ok tt))) :: evs)) (promoted keq k (fst s) a)).
        { eapply pps_app; [exact HW|]. apply pps_one. rewrite Eevs. apply pp_ready. exact Hp. }
        assert (AD : adds x (ws ++ (inj (TReady (fst s) (Ready (Ok tt))) :: evs)) x2).
        { assert (Z := adds_app A0 (adds_app B4 Hadd)). cbn in Z. rewrite <- app_assoc in Z. exact Z. }
        exists ((ws ++ (inj (TReady (fst s) (Ready (Ok tt))) :: evs)) ++ l3), b3.
        split; [exact (adds_app AD A3)|]. split; [|split; [exact HC3|split; [|exact Hp3]]].
        * inversion PA; subst.
          -- constructor; [eapply pps_app; eauto|auto].
          -- constructor; [eapply pps_app; eauto|auto].
          -- rewrite app_assoc. constructor; [eapply pps_app; eauto|auto].
        * destruct p3 as [|[|]]; auto. apply Permutation_length in B1. cbn in B1. rewrite !map_length in B1. lia.
      + destruct Ho as (t & i & B1 & B2 & B3). cbn.
        destruct (Inv_gone B1 B2 HI) as (d1 & d2 & Ed & HI2).
        assert (Hlen : length l1 < n).
        { apply Permutation_length in B1. cbn in B1. rewrite !map_length in B1. lia. }
        assert (HC2 : CInv (Cache l1 (rc_txs c) (rc_ready c) (rc_canceled c) (rc_fresh c)) (tk_next (snd x1))
                        (Slots (in_ready a) (in_pend a) (d1 ++ d2))).
        { constructor; cbn; auto. rewrite En. exact HI2. }
        generalize (fun H => IH _ _ x1 H HC2). cbn [rc_pending]. intros IH2. specialize (IH2 Hlen). revert IH2.
        destruct (poll_pending_loop keq (tsched sched) n (Cache l1 (rc_txs c) (rc_ready c) (rc_canceled c) (rc_fresh c)) x1)
          as [x3 [[c3 p3]| |]]; [|auto|auto].
        intros (En3 & l3 & b3 & A3 & PA & HC3 & Hl3 & Hp3). split; [congruence|].
        assert (ST : pp_steps keq inj a (ws ++ [inj (TDropSvc i)]) (Slots (in_ready a) (in_pend a) (d1 ++ d2))).
        { eapply pps_app; [exact HW|]. apply pps_one. apply pp_gone. exact Ed. }
        exists ((ws ++ [inj (TDropSvc i)]) ++ l3), b3.
        split; [exact (adds_app (adds_app A0 B3) A3)|]. split; [|split; [exact HC3|split; [|exact Hp3]]].
        * inversion PA; subst.
          -- constructor; [eapply pps_app; eauto|auto].
          -- constructor; [eapply pps_app; eauto|auto].
          -- rewrite app_assoc. constructor; [eapply pps_app; eauto|auto].
        * destruct p3 as [|[|]]; auto. apply Permutation_length in B1. cbn in B1. rewrite !map_length in B1. lia.
      + destruct Ho as (t & i & B1 & B2 & B3). cbn.
        generalize (im_swap_remove_spec keq (rc_txs c) k).
        assert (Htx : In (k, t) (rc_txs c)).
        { apply (i_act HI k t i); [|exact B2]. eapply Permutation_in; [apply Permutation_sym, B1|left; reflexivity]. }
        destruct (im_swap_remove keq k (rc_txs c)) as [[tx txs1]|]; intros HS.
        2:{ exfalso. apply HS. apply (in_map fst) in Htx. exact Htx. }
        destruct (Inv_unpend keq B1 B2 HS HI) as (-> & Hp & HI2 & _).
        cbn. split; [congruence|].
        exists (ws ++ [inj (TReady i (Ready (Er e))); inj (TDropSvc i)]),
          (Slots (in_ready a) (put keq k None (in_pend a)) (doomed a)).
        split; [exact (adds_app A0 B3)|]. split; [constructor; assumption|].
        split; [constructor; cbn; auto; rewrite En; exact HI2|]. split; [|exact I].
        apply Permutation_length in B1. cbn in B1. rewrite !map_length in B1. lia.
      + destruct Ho as (B1 & B2). cbn. split; [congruence|].
        exists ws, a. split; [exact (adds_app A0 B1)|].
        split; [constructor; [exact HW|]|split; [constructor; cbn; auto; rewrite En, B2; exact HI|]].
        * intros C. apply (nothing_pending_iff HI) in C. apply map_eq_nil in C. contradiction.
        * split; [exact I|]. intros ->. apply Hne. destruct (rc_pending c); [reflexivity|discriminate].
  Qed.

  Lemma poll_pending_ok (c : cache (K := K) ts) a x :
    CInv c (tk_next (snd x)) a ->
    match poll_pending keq (tsched sched) c x with
    | (x1, Val (c1, p)) =>
        tk_next (snd x1) = tk_next (snd x) /\
        exists l b, adds x l x1 /\ pp_answer keq inj a l p b /\ CInv c1 (tk_next (snd x1)) b /\
          match p with Ready (Er _) => length (rc_pending c1) < length (rc_pending c) | _ => True end /\
          match p with Pending => rc_pending c1 <> [] | Ready (Ok _) => rc_pending c1 = [] | _ => True end
    | (_, Panic) => pan
    | (_, Diverge) => dv
    end.
  Proof. intros H. unfold poll_pending. apply poll_loop_ok; [lia|exact H]. Qed.

  (** A service leaves the ready set. *)
  Lemma aside_ok (c : cache (K := K) ts) nx a k s t i ready1 :
    Permutation (map rsig (rc_ready c)) ((k, t, i) :: map rsig ready1) ->
    Forall (fun x : K * (st ts * nat) => Rdy (snd (fst (snd x)))) ready1 -> R s ->
    CInv c nx a ->
    let c2 := Cache (rc_pending c) (rc_txs c) ready1 (rc_canceled c) (rc_fresh c) in
    in_ready a k = Some i /\
    if pending_contains keq c2 k
    then CInv c2 nx (set_aside keq k i a) /\ in_pend a k <> None
    else CInv (push_pending keq c2 k (i, s) t) nx (set_aside keq k i a) /\ in_pend a k = None.
  Proof.
    intros P HR1 Hs [HI HP HR]. cbn zeta.
    destruct (Inv_unready keq P HI) as [Hr HI2]. split; [exact Hr|].
    unfold pending_contains. cbn [rc_txs].
    destruct (im_find keq k (rc_txs c)) as [[n0 t0]|] eqn:E.
    - apply im_find_some in E. apply nth_error_In in E.
      assert (Hp : in_pend a k <> None).
      { intros C. apply (pend_none_tx _ HI) in C. apply C. apply (in_map fst) in E. exact E. }
      split; [|exact Hp]. constructor; cbn; auto.
      unfold set_aside. destruct (in_pend a k) eqn:Ep; [|congruence].
      exact HI2.
    - apply im_find_none in E.
      assert (Hp : in_pend a k = None) by (apply (pend_none_tx _ HI); exact E).
      split; [|exact Hp].
      generalize (push_pending_perm (Cache (rc_pending c) (rc_txs c) ready1 (rc_canceled c) (rc_fresh c)) k (i, s) t).
      generalize (im_insert_spec keq (rc_txs c) k t). cbn [rc_txs].
      destruct (im_insert keq k t (rc_txs c)) as [txs1 old]. intros Hins ->.
      destruct old as [t1|].
      { exfalso. destruct Hins as (u & v & E1 & _). apply E. rewrite E1, map_app. apply in_or_app. right. left. reflexivity. }
      destruct Hins as [_ ->]. cbn.
      assert (Hin : In (k, t, i) (map rsig (rc_ready c))).
      { eapply Permutation_in; [apply Permutation_sym, P|left; reflexivity]. }
      assert (G0 : ~ In t (rc_canceled c)) by apply (i_rcn HI _ _ _ Hin).
      assert (G1 : ~ In t (map s_tok (map psig (rc_pending c) ++ map rsig ready1))).
      { assert (X := Permutation_NoDup (Permutation_map s_tok (Permutation_trans (Permutation_app_head _ P)
          (Permutation_sym (Permutation_middle (map psig (rc_pending c)) _ _)))) (i_tok HI)). cbn in X. inversion X; auto. }
      assert (G2 : ~ In i (map snd (map psig (rc_pending c) ++ map rsig ready1))).
      { assert (X := Permutation_NoDup (Permutation_map snd (Permutation_trans (Permutation_app_head _ P)
          (Permutation_sym (Permutation_middle (map psig (rc_pending c)) _ _)))) (i_id HI)). cbn in X. inversion X; auto. }
      assert (G3 : t < rc_fresh c).
      { apply (i_fr HI). left. rewrite map_app. apply in_or_app. right. apply (in_map s_tok) in Hin. exact Hin. }
      assert (G4 : i < nx).
      { apply (i_nx HI). rewrite map_app. apply in_or_app. right. apply (in_map snd) in Hin. exact Hin. }
      assert (Y := @Inv_pend _ keq _ _ _ _ _ _ _ k t i E G0 G1 G2 G3 G4 HI2).
      constructor; cbn; auto.
      + rewrite map_app. eapply Inv_perm; [apply perm_last|apply Permutation_refl|apply Permutation_cons_append|].
        eapply Inv_ext; [| | |exact Y]; try reflexivity.
        intros k1. unfold set_aside. rewrite Hp. reflexivity.
      + apply Forall_app. split; auto.
  Qed.

  Lemma perm_len A B (f : A -> B) l x m : Permutation (map f l) (x :: map f m) -> length m < length l.
  Proof. intros H. apply Permutation_length in H. cbn in H. rewrite !map_length in H. lia. Qed.

  Lemma check_index_ok (c : cache (K := K) ts) n a x :
    CInv c (tk_next (snd x)) a ->
    match check_ready_index keq c n x with
    | (x1, Val (c1, v)) =>
        tk_next (snd x1) = tk_next (snd x) /\
        exists l b, adds x l x1 /\ CInv c1 (tk_next (snd x1)) b /\
          match option_map fst (get_ready_index c n) with
          | None => l = [] /\ v = Ok false /\ b = a /\ c1 = c
          | Some k => check_answer keq inj a k l v b /\
              match v with
              | Ok true => map rsig (rc_ready c1) = map rsig (rc_ready c)
              | _ => length (rc_ready c1) < length (rc_ready c)
              end
          end
    | (_, Panic) => pan
    | (_, Diverge) => dv
    end.
  Proof.
    intros HC. assert (HC' := HC). destruct HC' as [HI HP HR]. unfold check_ready_index, get_ready_index.
    destruct (nth_error (rc_ready c) n) as [[k [[i s] t]]|] eqn:E.
    2:{ unfold ret. split; [reflexivity|]. exists [], a. split; [reflexivity|]. split; [exact HC|]. repeat split; reflexivity. }
    assert (Hs := @Forall_nth _ _ _ _ _ HR E). cbn in Hs.
    assert (Hr : in_ready a k = Some i).
    { apply (i_ready HI). exists t. apply nth_error_In in E. apply (in_map rsig) in E. exact E. }
    cbn [option_map fst].
    cbn [poll_ready tracked]. unfold bind at 1 2. unfold tk_lift. cbn [fst snd].
    generalize (@Hready s (fst x) (or_intror Hs)).
    destruct (poll_ready svc s (fst x)) as [w1 [[s1 v]| |]]; intros Hv; [|exact Hv|exact Hv].
    unfold bind at 1. unfold tk_emit, ret at 1. cbv beta iota. cbn [fst snd].
    set (x1 := (w1, Tk (tk_next (snd x)) (inj (TReady i v) :: tk_log (snd x))) : W * tk L).
    assert (A1 : adds x [inj (TReady i v)] x1) by reflexivity.
    set (y := (k, ((i, s1), t)) : K * (st ts * nat)).
    change (k, (i, s1, t)) with y.
    assert (Em : map rsig (set_nth n y (rc_ready c)) = map rsig (rc_ready c)).
    { apply (@map_set_nth _ _ rsig _ _ _ y E). reflexivity. }
    assert (En : nth_error (set_nth n y (rc_ready c)) n = Some y).
    { clear - E. revert n E. generalize (rc_ready c). intros l. induction l as [|z l IH]; intros [|n] E; cbn in *; try discriminate; auto. }
    assert (HF : forall z m, swap_remove n (set_nth n y (rc_ready c)) = Some (z, m) ->
      z = y /\ Permutation (map rsig (rc_ready c)) ((k, t, i) :: map rsig m) /\
      Forall (fun x : K * (st ts * nat) => Rdy (snd (fst (snd x)))) m /\ length m < length (rc_ready c)).
    { intros z m Ez. generalize (swap_remove_spec (set_nth n y (rc_ready c)) n). rewrite Ez. intros [B1 B2].
      assert (z = y) by congruence. subst z. split; [reflexivity|].
      assert (B3 := Permutation_map rsig B2). rewrite Em in B3. split; [exact B3|]. split.
      - destruct (nth_error_split' _ _ E) as (u & u2 & Eu & Hl). rewrite Eu in HR. rewrite Eu, <- Hl, set_nth_split in B2.
        assert (B4 := Permutation_sym (Permutation_trans (Permutation_middle u u2 y) B2)).
        apply Permutation_cons_inv in B4. eapply Permutation_Forall; [apply Permutation_sym, B4|].
        apply Forall_app in HR as [H1 H2]. inversion H2; subst. apply Forall_app; auto.
      - eapply perm_len; exact B3. }
    assert (HN : swap_remove n (set_nth n y (rc_ready c)) <> None).
    { intros C. generalize (swap_remove_spec (set_nth n y (rc_ready c)) n). rewrite C. congruence. }
    destruct v as [|[[]|e]].
    - destruct (swap_remove n (set_nth n y (rc_ready c))) as [[z ready2]|] eqn:Ez; [|congruence].
      destruct (HF _ _ eq_refl) as (-> & B1 & B2 & B3). unfold y at 1.
      destruct (@aside_ok _ _ _ _ _ _ _ _ B1 B2 Hv HC) as [_ X].
      destruct (pending_contains keq (Cache (rc_pending c) (rc_txs c) ready2 (rc_canceled c) (rc_fresh c)) k).
      + destruct X as [HC2 Hp]. unfold bind, modify, ret. split; [reflexivity|].
        exists (inj (TReady i Pending) :: dropped_aside inj k i a), (set_aside keq k i a).
        split; [|split; [exact HC2|split; [constructor; exact Hr|exact B3]]].
        unfold dropped_aside. destruct (in_pend a k); [reflexivity|congruence].
      + destruct X as [HC2 Hp]. unfold ret. split; [reflexivity|].
        exists (inj (TReady i Pending) :: dropped_aside inj k i a), (set_aside keq k i a).
        split; [|split; [exact HC2|split; [constructor; exact Hr|]]].
        * unfold dropped_aside. rewrite Hp. exact A1.
        * unfold push_pending. destruct (im_insert keq k t _) as [txs1 o]. exact B3.
    - unfold ret. split; [reflexivity|]. exists [inj (TReady i (Ready (Ok tt)))], a.
      split; [exact A1|]. split; [|split; [constructor; exact Hr|exact Em]].
      constructor; cbn [rc_ready rc_pending rc_txs rc_canceled rc_fresh]; auto.
      + rewrite Em. exact HI.
      + apply Forall_set_nth; [exact HR|exact Hv].
    - destruct (swap_remove n (set_nth n y (rc_ready c))) as [[z ready2]|] eqn:Ez; [|congruence].
      destruct (HF _ _ eq_refl) as (-> & B1 & B2 & B3). unfold y at 1. unfold bind, modify, ret.
      split; [reflexivity|].
      exists [inj (TReady i (Ready (Er e))); inj (TDropSvc i)],
        (Slots (put keq k None (in_ready a)) (in_pend a) (doomed a)).
      split; [reflexivity|]. split; [|split; [constructor; exact Hr|exact B3]].
      constructor; cbn; auto. apply (Inv_unready keq B1 HI).
  Qed.

  Lemma call_index_ok (c : cache (K := K) ts) n r a x :
    CInv c (tk_next (snd x)) a ->
    match call_ready_index keq c n r x with
    | (x1, Val (c1, f)) =>
        fst f = tk_next (snd x) /\ tk_next (snd x1) = S (tk_next (snd x)) /\
        exists k l b, option_map fst (get_ready_index c n) = Some k /\
          adds x l x1 /\ CInv c1 (tk_next (snd x1)) b /\ call_answer keq inj a k r l (fst f) b
    | (_, Panic) => pan \/ get_ready_index c n = None
    | (_, Diverge) => dv
    end.
  Proof.
    intros HC. assert (HC' := HC). destruct HC' as [HI HP HR]. unfold call_ready_index, get_ready_index.
    generalize (swap_remove_spec (rc_ready c) n).
    destruct (swap_remove n (rc_ready c)) as [[[k [[i s] t]] ready1]|]; intros HS.
    2:{ rewrite HS. unfold panic. right. reflexivity. }
    destruct HS as [E P]. rewrite E. cbn [option_map fst].
    assert (PF := Permutation_Forall P HR). inversion PF as [|? ? Hs HR1]; subst. cbn in Hs.
    assert (PM := Permutation_map rsig P). cbn in PM.
    cbn [call tracked]. unfold bind at 1 2. unfold tk_lift. cbn [fst snd].
    generalize (@Hcall s r (fst x) Hs).
    destruct (call svc s r (fst x)) as [w1 [[s1 f]| |]]; intros Hv; [|left; exact Hv|exact Hv].
    unfold bind at 1. unfold tk_fresh. unfold bind at 1. unfold tk_emit. unfold ret at 1. cbv beta iota. cbn [fst snd tk_next tk_log].
    set (x1 := (w1, Tk (S (tk_next (snd x))) (inj (TCall i r (tk_next (snd x))) :: tk_log (snd x))) : W * tk L).
    assert (A1 : adds x [inj (TCall i r (tk_next (snd x)))] x1) by reflexivity.
    destruct (@aside_ok _ _ _ k _ t i _ PM HR1 Hv HC) as [Hr X].
    destruct (pending_contains keq (Cache (rc_pending c) (rc_txs c) ready1 (rc_canceled c) (rc_fresh c)) k).
    - destruct X as [HC2 Hp]. unfold bind, modify, ret. cbn [fst snd]. split; [reflexivity|]. split; [reflexivity|].
      exists k, (inj (TCall i r (tk_next (snd x))) :: dropped_aside inj k i a), (set_aside keq k i a).
      split; [reflexivity|]. split; [|split; [eapply CInv_nx; [|exact HC2]; cbn; lia|constructor; exact Hr]].
      unfold dropped_aside. destruct (in_pend a k); [reflexivity|congruence].
    - destruct X as [HC2 Hp]. unfold ret. cbn [fst snd]. split; [reflexivity|]. split; [reflexivity|].
      exists k, (inj (TCall i r (tk_next (snd x))) :: dropped_aside inj k i a), (set_aside keq k i a).
      split; [reflexivity|]. split; [|split; [eapply CInv_nx; [|exact HC2]; cbn; lia|constructor; exact Hr]].
      unfold dropped_aside. rewrite Hp. exact A1.
  Qed.
End Ops.
