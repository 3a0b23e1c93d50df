(** C80: the proofs. *)
From Coq Require Import Permutation.
From Verif Require Import Base Util Middleware ReadyCache RngSpec RngProof ShareSpec.
Set Implicit Arguments.

Section Draws.
  Context {Metric : Type} (le : Metric -> Metric -> bool) (m : nat -> Metric) (n : nat).

  (** The residues that lead to the ordered pair [(a, b)]. *)
  Definition drawn (a b : nat) : nat * nat := if S a =? n then (b, b) else (a, b).
  Definition first_of (x y : nat) : nat := if x =? y then n - 1 else x.
  Definition winner (x y : nat) : nat := if le (m (first_of x y)) (m y) then first_of x y else y.
  Definition draws (i : nat) : list (nat * nat) :=
    map (fun b => drawn i b) (List.filter (fun b => negb (b =? i) && le (m i) (m b)) (seq 0 n)) ++
    map (fun a => drawn a i) (List.filter (fun a => negb (a =? i) && negb (le (m a) (m i))) (seq 0 n)).

  Lemma drawn_inj a b a' b' : a < n -> b < n -> a' < n -> b' < n -> a <> b -> a' <> b' -> drawn a b = drawn a' b' -> a = a' /\ b = b'.
  Proof.
    unfold drawn. intros. destruct (Nat.eqb_spec (S a) n), (Nat.eqb_spec (S a') n); match goal with H : _ = _ |- _ => injection H as ?; lia end.
  Qed.
  Lemma drawn_range a b : a < n -> b < n -> a <> b -> fst (drawn a b) < n - 1 /\ snd (drawn a b) < n.
  Proof. unfold drawn. intros. destruct (Nat.eqb_spec (S a) n); cbn; lia. Qed.
  Lemma drawn_back x y : x < n - 1 -> y < n -> first_of x y < n /\ first_of x y <> y /\ drawn (first_of x y) y = (x, y).
  Proof.
    unfold drawn, first_of. intros. destruct (Nat.eqb_spec x y) as [->|N].
    - repeat split; try lia. destruct (Nat.eqb_spec (S (n - 1)) n); [reflexivity | lia].
    - repeat split; try lia. destruct (Nat.eqb_spec (S x) n); [lia | reflexivity].
  Qed.
  Lemma first_drawn a b : a < n -> b < n -> a <> b -> first_of (fst (drawn a b)) (snd (drawn a b)) = a /\ snd (drawn a b) = b.
  Proof.
    unfold drawn, first_of. intros. destruct (Nat.eqb_spec (S a) n); cbn.
    - rewrite Nat.eqb_refl. lia.
    - destruct (Nat.eqb_spec a b); [contradiction | auto].
  Qed.

  Lemma nodup_map A B (f : A -> B) l : (forall x y, In x l -> In y l -> f x = f y -> x = y) -> NoDup l -> NoDup (map f l).
  Proof.
    intros H N. induction N as [|x l Nx N IH]; cbn; [constructor|]. constructor.
    - rewrite in_map_iff. intros (y & E & Hy). apply Nx. rewrite (H x y); cbn; auto.
    - apply IH. intros y z Hy Hz. apply H; right; assumption.
  Qed.

  Lemma nodup_append A (a b : list A) : NoDup a -> NoDup b -> (forall x, In x a -> In x b -> False) -> NoDup (a ++ b).
  Proof.
    induction 1 as [|x a Nx N IH]; intros Hb H; [exact Hb|]. cbn. constructor.
    - rewrite in_app_iff. intros [X|X]; [contradiction | exact (H x (or_introl eq_refl) X)].
    - apply IH; [exact Hb|]. intros y Ha. apply H. right. exact Ha.
  Qed.

  Lemma in_cands p x : In x (List.filter p (seq 0 n)) <-> x < n /\ p x = true.
  Proof. rewrite filter_In, in_seq. intuition lia. Qed.

  Lemma draws_nodup i : i < n -> NoDup (draws i).
  Proof.
    intros Hi. unfold draws. apply nodup_append.
    - apply nodup_map; [|apply NoDup_filter, seq_NoDup]. intros x y Hx Hy E. apply in_cands in Hx as [Hx Px], Hy as [Hy Py].
      apply andb_true_iff in Px as [Px _], Py as [Py _]. apply negb_true_iff, Nat.eqb_neq in Px, Py. apply drawn_inj in E; try lia.
    - apply nodup_map; [|apply NoDup_filter, seq_NoDup]. intros x y Hx Hy E. apply in_cands in Hx as [Hx Px], Hy as [Hy Py].
      apply andb_true_iff in Px as [Px _], Py as [Py _]. apply negb_true_iff, Nat.eqb_neq in Px, Py. apply drawn_inj in E; try lia.
    - intros q Hq Hq'. apply in_map_iff in Hq as (b & <- & Hb), Hq' as (a & E & Ha).
      apply in_cands in Hb as [Hb Pb], Ha as [Ha Pa].
      apply andb_true_iff in Pb as [Pb _], Pa as [Pa _]. apply negb_true_iff, Nat.eqb_neq in Pb, Pa. apply drawn_inj in E; lia.
  Qed.
  Lemma draws_range i x y : i < n -> In (x, y) (draws i) -> x < n - 1 /\ y < n.
  Proof.
    intros Hi H. apply in_app_or in H as [H|H]; apply in_map_iff in H as (b & E & Hb); apply in_cands in Hb as [Hb Pb];
      apply andb_true_iff in Pb as [Pb _]; apply negb_true_iff, Nat.eqb_neq in Pb.
    - pose proof (@drawn_range i b) as X. rewrite E in X. cbn in X. apply X; lia.
    - pose proof (@drawn_range b i) as X. rewrite E in X. cbn in X. apply X; lia.
  Qed.

  Lemma draws_winner i x y : i < n -> x < n - 1 -> y < n -> In (x, y) (draws i) <-> winner x y = i.
  Proof.
    intros Hi Hx Hy. destruct (drawn_back Hx Hy) as (H1 & H2 & H3). unfold winner. set (a := first_of x y) in *. clearbody a. split.
    - intros H. apply in_app_or in H as [H|H]; apply in_map_iff in H as (b & E & Hb); apply in_cands in Hb as [Hb Pb];
        apply andb_true_iff in Pb as [Pb Lb]; apply negb_true_iff, Nat.eqb_neq in Pb; rewrite <- H3 in E; apply drawn_inj in E; try lia; destruct E as [-> ->].
      + rewrite Lb. reflexivity.
      + apply negb_true_iff in Lb. rewrite Lb. reflexivity.
    - intros E. apply in_or_app. destruct (le (m a) (m y)) eqn:L.
      + subst a. left. apply in_map_iff. exists y. split; [exact H3|]. apply in_cands. split; [exact Hy|]. rewrite L, andb_true_r.
        apply negb_true_iff, Nat.eqb_neq. congruence.
      + subst y. right. apply in_map_iff. exists a. split; [exact H3|]. apply in_cands. split; [exact H1|]. rewrite L, andb_true_r.
        apply negb_true_iff, Nat.eqb_neq. congruence.
  Qed.

  Lemma count_ext A (p q : A -> bool) l : (forall x, In x l -> p x = q x) -> length (List.filter p l) = length (List.filter q l).
  Proof.
    induction l as [|x l IH]; intros H; [reflexivity|]. cbn. rewrite (H x (or_introl eq_refl)).
    assert (E := IH (fun y Hy => H y (or_intror Hy))). destruct (q x); cbn; lia.
  Qed.
  Lemma count_add A (p q r : A -> bool) l : (forall x, In x l -> (if p x then 1 else 0) = (if q x then 1 else 0) + (if r x then 1 else 0)) ->
    length (List.filter p l) = length (List.filter q l) + length (List.filter r l).
  Proof.
    induction l as [|x l IH]; intros H; [reflexivity|]. cbn. assert (X := H x (or_introl eq_refl)).
    assert (E := IH (fun y Hy => H y (or_intror Hy))). destruct (p x), (q x), (r x); cbn in *; lia.
  Qed.

  Hypothesis total : forall a b, le a b = false -> le b a = true.
  Lemma refl_le x : le x x = true.
  Proof. destruct (le x x) eqn:E; [reflexivity|]. rewrite (total E) in E. discriminate. Qed.

  Lemma draws_length i : length (draws i) = share le m n i.
  Proof.
    unfold draws, share, heavier, level, how_many. rewrite app_length, !map_length.
    rewrite (@count_add _ (fun b => negb (b =? i) && le (m i) (m b)) (fun j => negb (le (m j) (m i))) (fun j => negb (j =? i) && le (m i) (m j) && le (m j) (m i))).
    - rewrite (@count_ext _ (fun a => negb (a =? i) && negb (le (m a) (m i))) (fun j => negb (le (m j) (m i)))); [lia|].
      intros x _. destruct (Nat.eqb_spec x i) as [->|]; [rewrite refl_le|]; reflexivity.
    - intros x _. destruct (Nat.eqb_spec x i) as [->|]; cbn; [rewrite refl_le; reflexivity|].
      destruct (le (m x) (m i)) eqn:E; cbn.
      + destruct (le (m i) (m x)); reflexivity.
      + rewrite (total E). reflexivity.
  Qed.

  (** ** What the shares are *)
  Lemma share_level i : i < n -> (forall j, j < n -> le (m i) (m j) = true /\ le (m j) (m i) = true) -> share le m n i = n - 1.
  Proof.
    intros Hi H. unfold share, heavier, level, how_many.
    rewrite (@count_ext _ (fun j => negb (le (m j) (m i))) (fun _ => false)).
    2: { intros x Hx. apply in_seq in Hx. destruct (H x) as [_ ->]; [lia | reflexivity]. }
    rewrite (@count_ext _ (fun j => negb (j =? i) && le (m i) (m j) && le (m j) (m i)) (fun j => negb (j =? i))).
    2: { intros x Hx. apply in_seq in Hx. destruct (H x) as [-> ->]; [lia | rewrite !andb_true_r; reflexivity]. }
    assert (F : forall A (l : list A), List.filter (fun _ => false) l = []) by (induction l; auto). rewrite F.
    assert (E : length (List.filter (fun j => negb (j =? i)) (seq 0 n)) + 1 = n); [|cbn; lia].
    assert (X := @count_add _ (fun _ => true) (fun j => negb (j =? i)) (fun j => j =? i) (seq 0 n)).
    assert (T : forall A (l : list A), List.filter (fun _ => true) l = l) by (intros A l; induction l as [|z l IHl]; cbn; [|rewrite IHl]; auto).
    rewrite T, seq_length in X.
    assert (O : forall k s, s <= i < s + k -> length (List.filter (fun j => j =? i) (seq s k)) = 1).
    { assert (Z : forall k s, i < s -> List.filter (fun j => j =? i) (seq s k) = []).
      { induction k as [|k IH]; intros s Hs; [reflexivity|]. cbn. destruct (Nat.eqb_spec s i); [lia|]. apply IH. lia. }
      induction k as [|k IH]; intros s Hs; [lia|]. cbn. destruct (Nat.eqb_spec s i) as [->|].
      - cbn. rewrite Z by lia. reflexivity.
      - apply IH. lia. }
    rewrite (O n 0) in X by lia. symmetry. apply X. intros x _. destruct (x =? i); reflexivity.
  Qed.

  Lemma share_none i : i < n -> share le m n i = 0 <-> forall j, j < n -> j <> i -> le (m i) (m j) = false.
  Proof.
    intros Hi. unfold share, heavier, level, how_many. split.
    - intros H j Hj N. destruct (le (m i) (m j)) eqn:E; [|reflexivity]. exfalso.
      destruct (le (m j) (m i)) eqn:E'.
      + assert (X : In j (List.filter (fun j => negb (j =? i) && le (m i) (m j) && le (m j) (m i)) (seq 0 n))).
        { apply in_cands. split; [exact Hj|]. rewrite E, E'. apply Nat.eqb_neq in N. rewrite N. reflexivity. }
        destruct (List.filter (fun j => negb (j =? i) && _ && _) _); [destruct X | cbn in H; lia].
      + assert (X : In j (List.filter (fun j => negb (le (m j) (m i))) (seq 0 n))) by (apply in_cands; split; [exact Hj | rewrite E'; reflexivity]).
        destruct (List.filter (fun j => negb (le (m j) (m i))) _); [destruct X | cbn in H; lia].
    - intros H. rewrite (@count_ext _ (fun j => negb (le (m j) (m i))) (fun _ => false)).
      2: { intros x Hx. apply in_seq in Hx. destruct (Nat.eq_dec x i) as [->|N]; [rewrite refl_le; reflexivity|].
           rewrite (total (H x ltac:(lia) N)). reflexivity. }
      rewrite (@count_ext _ (fun j => negb (j =? i) && le (m i) (m j) && le (m j) (m i)) (fun _ => false)).
      2: { intros x Hx. apply in_seq in Hx. destruct (Nat.eqb_spec x i) as [->|N]; [reflexivity|]. rewrite (H x ltac:(lia) N). reflexivity. }
      assert (F : forall A (l : list A), List.filter (fun _ => false) l = []) by (induction l; auto). rewrite !F. reflexivity.
  Qed.

  Lemma count_le A (p q : A -> bool) l : (forall x, In x l -> p x = true -> q x = true) -> length (List.filter p l) <= length (List.filter q l).
  Proof.
    induction l as [|x l IH]; intros H; [auto|]. cbn. assert (X := H x (or_introl eq_refl)).
    assert (E := IH (fun y Hy => H y (or_intror Hy))). destruct (p x); [rewrite X by reflexivity; cbn; lia|]. destruct (q x); cbn; lia.
  Qed.

  Hypothesis trans : forall a b c, le a b = true -> le b c = true -> le a c = true.
  (** Number of the others that do not beat [i], counted by two comparisons. *)
  Lemma share_sum i : share le m n i + 1 = how_many n (fun j => le (m i) (m j)) + how_many n (fun j => negb (le (m j) (m i))) \/ n <= i.
  Proof.
    destruct (le_lt_dec n i) as [|Hi]; [auto|]. left. unfold share, heavier, level, how_many.
    rewrite (@count_add _ (fun j => le (m i) (m j)) (fun j => negb (j =? i) && le (m i) (m j)) (fun j => j =? i)).
    2: { intros x _. destruct (Nat.eqb_spec x i) as [->|]; cbn; [rewrite refl_le; reflexivity|]. destruct (le (m i) (m x)); reflexivity. }
    assert (O : length (List.filter (fun j => j =? i) (seq 0 n)) = 1).
    { assert (O : forall k s, s <= i < s + k -> length (List.filter (fun j => j =? i) (seq s k)) = 1).
      { assert (Z : forall k s, i < s -> List.filter (fun j => j =? i) (seq s k) = []).
        { induction k as [|k IH]; intros s Hs; [reflexivity|]. cbn. destruct (Nat.eqb_spec s i); [lia|]. apply IH. lia. }
        induction k as [|k IH]; intros s Hs; [lia|]. cbn. destruct (Nat.eqb_spec s i) as [->|].
        - cbn. rewrite Z by lia. reflexivity.
        - apply IH. lia. }
      apply O. lia. }
    rewrite O.
    rewrite (@count_add _ (fun b => negb (b =? i) && le (m i) (m b)) (fun j => negb (le (m j) (m i))) (fun j => negb (j =? i) && le (m i) (m j) && le (m j) (m i))).
    - lia.
    - intros x _. destruct (Nat.eqb_spec x i) as [->|]; cbn; [rewrite refl_le; reflexivity|].
      destruct (le (m x) (m i)) eqn:E; cbn.
      + destruct (le (m i) (m x)); reflexivity.
      + rewrite (total E). reflexivity.
  Qed.

  Lemma share_mono i j : i < n -> j < n -> le (m i) (m j) = true -> share le m n j <= share le m n i.
  Proof.
    intros Hi Hj L. destruct (share_sum i) as [Ei|]; [|lia]. destruct (share_sum j) as [Ej|]; [|lia].
    assert (A : how_many n (fun k => le (m j) (m k)) <= how_many n (fun k => le (m i) (m k))).
    { apply count_le. intros k _ H. eapply trans; eassumption. }
    assert (B : how_many n (fun k => negb (le (m k) (m j))) <= how_many n (fun k => negb (le (m k) (m i)))).
    { apply count_le. intros k _ H. apply negb_true_iff in H. apply negb_true_iff. destruct (le (m k) (m i)) eqn:E; [|reflexivity].
      rewrite (trans E L) in H. discriminate. }
    lia.
  Qed.
End Draws.

(** ** Counting pairs *)
Lemma count_prod (p : nat -> nat -> bool) (l l' : list nat) :
  length (List.filter (fun uv => p (fst uv) (snd uv)) (list_prod l l')) = list_sum (map (fun u => length (List.filter (p u) l')) l).
Proof.
  induction l as [|u l IH]; [reflexivity|]. cbn [list_prod map]. rewrite filter_app, app_length, IH. cbn [list_sum fold_right]. f_equal.
  clear IH. induction l' as [|v l' IH]; [reflexivity|]. cbn. destruct (p u v); cbn; rewrite IH; reflexivity.
Qed.

Lemma residues_shift k x : 0 < k -> forall N s, length (List.filter (fun u => u mod k =? x) (seq (k + s) N)) = length (List.filter (fun u => u mod k =? x) (seq s N)).
Proof.
  intros Hk. induction N as [|N IH]; intros s; [reflexivity|]. cbn [seq List.filter].
  assert (M : (k + s) mod k = s mod k) by (replace (k + s) with (s + 1 * k) by lia; apply Nat.mod_add; lia). rewrite M.
  replace (S (k + s)) with (k + S s) by lia. destruct (s mod k =? x); cbn; rewrite IH; reflexivity.
Qed.
Lemma residues_small k x : x < k -> forall r, r <= k -> length (List.filter (fun u => u mod k =? x) (seq 0 r)) = if x <? r then 1 else 0.
Proof.
  intros Hx r. induction r as [|r IH]; intros Hr; [reflexivity|]. rewrite seq_S, filter_app, app_length, IH by lia. cbn [Nat.add List.filter].
  rewrite Nat.mod_small by lia. destruct (Nat.eqb_spec r x) as [->|N]; cbn [length].
  - rewrite Nat.ltb_irrefl. destruct (Nat.ltb_spec x (S x)); lia.
  - destruct (Nat.ltb_spec x r), (Nat.ltb_spec x (S r)); lia.
Qed.
Lemma residues_count k x N : x < k -> N / k <= how_many N (fun u => u mod k =? x) <= N / k + 1.
Proof.
  intros Hx. unfold how_many.
  assert (E : N = k * (N / k) + N mod k) by (apply Nat.div_mod; lia). assert (Hr := Nat.mod_upper_bound N k ltac:(lia)).
  set (q := N / k) in *. set (r := N mod k) in *. clearbody q r. subst N.
  assert (X : length (List.filter (fun u => u mod k =? x) (seq 0 (k * q + r))) = q + if x <? r then 1 else 0).
  { induction q as [|q IH].
    - rewrite Nat.mul_0_r. cbn [Nat.add]. apply residues_small; lia.
    - replace (k * S q + r) with (k + (k * q + r)) by lia. rewrite seq_app, filter_app, app_length. cbn [Nat.add].
      rewrite <- (Nat.add_0_r k) at 2. rewrite residues_shift by lia. rewrite IH. rewrite residues_small by lia.
      destruct (Nat.ltb_spec x k); lia. }
  rewrite X. destruct (x <? r); lia.
Qed.

Lemma rectangle N p q x y :
  how_many_pairs N (fun u v => (u mod p =? x) && (v mod q =? y)) = how_many N (fun u => u mod p =? x) * how_many N (fun v => v mod q =? y).
Proof.
  unfold how_many_pairs, how_many. rewrite (count_prod (fun u v => (u mod p =? x) && (v mod q =? y))).
  set (c := length (List.filter (fun v => v mod q =? y) (seq 0 N))).
  assert (H : forall l, list_sum (map (fun u => length (List.filter (fun v => (u mod p =? x) && (v mod q =? y)) (seq 0 N))) l) =
    length (List.filter (fun u => u mod p =? x) l) * c).
  { induction l as [|u l IH]; [reflexivity|]. cbn [map list_sum fold_right List.filter]. 
    change (fold_right Nat.add 0 (map (fun u => length (List.filter (fun v => (u mod p =? x) && (v mod q =? y)) (seq 0 N))) l))
      with (list_sum (map (fun u => length (List.filter (fun v => (u mod p =? x) && (v mod q =? y)) (seq 0 N))) l)). rewrite IH. destruct (u mod p =? x).
    - cbn [andb length]. fold c. lia.
    - cbn [andb]. assert (F : forall A (l : list A), List.filter (fun _ => false) l = []) by (induction l0; auto). rewrite F. cbn. lia. }
  apply H.
Qed.

(** Draws whose residues are in a given list. *)
Definition among (l : list (nat * nat)) (x y : nat) : bool := existsb (fun c => (x =? fst c) && (y =? snd c)) l.
Lemma among_in l x y : among l x y = true <-> In (x, y) l.
Proof.
  unfold among. rewrite existsb_exists. split.
  - intros ([a b] & H & E). cbn in E. apply andb_true_iff in E as [E1 E2]. apply Nat.eqb_eq in E1, E2. subst. exact H.
  - intros H. exists (x, y). cbn. rewrite !Nat.eqb_refl. auto.
Qed.
Lemma pairs_among N p q l : NoDup l -> (forall x y, In (x, y) l -> x < p /\ y < q) ->
  length l * (N / p * (N / q)) <= how_many_pairs N (fun u v => among l (u mod p) (v mod q)) <= length l * ((N / p + 1) * (N / q + 1)).
Proof.
  intros Nd. induction Nd as [|[x y] l Nx Nd IH]; intros H.
  - unfold how_many_pairs. cbn [among existsb length]. assert (F : forall A (l : list A), List.filter (fun _ => false) l = []) by (induction l; auto). rewrite F. cbn. lia.
  - specialize (IH (fun a b Hi => H a b (or_intror Hi))). destruct (H x y (or_introl eq_refl)) as [Hx Hy].
    assert (E : how_many_pairs N (fun u v => among ((x, y) :: l) (u mod p) (v mod q)) =
      how_many_pairs N (fun u v => (u mod p =? x) && (v mod q =? y)) + how_many_pairs N (fun u v => among l (u mod p) (v mod q))).
    { unfold how_many_pairs. apply count_add. intros [u v] _. cbn [fst snd].
      change (among ((x, y) :: l) (u mod p) (v mod q)) with ((u mod p =? x) && (v mod q =? y) || among l (u mod p) (v mod q)).
      destruct ((u mod p =? x) && (v mod q =? y)) eqn:Eb; cbn [orb].
      - apply andb_true_iff in Eb as [E1 E2]. apply Nat.eqb_eq in E1, E2. rewrite E1, E2.
        destruct (among l x y) eqn:Ea; [|reflexivity]. exfalso. apply Nx. apply among_in. exact Ea.
      - destruct (among l _ _); reflexivity. }
    rewrite E, rectangle. assert (A := residues_count N Hx). assert (B := residues_count N Hy). cbn [length]. nia.
Qed.

Section Passing.
  Context {W K Req Resp Err DErr Metric R : Type} (keq : forall a b : K, {a = b} + {a <> b}).
  Context (svc : Service W Req Resp Err) (D : Discover W K (st svc) DErr).
  Context (sched : nat -> W -> W * list nat).
  Context (next_u64 : R -> M W (R * Z)) (debug : bool).
  Context (load : st svc -> M W Metric) (le : Metric -> Metric -> bool) (fuel : nat).
  Notation bal := (balance keq svc D sched next_u64 debug load le fuel).

  Lemma nth_error_eps (c : cache (K := K) svc) eps i s : map (fun x => fst (snd x)) (rc_ready c) = eps -> nth_error eps i = Some s ->
    exists k t, nth_error (rc_ready c) i = Some (k, (s, t)).
  Proof.
    intros <- H. rewrite nth_error_map in H. destruct (nth_error (rc_ready c) i) as [[k [s' t]]|]; [|discriminate]. injection H as <-. eauto.
  Qed.
  Lemma set_same A (l : list A) i x : nth_error l i = Some x -> set_nth i x l = l.
  Proof. revert i. induction l as [|y l IH]; intros [|i] H; try discriminate; cbn in *; [congruence|]. rewrite IH by exact H. reflexivity. Qed.

  Lemma passing (b : st bal) w w1 eps u v g2 w2 m :
    at_choice keq svc D sched next_u64 debug load le fuel b w w1 eps -> 2 <= length eps -> (Z.of_nat (length eps) < 2 ^ 64)%Z ->
    generates next_u64 (bl_rng b) w1 [Z.of_nat u; Z.of_nat v] g2 w2 ->
    (forall i s, nth_error eps i = Some s -> load s w2 = (w2, Val (m i)) /\ poll_ready svc s w2 = (w2, Val (s, Ready (Ok tt)))) ->
    exists s, nth_error eps (winner le m (length eps) (u mod (length eps - 1)) (v mod length eps)) = Some s /\
      passes_to keq svc D sched next_u64 debug load le fuel b w w2 s.
  Proof.
    intros (Ei & w0 & d & c0 & c & Ed & Pr & Ee) H2 HZ G Hq. set (n := length eps) in *.
    assert (Hx : u mod (n - 1) < n - 1) by (apply Nat.mod_upper_bound; lia).
    assert (Hy : v mod n < n) by (apply Nat.mod_upper_bound; lia).
    destruct (@drawn_back n _ _ Hx Hy) as (Ha & Hab & _).
    set (x := u mod (n - 1)) in *. set (y := v mod n) in *. set (a := first_of n x y) in *.
    assert (Hw : winner le m n x y < n) by (unfold winner; fold a; destruct (le _ _); assumption).
    assert (Ex : forall i, i < n -> exists s, nth_error eps i = Some s).
    { intros i Hi. destruct (nth_error eps i) eqn:E; [eauto|]. apply nth_error_None in E. unfold n in Hi. lia. }
    destruct (Ex _ Hw) as [s Es]. exists s. split; [exact Es|].
    assert (Len : length (rc_ready (c)) = n) by (unfold n; rewrite <- Ee, map_length; reflexivity).
    assert (Sv : sample_floyd2 next_u64 debug (bl_rng b) (Z.of_nat n) w1 = (w2, Val (g2, (Z.of_nat a, Z.of_nat y)))).
    { rewrite (@sample_value _ _ next_u64 debug (bl_rng b) w1 (Z.of_nat u) (Z.of_nat v) g2 w2 (Z.of_nat n) ltac:(lia) G).
      replace (Z.of_nat n - 1)%Z with (Z.of_nat (n - 1)) by lia. rewrite <- !Nat2Z.inj_mod. fold x y.
      unfold a, first_of. destruct (Z.eqb_spec (Z.of_nat x) (Z.of_nat y)), (Nat.eqb_spec x y); try lia; reflexivity. }
    assert (P2 : p2c_ready_index next_u64 debug load le c (bl_rng b) w1 = (w2, Val (g2, Some (winner le m n x y)))).
    { unfold p2c_ready_index, ready_len. rewrite Len. assert (exists n', n = S (S n')) as [n' En] by (exists (n - 2); lia). rewrite En. cbv iota. rewrite <- En.
      unfold bind. rewrite Sv. cbn [fst snd]. rewrite !Nat2Z.id. 
      replace (a =? y) with false by (symmetry; apply Nat.eqb_neq; exact Hab). rewrite andb_false_r.
      destruct (Ex a Ha) as [sa Ea]. destruct (Ex y Hy) as [sy Ey].
      destruct (nth_error_eps _ _ Ee Ea) as (ka & ta & Na). destruct (nth_error_eps _ _ Ee Ey) as (ky & ty & Ny).
      unfold ready_index_load, get_ready_index. rewrite Na, Ny. destruct (Hq _ _ Ea) as [-> _]. destruct (Hq _ _ Ey) as [-> _]. reflexivity. }
    destruct (nth_error_eps _ _ Ee Es) as (k & t & Nw). destruct (Hq _ _ Es) as [_ Hr].
    set (i := winner le m n x y) in *.
    exists (BalSt d c (Some i) g2). split.
    - cbn [poll_ready balance]. unfold bind at 1. rewrite Ed. unfold bind at 1. rewrite Pr.
      rewrite Len, Ei, Nat.add_comm. cbn [Nat.add balance_loop]. unfold bind at 1. rewrite P2.
      unfold check_ready_index. rewrite Nw. unfold bind. rewrite Hr. unfold ret. rewrite set_same by exact Nw.
      destruct c as [pe tx rd ca fr]. reflexivity.
    - intros r w3 w4 s4 f Hc. cbn [call balance bl_index bl_cache]. unfold bind at 1. unfold call_ready_index, swap_remove. rewrite Nw.
      destruct (rev (rc_ready (c))) as [|z zs] eqn:Er.
      { exfalso. assert (L : length (rev (rc_ready (c))) = n) by (rewrite rev_length; exact Len). rewrite Er in L. cbn in L. lia. }
      unfold bind. rewrite Hc. cbv zeta. destruct (pending_contains _ _ _); unfold modify, ret; do 2 eexists; reflexivity.
  Qed.

  Lemma shares (m : nat -> Metric) (n : nat) : (forall a b, le a b = false -> le b a = true) -> 2 <= n -> (Z.of_nat n < 2 ^ 64)%Z ->
    exists who : nat -> nat -> nat,
      (forall (b : st bal) w w1 eps u v g2 w2,
        at_choice keq svc D sched next_u64 debug load le fuel b w w1 eps -> length eps = n ->
        generates next_u64 (bl_rng b) w1 [Z.of_nat u; Z.of_nat v] g2 w2 ->
        (forall i s, nth_error eps i = Some s -> load s w2 = (w2, Val (m i)) /\ poll_ready svc s w2 = (w2, Val (s, Ready (Ok tt)))) ->
        exists s, nth_error eps (who u v) = Some s /\ passes_to keq svc D sched next_u64 debug load le fuel b w w2 s) /\
      (forall i N, i < n ->
        share le m n i * (N / (n - 1) * (N / n)) <= how_many_pairs N (fun u v => who u v =? i) <= share le m n i * ((N / (n - 1) + 1) * (N / n + 1))).
  Proof.
    intros T Hn HZ. exists (fun u v => winner le m n (u mod (n - 1)) (v mod n)). split.
    - intros b w w1 eps u v g2 w2 He <- G Hq. eapply passing; eassumption.
    - intros i N Hi. rewrite <- (@draws_length _ le m n T i).
      assert (E : how_many_pairs N (fun u v => winner le m n (u mod (n - 1)) (v mod n) =? i) = how_many_pairs N (fun u v => among (draws le m n i) (u mod (n - 1)) (v mod n))).
      { unfold how_many_pairs. apply count_ext. intros [u v] _. cbn [fst snd].
        assert (Hx : u mod (n - 1) < n - 1) by (apply Nat.mod_upper_bound; lia). assert (Hy : v mod n < n) by (apply Nat.mod_upper_bound; lia).
        assert (X := @draws_winner _ le m n i _ _ Hi Hx Hy). rewrite <- among_in in X.
        destruct (Nat.eqb_spec (winner le m n (u mod (n - 1)) (v mod n)) i) as [E|E].
        - symmetry. apply X. exact E.
        - destruct (among _ _ _); [|reflexivity]. exfalso. apply E, X. reflexivity. }
      rewrite E. apply pairs_among; [apply draws_nodup; exact Hi|]. intros x y H. eapply draws_range; eassumption.
  Qed.
End Passing.

(** ** The shares add up *)
Lemma count_by A (f : A -> nat) (n : nat) (l : list A) : (forall x, In x l -> f x < n) ->
  list_sum (map (fun i => length (List.filter (fun x => f x =? i) l)) (seq 0 n)) = length l.
Proof.
  induction l as [|x l IH]; intros H.
  - cbn. induction (seq 0 n); auto.
  - assert (X := H x (or_introl eq_refl)). specialize (IH (fun y Hy => H y (or_intror Hy))). cbn [length]. rewrite <- IH. clear IH H.
    assert (Z : forall k s, f x < s -> list_sum (map (fun i => length (List.filter (fun x => f x =? i) (x :: l))) (seq s k)) =
      list_sum (map (fun i => length (List.filter (fun x => f x =? i) l)) (seq s k))).
    { induction k as [|k IH]; intros s Hs; [reflexivity|]. cbn [seq map]. cbn [list_sum fold_right]. f_equal; [|apply IH; lia].
      cbn [List.filter]. destruct (Nat.eqb_spec (f x) s); [lia|reflexivity]. }
    assert (O : forall k s, s <= f x < s + k -> list_sum (map (fun i => length (List.filter (fun x => f x =? i) (x :: l))) (seq s k)) =
      S (list_sum (map (fun i => length (List.filter (fun x => f x =? i) l)) (seq s k)))).
    { induction k as [|k IH]; intros s Hs; [lia|]. cbn [seq map]. change (list_sum (?a :: ?b)) with (a + list_sum b).
      cbn [List.filter]. destruct (Nat.eqb_spec (f x) s).
      - rewrite <- (Z k (S s)) by lia. cbn [length]. cbn [List.filter]. lia.
      - rewrite <- Nat.add_succ_r. f_equal. apply IH. lia. }
    apply O. lia.
Qed.
Lemma shares_sum {Metric} (le : Metric -> Metric -> bool) (m : nat -> Metric) (n : nat) :
  (forall a b, le a b = false -> le b a = true) ->
  list_sum (map (share le m n) (seq 0 n)) = n * (n - 1).
Proof.
  intros T. set (l := list_prod (seq 0 (n - 1)) (seq 0 n)). set (f := fun xy : nat * nat => winner le m n (fst xy) (snd xy)).
  assert (In_l : forall x y, In (x, y) l <-> x < n - 1 /\ y < n).
  { intros x y. unfold l. rewrite in_prod_iff, !in_seq. lia. }
  assert (Nl : NoDup l).
  { unfold l. generalize (seq_NoDup (n - 1) 0), (seq_NoDup n 0). generalize (seq 0 (n - 1)), (seq 0 n). intros A B HA HB.
    induction HA as [|a A Na HA IH]; [constructor|]. cbn. apply nodup_append.
    - apply nodup_map; [|exact HB]. intros x y _ _ [= E]. exact E.
    - exact IH.
    - intros [x y] H1 H2. apply in_map_iff in H1 as (z & [= <- <-] & _). apply in_prod_iff in H2 as [H2 _]. tauto. }
  assert (E : forall i, i < n -> share le m n i = length (List.filter (fun xy => f xy =? i) l)).
  { intros i Hi. rewrite <- (@draws_length _ le m n T i). apply Permutation_length. apply NoDup_Permutation.
    - apply draws_nodup. exact Hi.
    - apply NoDup_filter. exact Nl.
    - intros [x y]. rewrite filter_In, In_l. split.
      + intros H. destruct (@draws_range _ le m n i x y Hi H) as [Hx Hy]. split; [auto|]. apply Nat.eqb_eq. apply draws_winner; auto.
      + intros [[Hx Hy] H]. apply Nat.eqb_eq in H. apply draws_winner; auto. }
  rewrite (map_ext_in _ (fun i => length (List.filter (fun xy => f xy =? i) l))).
  2: { intros i Hi. apply in_seq in Hi. apply E. lia. }
  rewrite count_by.
  - unfold l. rewrite prod_length, !seq_length. lia.
  - intros [x y] H. apply In_l in H as [Hx Hy]. destruct (@drawn_back n _ _ Hx Hy) as (Ha & _). unfold f, winner. cbn. destruct (le _ _); assumption.
Qed.
