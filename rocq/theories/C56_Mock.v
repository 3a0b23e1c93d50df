(** C56: tower-test's Mock.  Specification in MockSpec.v: a history is any list of operations on a mock, its clones,
    their futures, the handle and its replies, in any order (so: from any number of threads), each with what it
    answered and whom it woke.  [ready_answer h i] and [response h j] say, from the history alone, what mock [i] and
    future [j] should answer; future [j] belongs to the [j]th call. *)
From Verif Require Import Base Middleware Mock MockSpec MockProof MockStep MockTop MockWake MockEnd.
Set Implicit Arguments.

Section C56.
  Context {T U E : Type}.
  Notation mentry := (@mentry T U E).

  (** Every [poll_ready] answers as it should. *)
  Theorem C56_ready l (h1 : list mentry) i t a d h2 :
    mhistory l = h1 ++ (MReady i t, MoReady a, d) :: h2 -> a = ready_answer h1 i.
  Proof. exact (@mock_ready T U E l h1 i t a d h2). Qed.

  (** A call succeeds only on a mock that has said ready since its last call, or after the handle was dropped... *)
  Theorem C56_call_ok l (h1 : list mentry) i r d h2 :
    mhistory l = h1 ++ (MCall i r, MoCalled, d) :: h2 -> closed h1 = true \/ permitted h1 i = true.
  Proof. exact (@mock_call_ok T U E l h1 i r d h2). Qed.
  (** ... on any other mock it panics... *)
  Theorem C56_call_panics l (h1 : list mentry) i r b d h2 :
    mhistory l = h1 ++ (MCall i r, b, d) :: h2 -> b <> MoNone -> closed h1 = false -> permitted h1 i = false -> b = MoPanic.
  Proof. exact (@mock_call_panics T U E l h1 i r b d h2). Qed.
  (** ... and nothing else ever panics: only such a call, whatever is done after it, and polling a future that
      has already answered. *)
  Theorem C56_panics l (h1 : list mentry) o d h2 :
    mhistory l = h1 ++ (o, MoPanic, d) :: h2 ->
    misuse (h1 ++ [(o, MoPanic, d)]) \/ exists j t, o = MPoll j t /\ answered h1 j = true.
  Proof. exact (@mock_panics T U E l h1 o d h2). Qed.

  (** The handle receives the accepted requests, each once, in the order of the calls... *)
  Theorem C56_delivers l (h1 h2 : list mentry) :
    mhistory l = h1 ++ h2 -> exists q, accepted h1 = received h1 ++ q.
  Proof. exact (@mock_delivers T U E l h1 h2). Qed.
  (** ... and says that there is none only if there is none. *)
  Theorem C56_delivers_all l (h1 : list mentry) a d h2 :
    mhistory l = h1 ++ (MRequest, MoRequest a, d) :: h2 ->
    match a with Ready (Some r) => exists q, accepted h1 = received h1 ++ r :: q | _ => accepted h1 = received h1 end.
  Proof. exact (@mock_delivers_all T U E l h1 a d h2). Qed.
  (** It is told that no more will come exactly when none is left and every mock has been dropped, clones included. *)
  Theorem C56_no_more l (h1 : list mentry) a d h2 :
    mhistory l = h1 ++ (MRequest, MoRequest a, d) :: h2 ->
    (a = Ready None <-> accepted h1 = received h1 /\ mocks_left h1 = 0).
  Proof. exact (@mock_none_left T U E l h1 a d h2). Qed.
  (** Every future answers as it should: with the reply to its own request, with [Closed] if there can be none. *)
  Theorem C56_response l (h1 : list mentry) j t a d h2 :
    mhistory l = h1 ++ (MPoll j t, MoPolled a, d) :: h2 -> a = response h1 j.
  Proof. exact (@mock_response T U E l h1 j t a d h2). Qed.

  (** After [allow(n)], and until the next one, at most [n] requests are accepted, and one more per clone (one more, if
      [n] is 0: a mock that has said ready stays so). *)
  Theorem C56_admits l (h1 : list mentry) n d h2 h3 :
    mhistory l = h1 ++ (MAllow n, MoDone, d) :: h2 ++ h3 -> no_allow h2 ->
    (N.of_nat (length (accepted h2)) <= n + N.of_nat (clones (h1 ++ h2)) + (if (n =? 0)%N then 1 else 0))%N.
  Proof. exact (@mock_admits T U E l h1 n d h2 h3). Qed.
  (** So with a mock that is never cloned, at most [n]. *)
  Theorem C56_admits_single l (h1 : list mentry) n d h2 h3 :
    mhistory l = h1 ++ (MAllow n, MoDone, d) :: h2 ++ h3 -> no_allow h2 -> (0 < n)%N -> clones (h1 ++ h2) = 0 ->
    (N.of_nat (length (accepted h2)) <= n)%N.
  Proof. exact (@mock_admits_single T U E l h1 n d h2 h3). Qed.

  (** A task that was told to wait is woken: by the time its mock would answer otherwise (it has been allowed to send,
      an error was sent, the handle was dropped)... *)
  Theorem C56_wakes_ready l (h1 : list mentry) i t d h2 h3 :
    mhistory l = h1 ++ (MReady i t, MoReady Pending, d) :: h2 ++ h3 -> leaves_mock i h2 ->
    ready_answer (h1 ++ (MReady i t, MoReady Pending, d) :: h2) i <> Pending -> In t (wakes h2).
  Proof. exact (@mock_wakes_ready T U E l h1 i t d h2 h3). Qed.
  (** ... or its future would. *)
  Theorem C56_wakes_response l (h1 : list mentry) j t d h2 h3 :
    mhistory l = h1 ++ (MPoll j t, MoPolled Pending, d) :: h2 ++ h3 -> leaves_fut j h2 ->
    response (h1 ++ (MPoll j t, MoPolled Pending, d) :: h2) j <> Pending -> In t (wakes h2).
  Proof. exact (@mock_wakes_response T U E l h1 j t d h2 h3). Qed.
End C56.
Print Assumptions C56_ready.
Print Assumptions C56_call_ok.
Print Assumptions C56_call_panics.
Print Assumptions C56_panics.
Print Assumptions C56_delivers.
Print Assumptions C56_delivers_all.
Print Assumptions C56_no_more.
Print Assumptions C56_response.
Print Assumptions C56_admits.
Print Assumptions C56_admits_single.
Print Assumptions C56_wakes_ready.
Print Assumptions C56_wakes_response.

(** With clones the bound [n] fails: each clone can be told "ready" before any of them sends, so that after
    [allow(1)] two requests are accepted. *)
Definition over_allowed : list (mop nat nat nat) := [MClone 0; MAllow 1; MReady 0 0; MReady 1 1; MCall 0 10; MCall 1 11].
Theorem C56_admits_clones_refuted :
  ~ forall (l : list (mop nat nat nat)) h1 n d h2 h3, mhistory l = h1 ++ (MAllow n, MoDone, d) :: h2 ++ h3 -> no_allow h2 -> (0 < n)%N ->
    (N.of_nat (length (accepted h2)) <= n)%N.
Proof.
  intros H. specialize (H over_allowed [(MClone 0, MoDone, [])] 1%N []
    [(MReady 0 0, MoReady (Ready (Ok tt)), []); (MReady 1 1, MoReady (Ready (Ok tt)), []); (MCall 0 10, MoCalled, []); (MCall 1 11, MoCalled, [])] []).
  assert (X : (2 <= 1)%N); [|exact (X eq_refl)]. apply H; [reflexivity| |reflexivity].
  intros n b d X. repeat (destruct X as [X|X]; [discriminate|]). exact X.
Qed.
Print Assumptions C56_admits_clones_refuted.

(** One history with everything in it: the mock is held back, let go, calls; the request is answered, a second one
    lost with the handle; whoever waited is woken. *)
Definition demo_ops : list (mop nat nat nat) :=
  [MAllow 0; MReady 0 7; MRequest; MAllow 2; MReady 0 7; MCall 0 10; MPoll 0 8; MRequest; MReply 0 (Ok 42); MPoll 0 8;
   MSendError 5; MReady 0 7; MReady 0 7; MCall 0 11; MPoll 1 9; MReady 0 7; MDropHandle false; MReady 0 7; MDropRx; MPoll 1 9; MCall 0 12; MPoll 2 9].
Example C56_demo : mhistory demo_ops =
  [(MAllow 0, MoDone, []); (MReady 0 7, MoReady Pending, []); (MRequest, MoRequest Pending, []); (MAllow 2, MoDone, [7]);
   (MReady 0 7, MoReady (Ready (Ok tt)), []); (MCall 0 10, MoCalled, []); (MPoll 0 8, MoPolled Pending, []);
   (MRequest, MoRequest (Ready (Some 10)), []); (MReply 0 (Ok 42), MoDone, [8]); (MPoll 0 8, MoPolled (Ready (Ok 42)), []);
   (MSendError 5, MoDone, []); (MReady 0 7, MoReady (Ready (Er (MUser 5))), []); (MReady 0 7, MoReady (Ready (Ok tt)), []);
   (MCall 0 11, MoCalled, []); (MPoll 1 9, MoPolled Pending, []); (MReady 0 7, MoReady Pending, []); (MDropHandle false, MoDone, [7]);
   (MReady 0 7, MoReady (Ready (Er MClosed)), []); (MDropRx, MoDone, [9]); (MPoll 1 9, MoPolled (Ready (Er MClosed)), []);
   (MCall 0 12, MoCalled, []); (MPoll 2 9, MoPolled (Ready (Er MClosed)), [])].
Proof. vm_compute. reflexivity. Qed.
(** Misuse: a call without readiness panics, and so does everything that locks the state afterwards. *)
Example C56_demo_misuse : mhistory [MCall 0 1; MReady 0 0; MAllow 1; MDropHandle false] =
  [(MCall 0 1 : mop nat nat nat, MoPanic, []); (MReady 0 0, MoPanic, []); (MAllow 1, MoPanic, []); (MDropHandle false, MoPanic, [])].
Proof. vm_compute. reflexivity. Qed.
(** The hypotheses of the waking theorems are met in it. *)
Example C56_demo_wakes : exists h1 h2 h3, mhistory demo_ops = h1 ++ (MReady 0 7, MoReady Pending, []) :: h2 ++ h3 /\ leaves_mock 0 h2 /\
  ready_answer (h1 ++ (MReady 0 7, MoReady Pending, []) :: h2) 0 <> Pending.
Proof.
  exists [(MAllow 0, MoDone, [])], [(MRequest, MoRequest Pending, []); (MAllow 2, MoDone, [7])]. eexists. split; [vm_compute; reflexivity|]. split.
  - intros t b d. split; [|intros u]; intros X; repeat (destruct X as [X|X]; [discriminate|]); exact X.
  - vm_compute. discriminate.
Qed.
Example C56_demo_wakes_response : exists h1 h2 h3, mhistory demo_ops = h1 ++ (MPoll 0 8, MoPolled Pending, []) :: h2 ++ h3 /\ leaves_fut 0 h2 /\
  response (h1 ++ (MPoll 0 8, MoPolled Pending, []) :: h2) 0 <> Pending.
Proof.
  exists (firstn 6 (mhistory demo_ops)), [(MRequest, MoRequest (Ready (Some 10)), []); (MReply 0 (Ok 42), MoDone, [8])]. eexists. split; [vm_compute; reflexivity|]. split.
  - intros b d. split; [intros t|]; intros X; repeat (destruct X as [X|X]; [discriminate|]); exact X.
  - vm_compute. discriminate.
Qed.
(** The mock and its clone are dropped one after the other. *)
Example C56_demo_no_more : mhistory [MClone 0; MDrop 0 false; MRequest; MDrop 1 false; MRequest] =
  [(MClone 0 : mop nat nat nat, MoDone, []); (MDrop 0 false, MoDone, []); (MRequest, MoRequest Pending, []); (MDrop 1 false, MoDone, []);
   (MRequest, MoRequest (Ready None), [])].
Proof. vm_compute. reflexivity. Qed.
