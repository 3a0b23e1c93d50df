(** A retry policy that waits for a [Backoff] before each retry. *)
From Verif Require Import Base Middleware Backoff.
Set Implicit Arguments.
Local Open Scope Z_scope.

(** tokio's [Instant::far_future()], which [tokio::time::sleep] takes when [now + duration] is not an
    [Instant]: 86400 * 365 * 30 seconds from now. *)
Definition thirty_years : Z := 946080000 * second.

Section Patient.
  Context {W Req Resp Err A R : Type} (rt : Rt W).
  (** The last [Instant] the platform can represent. *)
  Context (horizon : Z).
  (** [HasherRng] or another [Rng] (backoff.rs:63-69, its type parameter), and the build profile. *)
  Context (next_u64 : R -> M W (R * Z)) (debug : bool).

  (** [tokio::time::sleep(next)], backoff.rs:182: its deadline. *)
  Definition sleep_for (d : Z) : M W Z :=
    get (fun w => if now rt w + d <=? horizon then now rt w + d else now rt w + thirty_years).
  (** [tokio::time::Sleep] (the [Backoff::Future], backoff.rs:174) as a future. *)
  Definition sleeping : Task W unit :=
    MkTask (W := W) Z (fun dl => b <- sleep_poll rt dl ;; ret (dl, if b then Ready tt else Pending)) (fun _ w => w).

  (** backoff.rs:176-183, [Backoff::next_backoff] in full: the timer too. *)
  Definition next_sleep (b : backoff (R := R)) : M W (backoff (R := R) * Z) :=
    '(b1, d) <- next_backoff next_u64 debug b ;; dl <- sleep_for d ;; ret (b1, dl).

  (** Which results to retry, and how requests are copied, is the user's choice: [ask] may change its state, the
      request and the result (retry/policy.rs:49-83), [copy] may refuse (85-89).  The rest is the use [Backoff]
      is made for: [retry] returns [Some(self.backoff.next_backoff())].  The derived [Clone] copies the backoff. *)
  Context (ask : A -> Req -> result Resp Err -> M W (A * Req * result Resp Err * bool))
    (copy : A -> Req -> M W (A * option Req)) (aclone : A -> M W A).
  Definition patient : Policy W Req Resp Err :=
    @MkPolicy W Req Resp Err (A * backoff (R := R)) sleeping
      (fun p r => '(a, c) <- copy (fst p) r ;; ret ((a, snd p), c))
      (fun p q res =>
         '(a, q1, res1, go) <- ask (fst p) q res ;;
         if go : bool then '(b1, dl) <- next_sleep (snd p) ;; ret ((a, b1), q1, res1, Some dl)
         else ret ((a, snd p), q1, res1, None))
      (fun p => a <- aclone (fst p) ;; ret (a, snd p)).
End Patient.
