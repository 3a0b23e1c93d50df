# Formal model of tower-rs/tower in Rocq (Coq 8.16.1)

## 1. Layout (`rocq/theories`)

| kind | files | contents |
|---|---|---|
| model | `Base` `Util` `Middleware` `Limits` `Hedge` `Layers` `ReadyCache` (also rng, discovery, balance) `Buffer` `Tps` `TpsNew` `Backoff` `Float` `CallAll` `SpawnReady` `Load` `Mock` `Make` | executable Gallina, one definition per Rust function, each citing file and lines; no proofs |
| specification | `*Spec.v` | what the properties mean, in terms of observable events; no proofs, no code model |
| proofs | all other files | invariants, simulations, lemmas |
| theorems | `Cnn_*.v` | one theorem per claim (closed by `exact`), `Print Assumptions`, non-vacuity `Example`s, refutations (`_refuted`) |

`Demo.v` holds concrete services used by examples and refutations only.

## 2. How asynchronous Rust is modelled

* A service is a record of functions (`poll_ready`, `call`, `poll_fut`, `clone`, and the drop glue)
  over an explicit world `W`; a computation is `W -> W * out A`, where `out` is a value, `Panic` or
  `Diverge`. Panics (asserts, unwraps, overflow in debug builds, indexing, `poll` after completion) are
  explicit outcomes; loops the code does not bound run on fuel and end in the explicit `Diverge`.
* One service instance and one future have one owner at a time (ownership). A history of an object is a
  list of its owner's operations, each preceded by an *arbitrary* change of the world: time, other
  tasks, the mood of the wrapped service. Theorems quantify over all services, worlds, changes and lists.
* Where objects really run in parallel on shared state (`Buffer`: handles, worker, response futures;
  `TpsBudget`: threads; `ConcurrencyLimit`: clones sharing a semaphore; the mock) the code is cut at
  its accesses to the shared state, and theorems quantify over every interleaving (`list` of moves).
* Where a theorem must speak of what was done to the wrapped service, the wrapped service is
  instrumented by a log in the world (`Track.v`, `RunInv.v`: events newest first).
* Integers are `Z`/`nat`; bounds (isize, u64, u32, `Duration`) are explicit where the code can reach
  them. Times are `Z`/`nat` in the unit of the code. Floats are IEEE 754 (Flocq's `binary_float`).

## 3. Properties: what is modelled and how it is proved

* **C01, C02** `ContractSpec`, `StackSpec` (grammar of stacks) → `Safe*`, `StackProof`. A *guard* service
  panics when the contract is broken; induction over the stack shows that no history of a
  contract-abiding owner reaches the panic. Exceptions found are separate `_refuted` theorems.
* **C03, C32, C33** (and the response futures and wrappers of C28, C51, C53, C57, C59) `DriveSpec` → `TranspProof`, `TranspMore`: step-by-step equality of histories (simulation).
* **C04** `Layers`, `LayersProof`: equations between layer denotations, induction over layer lists.
* **C05–C08** `SimpleSpec` → `SimpleProof`; **C09–C11** `RetrySpec` → `RetryProof`; **C25–C27** `RouteSpec` →
  `RouteProof`: run invariants over logs, induction over histories.
* **C12, C13** `Tps`, `TpsSpec` → `TpsProof`, `TpsTop`: ghost generations for the ring of slots.
  **C15** `TpsRace`, `TpsRun`, `TpsAlone`: invariant over all interleavings of atomic steps; the
  sequential functions are shown to be the one-thread case.
* **C14** `TpsNew` → `TpsNewSpec`, `TpsNewProof`; **C16–C18** `Backoff` → `BackoffSpec`, `BackoffProof`,
  `BackoffTop`: real-number error bounds of the float operations (Flocq).
* **C19, C58, C59, C50–C52** `ReadyCache` (Rng, Discover, Balance) → `RngSpec/Proof`, `BalanceSpec` → `Balance*`.
* **C20–C24** `Hedge` → `HistoSpec/Proof`, `HedgeSpec/Proof`.
* **C28** `SpawnReady`; **C29–C31** `CallAll`; **C53–C55** `Load`; **C56** `Mock`; **C57** `Make`: run invariants as above.
* **C34–C36** `Limits` → `ConcSpec/Proof`; **C37–C39** `RateSpec/Proof`.
* **C40–C45** `Buffer` → `BufferSpec`, `BufferBase` … `BufferTop`: one invariant (seven layers) preserved by
  every move of every object; progress by a decreasing measure.
* **C46–C49** `ReadyCache` → `CacheSpec`, `CacheProof`, `CacheHist`, `CacheCons`, `CacheTop`.

* **C60** `MisuseSpec/Proof`: the same invariants for owners that break the contract.
* **C61** `WakeSpec` (grammar of assemblies, `K` = "the waker is registered") → `WakeProof`: induction over
  the assembly.
* **C62** `ShedConcSpec/Proof`: LoadShed over ConcurrencyLimit refines C36's line in two simulation steps.
* **C63** `StormSpec/Proof`, `TpsLong`: Retry (Middleware.v) with the documented policy over the TpsBudget of Tps.v as one system with any number of clones and futures; Hoare-style credits (a granted withdrawal pays for one attempt), then `C12_long_run`. The budget operations are atomic here (one thread at a time inside the budget); races inside the budget are C15.
* **C64** `MeterSpec/Proof/More/Cache/Top`: an inductive description of stacks with their amplification factor (`bounded calls k svc I`), a credit logic (a state or future holds the number of calls it may still make), and induction over the stack and over the program. `map_future` (whose closure may do anything with the future) is not in the grammar; a Retry needs a policy whose grants per request are bounded.
* **C65** `FlightSpec/Proof/Top`: an inductive description of stacks (`direct live k svc`) over a world that counts the live response futures of the bottom service; every future of a layer owns an exactly known number of them (`Owning`), by induction over the stack and the program. Panics are excluded (unwinding is not modelled), `map_future` and Buffer are not in the grammar.
* **C66** `LiveSpec/Proof/More/Hedge/Cache/Top`: `reaches` (an inductive predicate: answers after finitely many polls, whatever the world is at each of them) is preserved by every layer, by induction over the stack, the program, and inside each layer over the inner future's own `reaches` proof (Retry: lexicographically with the retries the policy has left). Buffer is not in the grammar (its liveness is C42). `LiveCache` has ReadyCache and Balance.
* **C67** `UnwindSpec/Proof`: the system of C34-C36 with unwinding: what the semaphore looks like after a panic at each point, related step by step to the line of C36 from which the crashed object has been removed.
* **C68** `Builder`, `BuilderSpec/Proof`: a typed syntax of builders, applied to services; by induction on it the result is related to the given service by the composition of the mapping functions (histories, every poll of every future, clones and drops).
* **C69** `KeepSpec/KeepProof/KeepMore/KeepTop`: an inductive grammar `kept` of stacks that records, for each layer, how much of the bottom's count its instances and futures account for (linear accounting); each layer's operations balance, hence whole programs do. `as_service` is not in the grammar (its instance is a borrow).
* **C70** `Arcs` (the Arcs of all tracked services on a heap, `Load`'s operations at an address), `LeastSpec/LeastProof/LeastTop/LeastPick`: the reference counts by the accounting of C69, distinctness of the endpoints' Arcs by the same accounting of a history variable, then the last round of `poll_ready`.
* **C71** `BehindSpec/BehindProof` over `Buffer` and `Limits`: an induction over schedules generic in an invariant of (contract phase, wrapped service, world); instances: the history so far is a `run_svc` history; the windows of the limiter over a bottom service that notes the time of each call.
* **C72** `HoldSpec/HoldProof/HoldTop` over `Buffer`, `Limits`: an invariant locating every inner future (in the worker's hand, in its oneshot, in its response future) against the log; an induction over schedules generic in an invariant of (wrapped service, world, number of inner futures in existence); instances: a service counting its futures, the permits of ConcurrencyLimit.
* **C73** `RoomSpec/RoomProof` over `Buffer`, `Limits`: an invariant of the open channel: free permits + granted permits + slots held + queued requests = bound; the tickets in the semaphore's two lists are exactly the waiting handles' tickets, the line is sorted and behind every grant, and a permit is free only if nobody is in line; ticket order = order of waiting. Simplification: a handle whose `call` panicked (misuse) keeps its sender and loses its place in line; both theorems exclude it.
* **C74** `WakeCache` (ReadyCache and Balance once more, with wakers as values: FuturesUnordered's queue of woken
  children and the AtomicWakers of FuturesUnordered and of the cancelation pairs; wakers fire at any time, also during a
  poll), `RingSpec` → `RingProof` (invariant: a pending child is queued, or it waits and its cancelation pair holds its
  waker; the task's waker is in FuturesUnordered's AtomicWaker or has fired since the task began to poll), `RingLoop`,
  `RingTop` (every operation keeps it), `RingBal`, `RingBal2` (histories). `RefineSpec`/`RefineProof`: forgetting the
  wakers gives a history of the model used for C46-C52, with the polling orders read from a tape.
* **C75** `StallSpec` (Buffer.v with wakers beside it: who holds whose waker, derived from each step and what it
  answered; tokio's rules for firing them) → `StallProof` (invariant: a sleeper that was not woken is in the semaphore's
  line, or its oneshot sender is still held, or it waits on an empty channel or on the service; on top of `RoomProof`).
* **C76** `QueueSpec` (the system of ConcSpec with, beside it, who was told `Pending` and who was woken since; polls cut
  short by tokio's budget), `QueueProof`: extends C36's refinement: a ticket granted by the semaphore belongs to an instance
  woken; `fires` = the turn comes; positions in the line only shrink, by one per permit given back.
* **C77** `RateClock` (RateLimit again, with `Instant + Duration` panicking beyond the clock's range), `RateClockProof`:
  case analysis; for the last theorem, a fresh limit stays fresh until its first call, which panics.
* **C78** `BufSvc` (the handles of `Buffer.v` as a `Service` whose world is the whole concurrent program, the others moving between the steps of an operation), `BufSvcSpec` (`sound`: what holds of the program at every moment, in terms of `held`/`in_flight`), `BufSvcBase` (every move keeps it; no panic, no hang), `BufSvcProof`: the handle is `Safe`, and each operation is a run of the program of `Buffer.v`. `stk_buffer` in `StackSpec` puts it among the layers of C01/C02.
* **C79** `load_shed` (`Middleware.v`) over `buffer_service` (`BufSvc.v`). `ShedBufSpec` (`full`), `ShedBufProof`: the moment of each answer in the log (`moment`), the room invariant of C73 there (`told_pending`), and the handle's `poll_ready` as a run ending in its answer (`ready_last`). The refutation: a run, and induction on the number of requests shed after it.
* **C80** `balance` (`ReadyCache.v`), `sample_floyd2`. `ShareSpec` (`share`, `at_choice`, `passes_to`, counting of pairs), `ShareProof`: the residues of a draw that pick endpoint i, listed without repetition (`draws`), their number is the share, each residue pair is hit by between floor and floor+1 of the numbers below N; the sum by counting the residue pairs by their winner. `C80_share_example` computes a concrete case.
* **C81** `SwiftSpec`: `quick` is a coinductive predicate on futures (pending only before `D`, if polled at most `lag` apart); the inductive `swift clk lag T rdy svc` assigns a time to every stack. That code takes no time is C65's accounting with `k = 0` (`swift_direct`); each layer is proved by a simulation on `quick`, two-stage futures by one lemma, Retry by an invariant on its loop. Not covered: Buffer (its time depends on the queue), layers with their own clock, and readiness (only the time from `call` on).
* **C82** `GateSpec`: `steer` over `conc_limit`, one semaphore in the world, programs of `MeterSpec` without clones. Invariant of every state: services not in `not_ready` hold a permit, only the head of `not_ready` can have a ticket, free + handed over + held permits + futures = max. Other users of the same limit are not modelled here (they only take permits away).
* **C83** `WreckSpec`: the system of C53 continued through panics; whatever panicked goes on in an arbitrary state or is dropped. The simulation of C53 (`LoadProof.rel`) is shown to survive a panicking step; `all_dropped` reads off the history that nothing is left.
* **C84** `PermitSpec`: the limit is a bottom of the stacks of C69 in three ways: counting permits in use, counting the waiter with a given ticket, and counting permits less requests in flight. That each is linear is arithmetic of the semaphore's four operations (`PermitProof`); C69's induction does the stacks. For Retry: an invariant of the response future (an instance that has not just been polled for readiness has no permit).
* **C85** `StowSpec`: for any quantity that C69's stacks hold linearly, what a Buffer has of it is a sum over the worker's instance, the future it is about to hand over, the channels and the response futures. That every step of the Buffer (Buffer.v) keeps the balance is a case analysis per move (`StowProof`), from the invariants of C40-C45 and C72 (a request in the worker's hands has no answer in its channel yet; a channel with an answer still has its receiver).
* **C86** `GatherSpec`: a program with a CallAll (CallAll.v, with `ca_drop` added) and the instances it got out of it. For any quantity that C69's stacks hold linearly: a balance lemma per loop (FuturesUnordered, FuturesOrdered, poll_next), by induction on fuel and polling order (`GatherProof`), then induction over the program.
* **C87** `ShedRateSpec`: `admitted`, a function from the times of the requests to which pass, and the run of a program that polls and calls. Refinement by induction on the program; the second theorem from the first, by an invariant on the requests passed since the window began (`ShedRateProof`).
* **C88** `WakeSpawn` (model of SpawnReady with wakers and tokio's run queue), `SpawnWakeSpec`: histories of owner, runtime and wakers. An invariant (task queued, or service waits with its waker) and, since the Pending answer, that the JoinHandle has the owner's waker or the owner was woken (`SpawnWakeProof`); refinement to SpawnReady.v with a tape (`SpawnWakeRefine`).
* **C89** `WakeAll` (model: FuturesUnordered's queue, child wakers and parent waker; FuturesOrdered over it; `ca_next` of CallAll.v run on them), `AllWakeSpec`: histories, who waits. An invariant of the queue (a child is new, queued, or waits with a live waker; queued children do not wait) generic in the collection (`AllWakeProof`); refinement to CallAll.v with a tape (`AllWakeRefine`); answers and termination (`AllWakeLive`).
* **C90** EwmaFadeSpec/EwmaFade/EwmaFadeTop/EwmaFadeMain: one look multiplies the estimate by the computed exponential (relative errors of nanos, division, exp, product), induction over a quiet history with a relative factor and an additive denormal term per look, then the product with the number of requests.
* **C91** Apart.v puts services of one type in worlds of their own; SteerBufSpec: programs; SteerBufProof: per buffer, the handle of the Steer is the only one and holds a slot unless listed as not ready; queue ids are sent and unanswered (from the invariants of C40/C43); exactness from C79.
* **C92** DocCode.v models the four pieces of example code line by line (async blocks as explicit states that panic when polled after completion). `take_safe`, `doc_safe`, `guide_safe`, `log_safe` (SafeDoc.v) extend the typestate argument of C01; `take_kept`, `doc_kept` the accounting of C69; the rest by cases on one poll and induction on the polls.
* **C93** The example policy is modelled line by line (Attempts.v) and run in the Retry model; the inductive `attempting` says what the service sees; bounds, the meaning of a response and of an error are proved from it by induction, the loop bound by a measure.
* **C94** `patient` (Patient.v) is a policy over arbitrary user decisions that returns next_backoff's Sleep; the wrapped service keeps the times of calls and answers; an invariant over the states of the response future (attempt running / sleeping until a deadline / waiting for readiness) gives `spaced`; the pause comes from C16's analysis of next_backoff.
* **C95** is modelled by the existing models; `AlgebraSpec.alike` compares everything an adaptive client sees. Proof: bisimulations (sound and complete for `alike`, AlgebraProof.v), brute case analysis for the laws, relational reasoning for the congruences (AlgebraCong.v; the loop of Retry by induction on fuel).
* **C96** is modelled by `in_order`, the existing model of ConcurrencyLimit twice, in a program of any number of instances (MeterSpec.prog). Proof: an invariant of each of the two semaphores (permits available + handed over to a waiter + held by instances + held by futures = capacity; the queue and the granted tickets are exactly the instances' tickets; nobody queues while a permit is available) plus 'no interest in the second limit without a permit of the first', preserved by every step (InOrderProof.inv_step); then a case analysis finds the instance that is ready. The opposite orders: a concrete run and a fixed point.

Claims of the documentation that turned out false are stated as `_refuted` theorems next to what does
hold; the text of each property in `properties.jsonl` says which is which.

## 4. Trusted base

* Coq's kernel (8.16.1), and `vm_compute` (part of it) for examples.
* Axioms. `Print Assumptions` under every theorem says *Closed under the global context*, except for
  the theorems that mention real numbers (C14_*, C16_*, C17_non_decreasing, C17_own_number, C18_*, C19_next_f64_range,
  C19_next_f64_value, C54_* where reals occur, C70_peak_ewma_meets, C90_*, C94_spaced and C94_least). These rest on the standard library's reals and list:
  `ClassicalDedekindReals.sig_not_dec`, `ClassicalDedekindReals.sig_forall_dec`,
  `FunctionalExtensionality.functional_extensionality_dep`, `Classical_Prop.classic`. No axiom of my own,
  none of any other library (Flocq has none).
* vcheck also lists the opaque module fields of `Coq.ssr.ssrunder` and `Coq.Reals.Rdefinitions`
  (sealed by module types in the standard library; they are definitions, not axioms).
* The correspondence between the Gallina definitions and the Rust code: by reading; every definition
  cites its lines.

### Assumed of code outside the repository
* tokio: `mpsc` is FIFO and bounded by its semaphore; `oneshot` delivers once and sees a dropped peer;
  the semaphore is fair (first come first served); `Sleep` completes at or after its deadline, never
  before; `JoinHandle` gives the task's result, abort drops the task; atomics are sequentially
  consistent (as requested by the code).
* `futures`: `FuturesOrdered` yields in order of insertion, `FuturesUnordered` each completed future
  once, in any order (an oracle); polling a completed combinator future panics. For C74: `FuturesUnordered::poll_next`
  registers the task's waker, then polls queued children (new, or woken) in order of waking until one completes, the
  queue is empty, or it has polled enough, in which case it wakes the task; waking a child queues it and fires the
  registered waker; `AtomicWaker` keeps the last waker registered until it fires.
  For C75: the mpsc receiver's waker fires when something is sent or the last sender goes, a semaphore waiter's when it
  leaves the line (permit granted or channel closed), a oneshot receiver's when the sender is used or dropped; a poll put
  off by the cooperative budget wakes its task at once (for C76 too). Extra wake-ups may happen at any time.
* `indexmap`: entries in index order, `swap_remove` semantics. `hdrhistogram`: a multiset of recorded
  values with a percentile function.
* IEEE 754 with round-to-nearest-even, saturating `as` casts (Rust reference).

### Not modelled
* Wakers and `Context` are not values of the model. That something answering `Pending` registers the waker
  is the meaning of `Pending` for code at the bottom; C61 shows that tower's own `Pending` always comes
  from there. When a registered waker fires is not modelled, except in the mock (C56), in `WakeCache` (C74: at any time), for Buffer (C75), for ConcurrencyLimit (C76), for SpawnReady (C88) and for CallAll (C89).
* Memory layout, pinning, `unsafe`, `Send`/`Sync`, drop order beyond what releases permits, handles or
  channels; unwinding (a panic ends the history), except for ConcurrencyLimit (C67), load tracking (C83) and the Buffer's worker (C42, C45).
* tracing/spans, `Debug` formatting, feature gates, `tower-test`'s macros, examples, benches.
* Generic type plumbing: `Layer` impls are modelled where they carry behaviour (`Layers.v`).
* The hash function of `HasherRng` (any function), `RandomState` seeding.
* Relaxed-memory effects weaker than sequential consistency (`PendingRequests` uses `Arc` counts).

## 5. Testing the theorems

`seeded/LOG.jsonl` records wrong programs: an edit of the model, the claim it breaks, which theorems
failed to prove, which were tightened. Mutants are built in a scratch copy; a failing proof is replaced by
`Admitted` and every property theorem depending on it is counted as failed.
