{"id": "C01", "title": "Middleware honours the Service contract towards what it wraps", "statement": "Put any composition of tower's service combinators and middleware on top of a service that panics as soon as its user breaks the contract (call without an unused Ready(Ok), use after a readiness error, polling a finished future). A caller that itself honours the contract - with any number of clones and response futures, in any environment - never sees a panic, and every operation returns (unless a loop that user code can keep going is in the stack: Retry, Reconnect, SpawnReady, Balance). This covers tower's util combinators, timeout, load-shed, filters, retry, steer, reconnect, limits, hedge, load measurement, SpawnReady, Shared and the make adapters, MakeBalance, and Balance over any discovery. Exceptions found: clones of a ready Steer, and a ConcurrencyLimit whose externally supplied semaphore is closed.", "quantifier": "all stacks of middleware of any depth, all wrapped services, all histories of legal operations on all clones and futures, all environments at every step", "why_tests_cant": "the space of stacks and of interleavings of polls, clones and environment changes is infinite", "anchors": ["tower-service/src/lib.rs:Service", "tower/src/util", "tower/src/retry", "tower/src/filter", "tower/src/hedge", "tower/src/limit", "tower/src/load_shed", "tower/src/reconnect", "tower/src/steer", "tower/src/timeout", "tower/src/balance/p2c", "tower/src/ready_cache", "tower/src/spawn_ready", "tower/src/load", "tower/src/make"]}
{"id": "C02", "title": "Readiness persists until the next call", "statement": "If the wrapped service never goes back from Ready(Ok) to Pending before a call, neither does any stack of tower middleware on it (LoadShed and Steer even establish this themselves). Reconnect is an exception: after a failed connect it answers Ready and, asked again, may answer Pending.", "quantifier": "all stacks, all services with persistent readiness, all histories", "why_tests_cant": "needs all histories of all stacks", "anchors": ["tower-service/src/lib.rs:Service::poll_ready", "tower/src/reconnect/mod.rs:Reconnect::poll_ready"]}
{"id": "C03", "title": "Mapping and boxing combinators are transparent", "statement": "MapRequest, MapResponse, MapErr, MapResult, MapFuture, Then, AndThen, Either, Optional, &mut/Box/BoxService/BoxCloneService deliver exactly what the wrapped service delivers, at the same polls, with exactly the documented function applied to the request / response / error, and touch nothing else: same readiness answers, same sequence of operations on the wrapped service, closure run exactly once per completion.", "quantifier": "all wrapped services, closures (with effects), histories of the owner, environments", "why_tests_cant": "equivalence over all histories of all services", "anchors": ["tower/src/util/map_request.rs", "tower/src/util/map_response.rs", "tower/src/util/map_err.rs", "tower/src/util/map_result.rs", "tower/src/util/map_future.rs", "tower/src/util/then.rs", "tower/src/util/and_then.rs", "tower/src/util/either.rs", "tower/src/util/optional", "tower/src/util/boxed", "tower/src/util/boxed_clone.rs"]}
{"id": "C04", "title": "Layers compose in the documented order", "statement": "ServiceBuilder layers added first are outermost; Stack, tuples (up to 16), Identity and slices of layers agree with nested application; composition is associative.", "quantifier": "all layer lists of any length, all layers, all services", "why_tests_cant": "infinitely many layer lists", "anchors": ["tower-layer/src/stack.rs", "tower-layer/src/tuple.rs", "tower-layer/src/identity.rs", "tower/src/builder/mod.rs:ServiceBuilder::layer"]}
{"id": "C05", "title": "Timeout: response wins, error only at or after the deadline, never both", "statement": "A Timeout future returns the inner response if that is there when polled, even if the deadline has passed; returns Elapsed only when the inner future was pending at that very poll and at least the configured duration has passed since call returned; and it completes by the first poll after the timer fired.", "quantifier": "all inner services, durations, poll schedules, clock behaviours", "why_tests_cant": "all timings and schedules", "anchors": ["tower/src/timeout/mod.rs", "tower/src/timeout/future.rs"]}
{"id": "C06", "title": "LoadShed never waits and rejects exactly when the inner service was not ready", "statement": "LoadShed::poll_ready never answers Pending; a call is passed on exactly when the last poll_ready of the inner service said Ready(Ok) and was not used up; otherwise the inner service is not called and the future fails at once with Overloaded.", "quantifier": "all inner services, histories, environments", "why_tests_cant": "all histories", "anchors": ["tower/src/load_shed/mod.rs", "tower/src/load_shed/future.rs"]}
{"id": "C07", "title": "Filter passes on exactly the accepted requests", "statement": "Filter calls the inner service exactly for requests the predicate accepts, with the request the predicate returned; a rejection completes with the predicate's error without touching the inner service; the predicate runs exactly once per call.", "quantifier": "all predicates (stateful), inner services, histories", "why_tests_cant": "all predicates and histories", "anchors": ["tower/src/filter/mod.rs:Filter", "tower/src/filter/predicate.rs"]}
{"id": "C08", "title": "AsyncFilter dispatches to the instance that was ready, after acceptance, at most once", "statement": "The inner call happens at most once per outer call, only after the async predicate resolved Ok, with the request it returned, on the very instance whose readiness was established; a rejection never reaches the inner service.", "quantifier": "all async predicates, inner services, poll schedules", "why_tests_cant": "all schedules", "anchors": ["tower/src/filter/mod.rs:AsyncFilter", "tower/src/filter/future.rs"]}
{"id": "C09", "title": "Retry: the number of attempts is one plus the number of retries the policy granted", "statement": "For one request the inner service is called exactly 1 + (number of times the policy's retry returned a future) times, each attempt with the request the policy last saved; the response delivered is that of the last attempt, as left by the policy.", "quantifier": "all policies, inner services, poll schedules, number of attempts", "why_tests_cant": "unbounded number of attempts and schedules", "anchors": ["tower/src/retry/future.rs", "tower/src/retry/mod.rs", "tower/src/retry/policy.rs"]}
{"id": "C10", "title": "Retry: no retry without a saved request; the policy is consulted only on completion", "statement": "If clone_request returned None the response is handed through unmodified and the policy is not asked; the policy is asked exactly once per completed attempt whose request was saved.", "quantifier": "all policies, services, schedules", "why_tests_cant": "unbounded histories", "anchors": ["tower/src/retry/future.rs:ResponseFuture::poll"]}
{"id": "C11", "title": "Retry: wait, then ready, then call", "statement": "A further attempt starts only after the policy's future completed and then poll_ready of the inner service answered Ready(Ok); a readiness error ends the request with that error; attempts never overlap.", "quantifier": "all policies, services, schedules", "why_tests_cant": "all schedules", "anchors": ["tower/src/retry/future.rs:ResponseFuture::poll"]}
{"id": "C12", "title": "Retry budget: withdrawals bounded by reserve plus deposits", "statement": "TpsBudget (used by one thread at a time): over any history of deposits/withdrawals at any times, a withdrawal is granted exactly if the balance (reserve plus deposits minus withdrawals) of everything since some moment between half and 1.1 times the ttl ago covers it; so withdrawals granted in the recent half of the ttl never cost more than the reserve plus the deposits of the last 1.1 ttl. All withdrawals of a run together cost at most the reserve once per half ttl begun plus three times all deposits. Every operation returns.", "quantifier": "all configurations, histories, times", "why_tests_cant": "unbounded histories", "anchors": ["tower/src/retry/budget/tps_budget.rs"]}
{"id": "C13", "title": "Retry budget: deposits do expire", "statement": "Once all deposits and withdrawals are 1.1 ttl old (ten slots of ttl/10, plus one) a withdrawal is granted exactly if the reserve alone covers it; the documentation's claim that a deposit is usable for the whole ttl is refuted.", "quantifier": "all histories and times", "why_tests_cant": "unbounded histories", "anchors": ["tower/src/retry/budget/tps_budget.rs:TpsBudget::expire"]}
{"id": "C14", "title": "Retry budget: percentage and reserve arithmetic", "statement": "TpsBudget::new accepts exactly ttl in [1 s, 60 s], retry_percent in [0, 1000] and min_per_sec < i32::MAX and panics otherwise; a withdrawal costs 1/percent deposits cut to an integer (up to one f32 rounding), the reserve is worth min_per_sec * ttl withdrawals, so retries granted in the last half ttl are at most that plus 2 * percent per deposit of the last 1.1 ttl. That the percentage itself is kept (0.7 behaves like 1.0), and the reserve for tiny percentages, are refuted.", "quantifier": "all ttl, min_per_sec, retry_percent", "why_tests_cant": "infinitely many arguments", "anchors": ["tower/src/retry/budget/tps_budget.rs:TpsBudget::new"]}
{"id": "C15", "title": "Retry budget shared by threads: overdraw is bounded", "statement": "With n threads sharing a TpsBudget (atomic steps interleaved arbitrarily) every withdrawal granted to a thread that read the balance while no other thread was turning the slots, and acted before the next turn, was covered by the balance read and leaves at worst an overdraft of n-1 withdrawals; it is refused only if the balance read was short; only one thread turns the slots at a time, and by the number of slots passed. The strict bound of C12 is refuted for n>=2, and the n-1 bound is refuted for a thread that reads during a turn.", "quantifier": "all interleavings of any number of threads", "why_tests_cant": "all interleavings", "anchors": ["tower/src/retry/budget/tps_budget.rs:TpsBudget::withdraw"]}
{"id": "C16", "title": "Backoff stays within its bounds", "statement": "The k-th delay of an ExponentialBackoff is at least the base min*2^k (capped at max), never below min, never above max, and exceeds the base by at most base*jitter (up to two f64 roundings); without jitter it is exactly the base. That the jitter is uniform on [0, base*jitter] is refuted: for a base of one second it is always zero.", "quantifier": "all configurations, iteration counts, random values", "why_tests_cant": "all random values and iterations", "anchors": ["tower/src/retry/backoff.rs"]}
{"id": "C17", "title": "Backoff base never decreases and make_backoff starts afresh", "statement": "The base of consecutive delays never decreases; every backoff made by a maker starts afresh at min - and, as the maker never advances its generator, with the very same jitter each time. Within a sequence every delay has a random number of its own: the k-th delay depends only on the configuration and the k-th number of the generator.", "quantifier": "all configurations and lengths of retry sequences", "why_tests_cant": "unbounded", "anchors": ["tower/src/retry/backoff.rs:ExponentialBackoff"]}
{"id": "C18", "title": "Backoff constructor rejects exactly the invalid configurations", "statement": "ExponentialBackoffMaker::new fails exactly for min>max, max=0, jitter<0, jitter>100 or non-finite jitter. What it makes never panics in release builds unless jitter > 100 % overflows a Duration (refuted there), and in debug builds only when the random float is 0.0.", "quantifier": "all arguments", "why_tests_cant": "infinitely many arguments", "anchors": ["tower/src/retry/backoff.rs:ExponentialBackoffMaker::new"]}
{"id": "C19", "title": "Random helpers stay in range and sample distinct indices", "statement": "next_f64 is in [0,1); next_range(a..b) is in [a,b); sample_floyd2 returns two distinct indices below its length, covering every ordered pair.", "quantifier": "all generators, ranges, lengths", "why_tests_cant": "all generator outputs", "anchors": ["tower/src/util/rng.rs"]}
{"id": "C20", "title": "Hedge: at most one duplicate, and only when allowed", "statement": "For one request the inner service is called at most twice; the second time only if the policy cloned the request, at least min_data_points latencies were in the read window, the delay (percentile) elapsed, can_retry allowed it and the first attempt had not completed when the duplicate was polled.", "quantifier": "all policies, services, latencies, schedules", "why_tests_cant": "all schedules", "anchors": ["tower/src/hedge/mod.rs", "tower/src/hedge/select.rs", "tower/src/hedge/delay.rs"]}
{"id": "C21", "title": "Hedge: the first completion wins and is delivered once", "statement": "The response is that of whichever attempt is first seen complete (original preferred on a tie); the other attempt's result is never delivered.", "quantifier": "all services and schedules", "why_tests_cant": "all schedules", "anchors": ["tower/src/hedge/select.rs"]}
{"id": "C22", "title": "Hedge: latency is recorded for successes only, at most once per attempt", "statement": "A latency is recorded exactly when an attempt completes with Ok; it is the time since that attempt was called, in milliseconds rounded up.", "quantifier": "all services and schedules", "why_tests_cant": "all schedules", "anchors": ["tower/src/hedge/latency.rs", "tower/src/hedge/mod.rs:millis"]}
{"id": "C23", "title": "Rotating histogram keeps one to two periods of data", "statement": "What the histogram reports at time t is exactly what was recorded in the last completed period (never older than two periods, never from the current one), as long as fewer than 2^32 periods pass between uses; beyond that, and for a period of zero, this is refuted.", "quantifier": "all histories of records, reads and times", "why_tests_cant": "unbounded histories", "anchors": ["tower/src/hedge/rotating_histogram.rs"]}
{"id": "C24", "title": "Hedge readiness: both legs", "statement": "Select::poll_ready asks both legs, once each, and is ready exactly if both are, failed exactly if one failed; for Hedge (whose second leg is always ready) readiness is exactly that of the instance that will take the original request, and nothing else is touched.", "quantifier": "all services", "why_tests_cant": "all services", "anchors": ["tower/src/hedge/select.rs:Select::poll_ready"]}
{"id": "C25", "title": "Reconnect delivers each connection error exactly once, as the response of the next call", "statement": "A failed connection attempt makes poll_ready Ready, the next call's future fails with exactly that error without touching any service; errors are never lost except by being replaced by a later failure, never delivered twice.", "quantifier": "all connectors, services, histories", "why_tests_cant": "all histories", "anchors": ["tower/src/reconnect/mod.rs", "tower/src/reconnect/future.rs"]}
{"id": "C26", "title": "Reconnect: at most one connection; a broken one is replaced", "statement": "A service is used until its poll_ready fails, then dropped, and the maker is asked (ready before call) for exactly one replacement before the next request is dispatched.", "quantifier": "all connectors, services, histories", "why_tests_cant": "all histories", "anchors": ["tower/src/reconnect/mod.rs:Reconnect::poll_ready"]}
{"id": "C27", "title": "Steer routes to the picked service and only when all are ready", "statement": "Steer says Ready only if every one of its services has said Ready since it was last called; a request goes to exactly the service the picker chose. (A clone of a Steer breaks this: refuted.)", "quantifier": "all numbers of services, pickers, histories", "why_tests_cant": "all histories", "anchors": ["tower/src/steer/mod.rs"]}
{"id": "C28", "title": "SpawnReady: background readiness hands the same service back", "statement": "SpawnReady answers Ready only when the wrapped service did, calls only that instance, passes the owner's requests on unchanged, never uses it while the background task holds it, loses it only with its task, and dropping it aborts the background task. Polls return provided a service that said ready does not take it back (otherwise refuted). The response future is the service's own, with its error wrapped.", "quantifier": "all services, background schedules, histories", "why_tests_cant": "all schedules", "anchors": ["tower/src/spawn_ready/service.rs"]}
{"id": "C29", "title": "CallAll (ordered): responses come back in request order, one each", "statement": "call_all yields exactly one result per request pulled from the stream, in the order of the requests, until the stream ends or readiness fails.", "quantifier": "all streams, services, poll schedules", "why_tests_cant": "unbounded streams and schedules", "anchors": ["tower/src/util/call_all/ordered.rs", "tower/src/util/call_all/common.rs"]}
{"id": "C30", "title": "CallAll (unordered): every response exactly once, in completion order", "statement": "call_all_unordered yields each call's result exactly once; nothing is lost or duplicated.", "quantifier": "all streams, services, schedules", "why_tests_cant": "unbounded", "anchors": ["tower/src/util/call_all/unordered.rs", "tower/src/util/call_all/common.rs"]}
{"id": "C31", "title": "CallAll: every request pulled is dispatched", "statement": "A request taken from the stream is passed to the service once it is ready, unless readiness fails; `unordered()` panics while a call is unanswered or after the end of the stream, but converting while a request is in hand loses it: refuted.", "quantifier": "all streams and schedules", "why_tests_cant": "unbounded", "anchors": ["tower/src/util/call_all/common.rs"]}
{"id": "C32", "title": "Oneshot and Ready drive the service correctly", "statement": "Oneshot polls readiness until Ready(Ok), calls exactly once with the request, then returns exactly the response; ReadyOneshot returns the service exactly when ready, having called nothing.", "quantifier": "all services and schedules", "why_tests_cant": "all schedules", "anchors": ["tower/src/util/oneshot.rs", "tower/src/util/ready.rs"]}
{"id": "C33", "title": "FutureService becomes the service its future yields", "statement": "future_service is Pending while the future is, fails with its error, then behaves exactly as the produced service.", "quantifier": "all futures, services, histories", "why_tests_cant": "all histories", "anchors": ["tower/src/util/future_service.rs"]}
{"id": "C34", "title": "ConcurrencyLimit: never more than max requests in flight", "statement": "With any number of clones, and of other services put under the same limit (GlobalConcurrencyLimitLayer), the calls in flight (from call until the response future is dropped) never exceed max.", "quantifier": "all interleavings of operations of any number of clones and futures", "why_tests_cant": "unbounded interleavings", "anchors": ["tower/src/limit/concurrency/service.rs", "tower/src/limit/concurrency/future.rs"]}
{"id": "C35", "title": "ConcurrencyLimit: permits are never lost or invented", "statement": "free permits + held permits + handed-over permits + live futures = max at all times; when everything is dropped all max permits are free again.", "quantifier": "all histories incl. drops at any point", "why_tests_cant": "unbounded histories", "anchors": ["tower/src/limit/concurrency"]}
{"id": "C36", "title": "ConcurrencyLimit: waiting instances are served first come first served", "statement": "Among instances that answered Pending, a released permit goes to the one that has waited longest; a newcomer does not overtake; a waiter is not left pending while a permit is free.", "quantifier": "all histories", "why_tests_cant": "unbounded histories", "anchors": ["tower/src/limit/concurrency/service.rs"]}
{"id": "C37", "title": "RateLimit: at most num calls per window", "statement": "Calls can be grouped into windows: each window starts with a call, consecutive windows start at least per apart, and each contains at most num calls, all before the next start; hence any interval of length per sees at most 2*num calls.", "quantifier": "all histories, rates, clock behaviours", "why_tests_cant": "unbounded histories", "anchors": ["tower/src/limit/rate/service.rs"]}
{"id": "C38", "title": "RateLimit: the naive reading (num per any interval of length per) fails", "statement": "The stronger claim that any interval of length per contains at most num calls is refuted.", "quantifier": "one history", "why_tests_cant": "it is a counterexample to a universal claim", "anchors": ["tower/src/limit/rate/service.rs"]}
{"id": "C39", "title": "RateLimit: does not limit needlessly", "statement": "Pending without consulting the inner service is answered only after num calls in the current window, and no later than the first poll after the timer fired is the limit lifted.", "quantifier": "all histories", "why_tests_cant": "unbounded histories", "anchors": ["tower/src/limit/rate/service.rs"]}
{"id": "C40", "title": "Buffer: requests are processed in the order they were sent, each exactly once", "statement": "The worker calls the inner service once per accepted, not abandoned request, in channel order, and sends each response to its own future.", "quantifier": "all interleavings of clones, worker and futures", "why_tests_cant": "all interleavings", "anchors": ["tower/src/buffer/service.rs", "tower/src/buffer/worker.rs"]}
{"id": "C41", "title": "Buffer: at most bound requests are waiting", "statement": "The number of requests accepted and not yet picked up plus reserved slots never exceeds the bound.", "quantifier": "all interleavings", "why_tests_cant": "all interleavings", "anchors": ["tower/src/buffer/service.rs"]}
{"id": "C42", "title": "Buffer: every accepted request gets an answer", "statement": "Every response future whose request was accepted before the worker was destroyed stops waiting for the buffer once the worker has run (response, inner error, the worker's failure or Closed); none is silently forgotten. (A request sent with a slot reserved before the worker was destroyed is forgotten: counterexample.)", "quantifier": "all interleavings", "why_tests_cant": "all interleavings", "anchors": ["tower/src/buffer/worker.rs", "tower/src/buffer/future.rs"]}
{"id": "C43", "title": "Buffer: a failed inner service fails everything with that error", "statement": "After the inner poll_ready failed, no further inner calls are made; the error is stored before the channel closes and is the one all handles report afterwards.", "quantifier": "all interleavings", "why_tests_cant": "all interleavings", "anchors": ["tower/src/buffer/worker.rs:Worker::failed"]}
{"id": "C44", "title": "Buffer: abandoned requests are skipped", "statement": "A request whose future was dropped before the worker picked it up is not sent to the inner service.", "quantifier": "all interleavings", "why_tests_cant": "all interleavings", "anchors": ["tower/src/buffer/worker.rs:Worker::poll_next_msg"]}
{"id": "C45", "title": "Buffer: clean shutdown", "statement": "When all handles are gone, the worker finishes the queued requests and only then terminates; it terminates early only if the inner service failed, and then every queued request has been answered. Neither the worker nor a response future panics unless the inner service does, and call panics only without a reserved slot.", "quantifier": "all interleavings", "why_tests_cant": "all interleavings", "anchors": ["tower/src/buffer/worker.rs:Worker::poll"]}
{"id": "C46", "title": "ReadyCache: internal assertions never fire", "statement": "No history of push/evict/poll_pending/check_ready/call_ready panics or hangs except call_ready on a key or index not in the ready set; no pushed service is lost or dropped twice.", "quantifier": "all histories, services, completion orders", "why_tests_cant": "unbounded histories", "anchors": ["tower/src/ready_cache/cache.rs"]}
{"id": "C47", "title": "ReadyCache: an evicted or replaced service is never used again", "statement": "After evict(key) no service pushed for that key before is asked for readiness or called. After push(key, new): an old service that was still pending is never used again; an old one that is ready may be called at most once more while the new one is not ready (unless a newer one fails), and never after a newer one has become ready.", "quantifier": "all histories", "why_tests_cant": "unbounded histories", "anchors": ["tower/src/ready_cache/cache.rs"]}
{"id": "C48", "title": "ReadyCache: a service is called only when ready, each key at most once in the ready set", "statement": "call_ready dispatches only to a service whose poll_ready answered Ready(Ok) and was not used since; keys in the ready set are distinct.", "quantifier": "all histories", "why_tests_cant": "unbounded histories", "anchors": ["tower/src/ready_cache/cache.rs"]}
{"id": "C49", "title": "ReadyCache: poll_pending's answer", "statement": "poll_pending answers Ready(Ok) exactly when nothing is left pending; a failing service is removed and reported with its key; others are unaffected.", "quantifier": "all histories", "why_tests_cant": "unbounded histories", "anchors": ["tower/src/ready_cache/cache.rs:ReadyCache::poll_pending"]}
{"id": "C50", "title": "Balance: requests go to a ready endpoint that discovery has announced and not removed", "statement": "p2c Balance dispatches each request to an endpoint inserted and not since removed/replaced according to the discovery updates it has seen, whose readiness was established immediately before.", "quantifier": "all discovery streams, endpoint behaviours, random choices", "why_tests_cant": "all histories", "anchors": ["tower/src/balance/p2c/service.rs"]}
{"id": "C51", "title": "Balance: the less loaded of two distinct ready endpoints is chosen", "statement": "With two or more ready endpoints, two distinct ones are sampled and the one with load not greater is chosen; with one, that one; with none, Pending. The response future is that endpoint's, with its error passed on.", "quantifier": "all load values and random numbers", "why_tests_cant": "all random choices", "anchors": ["tower/src/balance/p2c/service.rs:p2c_ready_index"]}
{"id": "C52", "title": "Balance: poll_ready terminates and an endpoint failure does not fail the balancer", "statement": "poll_ready returns unless discovery announces changes without end, and never panics over well-behaved endpoints; a failing endpoint is removed, only discovery errors are propagated.", "quantifier": "all histories", "why_tests_cant": "unbounded", "anchors": ["tower/src/balance/p2c/service.rs:poll_ready"]}
{"id": "C53", "title": "PendingRequests load = number of unfinished requests", "statement": "Whatever the wrapped service, the TrackCompletion and the order of calls, polls and drops: the load reported by PendingRequests equals the number of requests that are not over, i.e. whose future has neither given a response nor been dropped, or whose handle was kept by the TrackCompletion and has not been dropped. Measuring changes nothing else about the wrapped service. Constant is transparent and its load never changes.", "quantifier": "all histories", "why_tests_cant": "unbounded", "anchors": ["tower/src/load/pending_requests.rs", "tower/src/load/completion.rs", "tower/src/load/constant.rs"]}
{"id": "C54", "title": "PeakEwma load is bounded, non-negative, and decays", "statement": "Every load is exactly the moving average, in IEEE arithmetic, of the readings so far (each finished request's age and a 0 for each look at the load, weighted by the time since the reading before it; a reading above the average replaces it), times the number of unfinished requests plus one. With a positive decay time and f64::exp mapping numbers up to 0 into [0,1]: every load is finite and not negative; if the default and all round trips are at most D, the load is at most D*(unfinished+1) up to a relative 2^-48, however many updates there were; a round trip longer than the estimate raises it at once; while no request starts or ends successive loads do not increase; with a clock that does not run backwards no debug assertion fails. (A zero decay Duration, which PeakEwmaDiscover accepts, makes the load NaN in release builds.)", "quantifier": "all histories of round trips and times", "why_tests_cant": "unbounded", "anchors": ["tower/src/load/peak_ewma.rs"]}
{"id": "C55", "title": "TrackCompletion: the handle lives exactly as long as specified", "statement": "With CompleteOnResponse a request counts from its call until its future gives a response or is dropped, not less and not more. (An error answer alone does not end it: it counts until the future is dropped.)", "quantifier": "all histories", "why_tests_cant": "all histories", "anchors": ["tower/src/load/completion.rs"]}
{"id": "C56", "title": "tower-test Mock: readiness, accounting, delivery and waking", "statement": "Over every history of a Mock, its clones, its futures and its Handle: poll_ready answers ready exactly when the mock was told to go ahead (allow not used up, or an earlier ready not yet used), fails with the injected error once, fails with Closed once the handle is gone; call panics if and only if it is not so permitted; nothing else panics except after such a panic (poisoned lock) or when a finished future is polled; the handle receives the accepted requests once each, in order, and is told that no more will come exactly when none is left and the mock and all its clones have been dropped; each future answers with the reply to its own request or Closed; after allow(n) a single mock gets at most n requests through (refuted for clones: one more per clone); whoever was told to wait is woken when the answer changes.", "quantifier": "all lists of operations by any number of tasks on all objects, all requests, replies and errors", "why_tests_cant": "interleavings and histories are unbounded", "anchors": ["tower-test/src/mock/mod.rs:Mock,Handle,SendResponse", "tower-test/src/mock/future.rs:ResponseFuture"]}
{"id": "C57", "title": "Shared make service hands out independent clones; MakeService adapters are transparent", "statement": "A Shared is always ready; every call clones the service it holds exactly once, does nothing else to any service (never polls, calls or drops it), and its future gives that very clone at the first poll (or drops it if dropped before); the original's state never changes, so every clone is a clone of the service as it was put in.  into_service, as_service and the blanket MakeService implementation forward every operation unchanged.  MakeBalance makes what its maker makes (same readiness, polls, errors) and puts it into a new, empty balancer.", "quantifier": "all services, all histories of a Shared, its clones and futures, including panicking clones", "why_tests_cant": "unbounded histories over arbitrary services", "anchors": ["tower/src/make/make_service/shared.rs:Shared", "tower/src/make/make_service.rs:MakeService,IntoService,AsService", "tower/src/balance/p2c/make.rs:MakeBalance"]}
{"id": "C58", "title": "Balance does not poll discovery after it ended", "statement": "Once the discovery stream has returned None, Balance never polls it again (a Stream may panic if polled after its end).  Refuted: every poll_ready polls it again.", "quantifier": "all histories", "why_tests_cant": "needs a witness history", "anchors": ["tower/src/balance/p2c/service.rs:update_pending_from_discover"]}
{"id": "C59", "title": "ServiceList announces each service exactly once, in order, and then ends; wrappers keep the announcements", "statement": "Polling a ServiceList yields Insert(i, s_i) for i = 0, 1, ... in order, then None for ever. The discovery wrappers of tower::load (PendingRequestsDiscover, PeakEwmaDiscover, Constant) change the announced services and nothing else: same keys, order, removals, errors and end.", "quantifier": "all lists, any number of polls", "why_tests_cant": "unbounded lists", "anchors": ["tower/src/discover/list.rs:ServiceList", "tower/src/load/pending_requests.rs:PendingRequestsDiscover", "tower/src/load/peak_ewma.rs:PeakEwmaDiscover", "tower/src/load/constant.rs"]}
{"id": "C60", "title": "Misuse does not get past the middleware", "statement": "For owners that call without asking, or several times after one Ready(Ok), with any number of clones: LoadShed passes a request on exactly when the wrapped instance's readiness is established and unused, and rejects it without touching anything otherwise; RateLimit still keeps to num calls per window; Steer and the p2c Balance panic before touching the picker, discovery or any service.", "quantifier": "all sequences of operations, contract or not, all environments", "why_tests_cant": "all histories, including misuse", "anchors": ["tower/src/load_shed/mod.rs", "tower/src/limit/rate/service.rs", "tower/src/steer/mod.rs", "tower/src/balance/p2c/service.rs"]}
{"id": "C61", "title": "No lost wake-ups: Pending always comes from something that was polled and is pending", "statement": "Whenever a service assembled from tower's middleware (in any nesting), one of its response futures, a oneshot / ready_oneshot or call_all over it answers Pending, the task's waker has been registered in that very poll: the last thing done in it was to poll a wrapped service, user-supplied future, stream, timer or semaphore that answered Pending. (Hedge: the original request's future or service did so in the same poll, even when the duplicate is held back for ever.)", "quantifier": "all assemblies, states, environments and user code", "why_tests_cant": "a lost wake-up shows only under particular schedules; assemblies are unbounded", "anchors": ["tower-service/src/lib.rs:Service", "tower/src/util", "tower/src/timeout/future.rs", "tower/src/retry/future.rs", "tower/src/limit", "tower/src/hedge", "tower/src/reconnect/mod.rs", "tower/src/steer/mod.rs"]}
{"id": "C62", "title": "LoadShed over ConcurrencyLimit: rejects what exceeds the limit", "statement": "With any number of clones and services under the limit: poll_ready never answers Pending; at most max requests that were not rejected are in flight; every answer, and every operation on the wrapped services, is that of the first-come-first-served line of C36 with waiting replaced by rejection. With a single instance a request is rejected only if max requests are in flight or the wrapped service itself was not ready. With clones that is false (refuted): a refused clone stays in the line, the released permit is kept for it, and until it asks again every request of the other instances is rejected although nothing is in flight.", "quantifier": "all limits, services, interleavings of any number of clones and futures", "why_tests_cant": "unbounded interleavings; the refutation needs every n", "anchors": ["tower/src/load_shed/mod.rs:LoadShed", "tower/src/limit/concurrency/service.rs:ConcurrencyLimit", "tower/src/limit/concurrency/layer.rs:GlobalConcurrencyLimitLayer"]}
{"id": "C63", "title": "Retry with a shared budget: retry storms are bounded", "statement": "Retry with the documented policy (deposit for a result not to be retried, withdraw before a retry) on one TpsBudget shared by any number of clones, whatever is retried, waited for or copied, and whatever the owners do, contract or not (drop, poll again, call unready): the calls the wrapped service receives are at most the owners' own calls plus the withdrawals granted; so the extra calls cost at most the reserve once per half ttl begun plus three times the deposits for the successes, however many requests fail.", "quantifier": "all services, policies of that form, configurations, interleavings of any number of clones and response futures, clocks that do not run backwards", "why_tests_cant": "unbounded interleavings and histories", "anchors": ["tower/src/retry/mod.rs:Retry", "tower/src/retry/future.rs:ResponseFuture", "tower/src/retry/budget/mod.rs:Budget", "tower/src/retry/budget/tps_budget.rs:TpsBudget"]}
{"id": "C64", "title": "Requests are not multiplied: bounded amplification", "statement": "A service assembled from tower's middleware in any nesting calls the service at its bottom at most k times per request submitted, where k is the product of the factors of its layers: 1 + the retries the policy grants one request for each Retry, 2 for each Hedge, 1 for every other layer (util adapters, Timeout, LoadShed, Filter, Steer, Reconnect, limits, Balance, ReadyCache, MakeBalance, load measurement, SpawnReady). It holds in every history of a program with any number of instances, clones and response futures, dropped, polled again or left alone, contract or not, and including panics.", "quantifier": "all stacks, services, policies with a bound, programs and interleavings", "why_tests_cant": "nestings and histories are unbounded", "anchors": ["tower/src/retry", "tower/src/hedge", "tower/src/util", "tower/src/limit", "tower/src/balance/p2c/service.rs", "tower/src/ready_cache/cache.rs", "tower/src/steer/mod.rs", "tower/src/reconnect/mod.rs"]}
{"id": "C65", "title": "No detached work: requests in flight are owned by response futures, dropping them cancels", "statement": "For a service assembled from tower's middleware in any nesting (not Buffer, which queues requests for its worker), in every history without panics of a program with any number of instances, clones and response futures: the requests in flight at the bottom service (called, future not dropped) are at most k per response future the program still holds, where k doubles with every Hedge and is 1 otherwise (a Retry has dropped an attempt before it makes the next; Timeout, limits, Balance etc. keep nothing in the background). Once all response futures are dropped nothing is in flight, and no future was dropped twice.", "quantifier": "all stacks, services, policies, programs and interleavings", "why_tests_cant": "nestings and histories are unbounded; cancellation can happen at every point", "anchors": ["tower/src/retry/future.rs", "tower/src/hedge", "tower/src/util", "tower/src/timeout", "tower/src/limit", "tower/src/balance/p2c/service.rs", "tower/src/spawn_ready"]}
{"id": "C66", "title": "Nothing hangs that would not hang without the middleware", "statement": "For a service assembled from tower's middleware in any nesting (the combinators, Timeout, LoadShed, Filter, Retry with a policy that gives up at some point, Steer, RateLimit, ConcurrencyLimit, Hedge, the makers, load tracking, Balance over a discovery that pauses, SpawnReady over a service that does not take readiness back, Reconnect whose new connections do not fail at once) over services whose response futures answer after finitely many polls whatever happens meanwhile: after any history of any program, every response future obtained from the stack also answers (or panics) after finitely many polls, each of which returns; and, without RateLimit, ConcurrencyLimit and Balance, every instance becomes ready or fails after finitely many polls if the inner services do. No poll_ready, call or clone spins. A policy that never gives up is excluded, and does hang. So is a Reconnect whose new connections fail their first poll_ready: its poll_ready goes round for ever within one call (refuted).", "quantifier": "all stacks, services, policies with a bound, programs, environments and numbers of polls", "why_tests_cant": "termination for all schedules cannot be tested; nestings and histories are unbounded", "anchors": ["tower/src/retry/future.rs", "tower/src/hedge", "tower/src/util", "tower/src/timeout", "tower/src/limit", "tower/src/load_shed", "tower/src/filter", "tower/src/steer/mod.rs", "tower/src/reconnect/mod.rs", "tower/src/spawn_ready/service.rs", "tower/src/balance/p2c/service.rs"]}
{"id": "C67", "title": "Panics do not leak permits", "statement": "Any number of ConcurrencyLimit instances sharing a limit, and their response futures, where any operation on the wrapped service (poll_ready, call, clone, polling a response) may panic and takes the instance or future it was made on down with it (a task dies), while the others go on: all answers are those of the line of C36 with the panicked object leaving it; never more than max requests are in flight; permits are conserved at all times; and once everything is dropped or crashed all max permits are free again.", "quantifier": "all services, limits, histories of any number of owners, panics at any point", "why_tests_cant": "crash points and interleavings are unbounded", "anchors": ["tower/src/limit/concurrency/service.rs: poll_ready, call, clone", "tower/src/limit/concurrency/future.rs"]}
{"id": "C68", "title": "ServiceBuilder pipelines mean the composition of their layers, in order", "statement": "Whatever mapping layers (map_request, map_response, map_err, map_result, boxed, option_layer, nested builders and stacks, with the types changing on the way) a ServiceBuilder is given, in any number and nesting, the service it builds is the one it was given with requests, results and readiness errors mapped by the composed functions, and nothing else changed: same polls, same wake-ups, same clones and drops, in every history. What was added first sees requests first and responses and errors last; an absent optional layer changes nothing.", "quantifier": "all builders, services, histories, requests and results", "why_tests_cant": "nestings and histories are unbounded", "anchors": ["tower/src/builder/mod.rs:ServiceBuilder", "tower-layer/src/stack.rs", "tower-layer/src/identity.rs", "tower/src/util/either.rs", "tower/src/util/mod.rs:option_layer"]}
{"id": "C69", "title": "Every service instance and response future a stack makes is dropped, exactly once", "statement": "For a service assembled from tower's middleware in any nesting (the combinators, Timeout, LoadShed, Filter, AsyncFilter, Retry, Steer, Reconnect, RateLimit, ConcurrencyLimit, Hedge, the makers, load tracking, SpawnReady over a service that does not panic in poll_ready, Balance over any discovery), after any history of any program that did not panic: the instances of the service at the bottom (or its response futures, or the connections a connector made) that exist are exactly those that existed independently plus those that the instances and the response futures the program still holds account for, each layer's object accounting for a definite number. So a program that has dropped what it held leaves no clone, connection or in-flight request behind, and nothing was dropped twice.", "quantifier": "all stacks, services, programs, environments", "why_tests_cant": "histories and nestings are unbounded; a leak shows only by accounting over all of them", "anchors": ["tower/src/retry/future.rs", "tower/src/hedge", "tower/src/filter/future.rs", "tower/src/reconnect/mod.rs", "tower/src/ready_cache/cache.rs", "tower/src/balance/p2c/service.rs", "tower/src/util", "tower/src/limit", "tower/src/spawn_ready/service.rs", "tower/src/make"]}
{"id": "C70", "title": "Balance over PendingRequests routes by outstanding requests", "statement": "Any number of Balance instances over (PendingRequests-wrapped) discoveries, with any endpoints coming and going, endpoints that are ready or not, and any program: at all times the load of an endpoint a balancer has is the number of the program's unfinished requests to it (issued, and neither answered, nor dropped; with CompleteOnResponse). Hence when a balancer without a pending choice is polled to readiness and called, the request goes to its only ready endpoint or to one with no more unfinished requests than another ready one; with two ready endpoints, to one with the fewest. (PeakEwma's reference count obeys the same law.) The choice is made by poll_ready and kept: that the request goes to the least loaded of two at the time of the call is false (refuted).", "quantifier": "all services, discoveries, random streams, programs, numbers of balancers and endpoints", "why_tests_cant": "histories of requests, completions and membership changes are unbounded", "anchors": ["tower/src/balance/p2c/service.rs: poll_ready, p2c_ready_index, ready_index_load, call", "tower/src/load/pending_requests.rs", "tower/src/load/completion.rs", "tower/src/load/peak_ewma.rs", "tower/src/ready_cache/cache.rs"]}
{"id": "C71", "title": "A service behind a Buffer has one proper owner", "statement": "Whatever any number of Buffer handles, response futures and the worker do, interleaved in any way, the operations performed on the wrapped service form a history of a single owner that respects the Service contract (poll_ready to Ready(Ok) before each call, one call per readiness, nothing after an error). In particular a RateLimit behind a Buffer limits all handles together: the calls reaching the bottom service fall into disjoint windows of the period with at most num calls each, and at most 2*num in any interval of the period.", "quantifier": "all services, bounds, rates, numbers of handles, schedules of handles, worker and futures, clock behaviours", "why_tests_cant": "schedules are unbounded and the worker runs concurrently with all handles", "anchors": ["tower/src/buffer/worker.rs: Worker::poll, poll_next_msg, failed", "tower/src/buffer/service.rs", "tower/src/limit/rate/service.rs: poll_ready, call"]}
{"id": "C72", "title": "What a Buffer keeps alive, and how much Buffer over ConcurrencyLimit holds", "statement": "Whatever any number of Buffer handles, response futures and the worker do, interleaved in any way, the wrapped service's response futures in existence are exactly those of the requests called whose own response future has not been dropped (or which the worker has not handed over yet): nothing is leaked and nothing lives on after its owner. With a ConcurrencyLimit of max behind the Buffer, all handles together never have more than max calls in flight, and, as long as the worker has not been dropped, never more than bound + 1 + max requests are accepted and unfinished.", "quantifier": "all services, bounds, limits, numbers of handles, schedules of handles, worker and futures, drop points", "why_tests_cant": "schedules are unbounded, futures can be dropped at any point of the hand-over", "anchors": ["tower/src/buffer/worker.rs: Worker::poll, poll_next_msg", "tower/src/buffer/future.rs: ResponseFuture::poll", "tower/src/buffer/service.rs", "tower/src/limit/concurrency/service.rs: poll_ready, call", "tower/src/limit/concurrency/future.rs"]}
{"id": "C73", "title": "Buffer: room is never lost, and waiting handles are served in turn", "statement": "A slot of a Buffer's channel that nobody uses is available: as long as no handle was misused, the wrapped service has not failed and the worker has not been destroyed, if the handles holding a slot, the requests in the channel and the other handles waiting in line are together fewer than the bound, poll_ready of any handle answers Ready(Ok) at once. This holds after any history, in particular after handles that held a slot or waited for one were dropped. And slots are given out in the order of waiting: a handle that waits while one that came later is told it has a slot gets one when it next asks.", "quantifier": "all services, bounds, numbers of handles, schedules of handles, worker and futures, drop points", "why_tests_cant": "a lost permit shows only after a particular history of waits, grants and drops; schedules are unbounded", "anchors": ["tower/src/buffer/service.rs: poll_ready, call, Clone", "tower/src/buffer/worker.rs: poll_next_msg", "tower/src/buffer/mod.rs"]}
{"id": "C74", "title": "ReadyCache and Balance lose no wake-up", "statement": "Services and discovery register wakers: the task's own, or the one FuturesUnordered makes for a pending service. Wakers may fire at any time, also while the cache is being polled. Once ReadyCache::poll_pending has answered Pending, whatever wakers fire and keys are evicted after it: the task has been woken, or every pending service waits (it answered Pending to its last poll_ready and the waker it was given then has not fired); when the waker of a pending service that waits fires, the task is woken. Evicted and replaced services are dropped without waiting for their own wake-up. If everyone waits, polling the cache polls no service and wakes nobody (no busy loop); polling returns even if services wake themselves. Likewise for Balance: after poll_ready answered Pending, until the next poll, no endpoint is ready, and the task is woken or every endpoint and discovery wait. Every history is also one of the cache without wakers (C46-C52), for some order of polling.", "quantifier": "all services, discoveries, histories of pushes, evictions, polls, calls, and wake-ups at any time", "why_tests_cant": "a lost wake-up is a missed schedule; wakers fire from other threads at any time", "anchors": ["tower/src/ready_cache/cache.rs: Pending::poll, CancelTx::cancel, push_pending, poll_pending, check_ready_index, evict", "tower/src/balance/p2c/service.rs: poll_ready, promote_pending_to_ready, update_pending_from_discover"]}
{"id": "C75", "title": "no wake-up is lost inside a Buffer", "statement": "With tokio waking whom it promises to wake: a handle that was told Pending by poll_ready and has not been woken since would be told Pending again; a response future that was polled, answered Pending and has not been woken since would be answered Pending again, or the wrapped service's own response future has its waker; a worker that sleeps and has not been woken waits for the wrapped service, which said Pending and has its waker, or has served every request ever accepted while a handle is still there. So if everybody sleeps, nobody has been woken, and the wrapped service did not say Pending last, then every waiting response future waits for the wrapped service's response, and a handle waits only if other handles hold all the slots without using them.", "quantifier": "all services, bounds, interleavings of handles, worker and futures, cooperative-budget exhaustion, and wake-ups for other reasons at any time", "why_tests_cant": "a lost wake-up is a rare interleaving that hangs the program; tests poll in one order and mostly by hand", "anchors": ["tower/src/buffer/worker.rs: poll_next_msg, poll", "tower/src/buffer/service.rs: poll_ready, call", "tower/src/buffer/future.rs: poll"]}
{"id": "C76", "title": "no wake-up is lost at a concurrency limit, and nobody is overtaken", "statement": "For services under one concurrency limit (clones, or several services sharing the limit), with tokio's semaphore waking whom it hands a permit: whenever there is a permit for a waiting instance and for everybody who has waited longer, its owner has been woken, and the limit wakes nobody else; asking again without having been woken is answered Pending again and changes nothing, unless the instance has its permit and waits for the wrapped service; if somebody waits for a permit and nobody waiting has been woken, all permits are in use by requests in flight or instances holding one; and whatever the others do, a waiting instance has been woken by the time as many permits were given back as instances were waiting longer, plus one.", "quantifier": "all wrapped services, limits, numbers of instances and futures, orders of polls, calls, clones and drops, cooperative-budget exhaustion, and other wake-ups at any time", "why_tests_cant": "starvation and lost wake-ups depend on the order in which many tasks ask, give up and give back; tests poll a few instances by hand and never look at wakers", "anchors": ["tower/src/limit/concurrency/service.rs: poll_ready, call", "tower/src/limit/concurrency/future.rs: ResponseFuture", "tower/src/limit/concurrency/layer.rs: GlobalConcurrencyLimitLayer"]}
{"id": "C77", "title": "a rate limit's period has to fit into the clock", "statement": "RateLimit panics, apart from panics of the wrapped service and calls without readiness, exactly when a new period has to begin and now + per is beyond what the platform's clock can represent. While now + per is representable every operation does what the model with an unbounded clock does (so C37-C39 hold of the code). With a period that does not fit at construction (e.g. Duration::MAX, which Rate::new accepts) not a single call is ever let through.", "quantifier": "all wrapped services, rates, clock ranges, states and histories with time moving forward", "why_tests_cant": "tests use periods of milliseconds; nobody runs near the end of the clock", "anchors": ["tower/src/limit/rate/service.rs: poll_ready, call", "tower/src/limit/rate/rate.rs: Rate::new"]}
{"id": "C78", "title": "a Buffer is a layer like any other", "statement": "Put behind a Buffer of any size, a service (or a whole stack of middleware) that tolerates every lawful use is used only lawfully: whatever the handles, their futures, the worker and the rest of the world do, in any order, neither the worker task nor any response future panics, and none of them hangs if the service's operations return. Towards the layer above each Buffer handle keeps the Service contract: lawful use never panics, operations return, readiness once reported is not taken back, clones are usable - even though the worker and the other handles move in the middle of its operations. Hence any nesting of Buffers with the other middleware keeps the contract at every level.", "quantifier": "all wrapped services, buffer sizes, interleavings (also in the middle of an operation), clones, stacks and nestings", "why_tests_cant": "tests use one layer, one executor and a handful of schedules", "anchors": ["tower/src/buffer/service.rs: Buffer::poll_ready, call, clone", "tower/src/buffer/worker.rs: Worker::poll", "tower/src/buffer/future.rs: ResponseFuture::poll"]}
{"id": "C79", "title": "LoadShed over Buffer sheds only what does not fit", "statement": "With LoadShed over a handle of a Buffer (any schedule of worker, futures and other handles, also in the middle of its operations; the cooperative budget not putting polls off; nothing failed): poll_ready is never Pending; a request is answered Overloaded only if at the moment the handle was refused all places of the buffer were taken by queued requests, held by handles, or kept for handles waiting in line; with a single handle, exactly if bound requests were queued. With clones it can be shed although the queue is empty: a clone that was refused once stays in line and the freed slot is kept for it until it asks again, for ever if it does not (refuted).", "quantifier": "all wrapped services, bounds, numbers of handles, schedules, histories", "why_tests_cant": "tests fill a buffer by hand with one handle", "anchors": ["tower/src/load_shed/mod.rs: poll_ready, call", "tower/src/buffer/service.rs: poll_ready, call, Clone", "tower/src/buffer/worker.rs: poll_next_msg"]}
{"id": "C80", "title": "How a Balance shares requests among its ready endpoints", "statement": "With n >= 2 ready endpoints, which of them gets the next request depends only on their loads and on the two random numbers drawn. Drawn evenly, the numbers pick endpoint i with probability share(i)/(n(n-1)), up to the rounding of 2^64/n and 2^64/(n-1), where share(i) is twice the number of ready endpoints more loaded than i plus the number of others as loaded as i. So equally loaded endpoints are picked equally often, the only endpoint that is never picked is one more loaded than every other, and a less loaded endpoint is never picked less often than a more loaded one.", "quantifier": "all endpoint services, numbers of endpoints, loads (any totally ordered metric), balancer states, pairs of random numbers", "why_tests_cant": "tests draw a few thousand random pairs and check only that the indices are in range", "anchors": ["tower/src/balance/p2c/service.rs: p2c_ready_index, poll_ready, call", "tower/src/util/rng.rs: sample_floyd2, next_range"]}
{"id": "C81", "title": "The response time of a stack, and what a Timeout bounds", "statement": "For every stack of tower middleware there is a response time T computed from the times of the services and user futures it is made of (a Timeout bounds whatever is below it by its duration; Then, AndThen and AsyncFilter add; a Retry granting n retries with waits of at most d multiplies: T + n*(T + d + 2*lag); every other layer adds nothing; Hedge is bounded by its first request): if every pending future is polled again at most lag later, a response future is pending only for less than T after the call, and an answer comes at T + lag at the latest. In particular Timeout over anything. A Timeout placed below a Retry does not bound the whole by its duration (refuted).", "quantifier": "all stacks built from the layers, all closures, policies and services, all states, requests, clocks and schedules of polls", "why_tests_cant": "schedules, nesting and delays are unbounded", "anchors": ["tower/src/timeout/mod.rs:Timeout::call", "tower/src/timeout/future.rs:ResponseFuture::poll", "tower/src/retry/future.rs:ResponseFuture::poll", "tower/src/filter/future.rs", "tower/src/util/then.rs", "tower/src/hedge/select.rs"]}
{"id": "C82", "title": "Steer over one shared concurrency limit: readiness reserves permits", "statement": "If the n services below a Steer share one concurrency limit of max (GlobalConcurrencyLimitLayer, or clones of one ConcurrencyLimit) that nobody else uses, then being ready costs a permit per service: the Steer answers Ready(Ok) only if n plus the requests in flight are at most max, and then the limit does not hold it up; it never has more than max + 1 - n requests in flight; and with max < n it is never ready and never serves a request, however long it is polled.", "quantifier": "all services, numbers of services, limits, pickers that leave the limit alone, programs using the Steer and its response futures", "why_tests_cant": "a deadlock of permits depends on the numbers and the history of readiness, calls and drops; tests use one service per limit", "anchors": ["tower/src/steer/mod.rs: poll_ready, call", "tower/src/limit/concurrency/service.rs: poll_ready, call", "tower/src/limit/concurrency/layer.rs: GlobalConcurrencyLimitLayer", "tower/src/limit/concurrency/future.rs"]}
{"id": "C83", "title": "Panics do not leak load", "statement": "If operations of the wrapped service panic - poll_ready, call, or a poll of a response future - and the program goes on, PendingRequests still reports the number of requests whose call returned and that are not over: a call that panicked does not count, a future that panicked counts until it is dropped (as unwinding does), other requests are unaffected; once every future and handle handed out has been dropped the load is zero. PeakEwma likewise keeps the right count and is told when a request whose call panicked ends.", "quantifier": "all services, TrackCompletions, panics at any operations, states of the wrapped service after a panic, and interleavings", "why_tests_cant": "which operation panics, and when the debris is dropped, is up to the program; tests do not panic inside tracked services", "anchors": ["tower/src/load/pending_requests.rs: call, load", "tower/src/load/peak_ewma.rs: call, Handle", "tower/src/load/completion.rs: TrackCompletionFuture"]}
{"id": "C84", "title": "No middleware leaks permits", "statement": "In any stack of tower's middleware over a ConcurrencyLimit - timeouts, retries, hedging, load shedding, filters, balancers and so on - the permits in use are exactly those of the ready instances and of the undropped response futures that the stack's own instances and futures own; the requests in flight below the limit never exceed it; and once the program has dropped every instance and response future, in whatever state they were, all permits are free and the queue is empty. A Retry's response future never has more than one permit for all its attempts, and none while it waits out a backoff.", "quantifier": "all stacks over a limit of any size, services below it, and programs that make, clone, poll, call and drop instances and futures in any order, without panics", "why_tests_cant": "a permit can be lost on any path by which some layer gives up a future or an instance: tests exercise a few layers and a few paths", "anchors": ["tower/src/limit/concurrency/service.rs: poll_ready, call, Clone", "tower/src/limit/concurrency/future.rs: ResponseFuture", "tower/src/retry/future.rs: poll", "tower/src/timeout/future.rs", "tower/src/hedge/select.rs"]}
{"id": "C85", "title": "A Buffer drops all it is given, once", "statement": "Whatever the instances and response futures of a service hold - concurrency permits, places in a queue, requests in flight, load, connections - a Buffer in front of it neither leaks nor releases early: at any moment it has exactly what the worker's instance and the response futures not yet dropped (with the worker, in the channel, or in the Buffer's own response future) hold; and once the worker is gone and the program has dropped its response futures, in whatever state, nothing is left. In particular, over a ConcurrencyLimit all permits are then free and the queue is empty.", "quantifier": "all bounds, wrapped stacks, interleavings of handles, worker and response futures (including abandoned requests, failures, and the worker's being dropped at any time), without panics", "why_tests_cant": "a response future passes from worker to channel to handle while either end may go away: each point of each interleaving is a separate chance to lose it or drop it twice", "anchors": ["tower/src/buffer/worker.rs: poll, poll_next_msg", "tower/src/buffer/future.rs: poll", "tower/src/buffer/message.rs", "tower/src/buffer/service.rs: call"]}
{"id": "C86", "title": "A CallAll drops all it is given, once", "statement": "Whatever the instances and response futures of a service hold - concurrency permits, places in a queue, requests in flight, load, connections - a CallAll (ordered or unordered) over it neither leaks nor releases early: at any moment what exists is accounted for by the instance, inside it or taken out of it, and by the response futures still in progress; a finished response future is dropped at once, even if its answer has to wait for its turn; once it has ended only the instance is left; and once it has been dropped or consumed, at whatever point, and the instance taken out dropped too, nothing is left. In particular, over a ConcurrencyLimit all permits are then free.", "quantifier": "all wrapped stacks, request streams, polling orders and programs that poll, take the service out, convert to unordered and drop, without panics", "why_tests_cant": "every prefix of every interleaving of completions, pulls and drops is a separate chance to lose a future", "anchors": ["tower/src/util/call_all/common.rs: CallAll, poll_next, take_service, into_inner, unordered", "tower/src/util/call_all/ordered.rs", "tower/src/util/call_all/unordered.rs"]}
{"id": "C87", "title": "LoadShed over RateLimit is a fixed-window limiter that never waits", "statement": "Over a service that is always ready, LoadShed over RateLimit answers every poll_ready at once, and which requests it passes on is a function of the clock alone: num requests per window, a window beginning with the first request made (or, once the previous one is used up, announced) after the previous one has ended, everything else answered Overloaded. A request is shed only if num requests made within the last period were passed on.", "quantifier": "all rates with a positive number, wrapped services that are always ready, clocks, and times of announcing and making each request", "why_tests_cant": "the result depends on the whole history of times; the corner cases are a window that ends between poll_ready and call", "anchors": ["tower/src/load_shed/mod.rs: LoadShed", "tower/src/limit/rate/service.rs: RateLimit::poll_ready, call"]}
{"id": "C88", "title": "SpawnReady loses no wake-up", "statement": "Wakers may fire at any time, also while the service is being polled and while SpawnReady looks at its background task. Once SpawnReady::poll_ready has answered Pending, and until its owner polls or calls it again: the owner has been woken; or the background task has the service and the runtime has it in its queue; or the service answered Pending to the task and has the task's waker, which has not fired. When the service is ready and that waker fires, the runtime's next poll of the task wakes the owner, whose next poll_ready answers Ready(Ok). An owner not woken would be told Pending again, without the service being asked; a task not woken does nothing (no busy loop). Every such history is one of the SpawnReady of the other properties.", "quantifier": "all wrapped services, schedules of owner, runtime and wakers, races between the background task and the look at its JoinHandle, exhausted cooperative budgets and runtime shutdowns", "why_tests_cant": "a lost wake-up shows as a hang under one interleaving of three parties", "anchors": ["tower/src/spawn_ready/service.rs: SpawnReady::poll_ready, call", "tower/src/util/ready.rs: ReadyOneshot::poll"]}
{"id": "C89", "title": "CallAll loses no wake-up", "statement": "When CallAll or CallAllUnordered has answered Pending then, until it is polled again: the task has been woken, or every response future in progress waits with a waker that will wake the task when it fires, and no more requests will come, or the stream of requests waits with the task's waker, or a request is held and the service waits with the task's waker. When a future that is done wakes its waker, the next poll answers (in CallAll: if it belongs to the oldest call without an answer). A response future is polled only when it is new or the waker it was last given has fired; polled without having been woken, once no more requests come, CallAll touches nothing; futures that keep waking themselves cannot hold up a poll. Forgetting the wakers, every history is one of CallAll with some polling orders.", "quantifier": "all services, streams of requests and scripts of them, all histories of polls, wakers fired at any moment (also while a future, the service or the stream is being polled) and changes of the world, all budgets of FuturesUnordered", "why_tests_cant": "A lost wake-up shows only in the interleaving in which the waker fires between one poll and the registration of the next, with particular futures in flight; tests use mocks that wake at fixed points.", "anchors": ["tower/src/util/call_all/common.rs:CallAll::poll_next", "tower/src/util/call_all/ordered.rs:CallAll", "tower/src/util/call_all/unordered.rs:CallAllUnordered"]}
{"id": "C90", "title": "How a PeakEwma forgets", "statement": "While no request to a PeakEwma endpoint starts or ends, its load falls off exponentially with the decay time as the time constant, and independently of how often it is looked at: between two looks it is multiplied by exp(-(time between them)/decay), up to a relative 2^-50 in the exponent and per look, both from above and from below. In particular no peak is remembered for ever: after a hundred decay times in which no request starts or ends the load is at most one nanosecond, whatever it was, so that a balancer tries a once slow endpoint again.", "quantifier": "all wrapped services, completions, histories, times and numbers of looks, decay times from 1 ns to 2^65 ns, states of the estimate", "why_tests_cant": "IEEE double arithmetic iterated any number of times at arbitrary instants; a test samples a few instants and cannot show that rounding errors do not add up or that the result does not depend on how often the load is looked at", "anchors": ["tower/src/load/peak_ewma.rs: PeakEwma::load, RttEstimate::decay, RttEstimate::update, nanos", "tower/src/balance/p2c/service.rs: Balance::p2c_ready_index (reads the load)"]}
{"id": "C91", "title": "Steer over Buffers has no head-of-line blocking", "statement": "If each service of a Steer is wrapped in a Buffer whose limit is at least the number of requests that are ever with it at once, Steer::poll_ready always answers Ready, no matter how slow the services are - even if one of them never takes a request; it answers Pending only when it has just found one of the buffers full, with as many requests in its channel as the limit. A call after Ready never panics. With clones of the Steer the limit must be higher: a clone that is ready and idle holds a slot in every buffer.", "quantifier": "all numbers of services and limits, wrapped services, pickers, programs of readiness checks and calls, schedules of the workers, response futures and services before and during each poll and call", "why_tests_cant": "a claim of the documentation about every interleaving of several workers with one client; a test with a paused worker covers one of them, and cannot show that no slot is ever lost", "anchors": ["tower/src/steer/mod.rs: Steer::poll_ready, Steer::call, Steer documentation (head-of-line blocking)", "tower/src/buffer/service.rs: Buffer::poll_ready, Buffer::call"]}
{"id": "C92", "title": "The middleware the documentation teaches", "statement": "The code the documentation tells users to copy does what the documentation says. The Wrapper of 'Be careful when cloning inner services' that takes the ready instance with mem::replace: put over any stack of middleware over any service, it never uses anything against the Service contract, returns whenever what is under it returns, keeps readiness if that does; each call goes, once, with its request, to the very instance that had been polled ready, its future is that instance's response, and every instance and response future it made or took is dropped exactly once. The Wrapper that calls the clone instead misuses every service: with anything that polices the contract inside (any ConcurrencyLimit, for one), every request panics at the first poll of its future; where a clone is as ready as the original, the two are the same. The Timeout of the Service docs (tokio::select!): Expired comes no sooner than the timeout after call was entered; a poll that begins after the timer fired is not Pending; any other answer is the inner one; the inner future is dropped once; unlike tower's Timeout it may answer Expired although the response is there, and it starts its clock before the inner call; with biased; selection it would be tower's. The Timeout of the guide 'Building a middleware from scratch' has exactly the histories of tower's Timeout.", "quantifier": "every inner service and stack of middleware, every environment, clock, sequence of polls, and every outcome of select!'s random choice", "why_tests_cant": "The examples are only compiled as doc tests, never run against services that police the contract; the random branch order of select! and the interleaving of clock, response and timer cannot be enumerated.", "anchors": ["tower-service/src/lib.rs: Timeout (docs)", "tower-service/src/lib.rs: Wrapper (docs, wrong and right)", "tower-layer/src/lib.rs: LogService (docs)", "guides/building-a-middleware-from-scratch.md: Timeout, ResponseFuture"]}
{"id": "C93", "title": "The documented retry policy tries a failed request at most n more times", "statement": "With the policy that the documentation of Policy gives as its example (Attempts(n): a response is final, an error is retried while the number is above zero, each retry lowers it), a Retry sends each request at most n + 1 times, unchanged, and every further time to one clone of its service after a failed attempt has been dropped and that clone has said it is ready; a response is the answer of the last attempt and all before it failed; an error is that of the (n+1)-th attempt, or the one with which the service refused to become ready between two attempts; every request starts again with n; and a poll of the response future goes around its loop at most 3n+1 times.", "quantifier": "every n, every service and request, every interleaving of polls and environment changes, every sequence of answers", "why_tests_cant": "the bound on attempts must hold for every sequence of answers of the service and every poll schedule, which tests with a scripted service only sample", "anchors": ["tower/src/retry/policy.rs: documentation of Policy (Attempts)", "tower/src/retry/future.rs: ResponseFuture::poll", "tower/src/retry/mod.rs: Retry::call"]}
{"id": "C94", "title": "A Retry with an exponential backoff spaces its attempts", "statement": "If the policy of a Retry waits for the next_backoff of its ExponentialBackoff before every retry (whatever else it decides), then for every request the (k+1)-th further attempt is sent no earlier than min * 2^k (at most max) after the attempt before it was answered, for every number of retries, every jitter and every random number, and so no earlier than the sum of these pauses after the request; every request starts with min again; the pause never falls below min, also when the u32 count of iterations wraps. (A sleep that tokio cannot represent is cut to thirty years.)", "quantifier": "every configuration the maker accepts, every generator, every further decision and state of the policy, every service, every sequence of answers, poll schedule and forward movement of the clock", "why_tests_cant": "ties the float arithmetic of the backoff to the times at which requests are sent, for all histories; tests use a paused clock and a handful of delays", "anchors": ["tower/src/retry/backoff.rs: ExponentialBackoff::next_backoff", "tower/src/retry/future.rs: ResponseFuture::poll", "tower/src/retry/mod.rs: Retry::call", "tower/src/retry/policy.rs: Policy"]}
{"id": "C95", "title": "The combinators obey their laws", "statement": "Two closures in a row are one closure (map_request, map_response, map_err, map_result compose); what is done to the request and what is done to the answer may be layered in either order; map_response, map_err, map_result and and_then are the special cases of map_result and then that their names suggest; boxing, Either, a resolved FutureService and an identity map_request cannot be noticed. 'Equal' means that no client, whatever it does next upon what it has seen (misuse, clones and drops included), can tell the two apart by the answers, by panics or by the state of the rest of the program after any step, and so it stays when further layers are put on top.", "quantifier": "every wrapped service, every (effectful, possibly panicking) closure, every adaptive client with any number of clones and futures, every history of the environment, every stack of the listed layers on top", "why_tests_cant": "equality of two programs under all clients is not something tests of either can show; a difference in when a future is dropped or in what happens on misuse is invisible to a test that checks the response", "anchors": ["tower/src/util/map_request.rs MapRequest", "tower/src/util/map_response.rs MapResponse", "tower/src/util/map_err.rs MapErr", "tower/src/util/map_result.rs MapResult", "tower/src/util/then.rs Then", "tower/src/util/and_then.rs AndThen", "tower/src/util/either.rs Either", "tower/src/util/optional/mod.rs Optional", "tower/src/util/future_service.rs FutureService", "tower/src/filter/mod.rs Filter", "tower/src/timeout/mod.rs Timeout", "tower/src/load_shed/mod.rs LoadShed"]}
{"id": "C96", "title": "Concurrency limits taken in a fixed order never deadlock", "statement": "Put any number of instances of a service behind the same two shared concurrency limits, one within the other. Whatever they were made to do before - readiness asked of any of them in any order, calls without readiness, clones, instances dropped while they wait or hold a permit, futures dropped before completion - as soon as no response future is left and some instance is, some instance is ready at once (if the service behind the limits is ready at that time). If some instances take the two permits in the opposite order this is false: there is a run that leaves two instances, no future, and nobody ready ever again.", "quantifier": "every wrapped service (ready at that time, and not panicking), all capacities of at least one, any number of instances, every sequence of operations (misuse, clones, drops and environment steps that do not touch the two limits included)", "why_tests_cant": "a deadlock needs a particular interleaving of polls, releases and drops over several instances; no finite set of schedules shows that none exists", "anchors": ["tower/src/limit/concurrency/service.rs ConcurrencyLimit::poll_ready", "tower/src/limit/concurrency/layer.rs GlobalConcurrencyLimitLayer", "tower/src/limit/concurrency/future.rs ResponseFuture"]}
