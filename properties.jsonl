{"id": "C01", "title": "Cache transparency", "statement": "If all builders are deterministic functions of their dynamic state (which they do not change) and of what they resolve, and artifacts are not changed in place (get_mut, lookup_mut), then whatever `Cache::get*` returns (value or error) for a builder is what a from-scratch, cache-free evaluation of that builder would return under the dynamic states currently stored in the cache (initial state if none is stored), up to the identity of freshly allocated bins. Stale artifacts are never returned.", "quantifier": "all builder programs, all finite histories of cache operations, allocations, drops (with address reuse), caught builder panics, all hash iteration orders", "why_tests_cant": "Staleness depends on the whole history of invalidations, failures, collections and address reuse; tests sample a few histories of a few graphs.", "anchors": ["src/cache.rs:Cache::get", "src/cache/internal.rs:RawCache::build", "src/cache/internal.rs:invalidate_by_id", "src/cache/internal.rs:track_dependency"]}
{"id": "C02", "title": "Coherence of the artifact graph", "statement": "As long as no builder was re-entered, every artifact in the cache was built from exactly the artifacts that the cache still holds for the builders it resolved: if a cached artifact's build obtained artifact A for dependency W, the cache still holds that same A (same bin) for W.", "quantifier": "all histories without re-entrant builds, all cached artifacts, all their resolved dependencies", "why_tests_cant": "An invariant over every reachable cache state; depends on all orders of builds, invalidations, mutations and collections.", "anchors": ["src/cache/internal.rs:track_dependency", "src/cache/internal.rs:invalidate_by_id", "src/cache/internal.rs:lookup_mut", "src/cache/internal.rs:garbage_collection"]}
{"id": "C03", "title": "Repeated get returns the identical artifact without rebuilding", "statement": "Once `get*` succeeded for a builder, every later `get*`/`lookup*` returns the identical artifact without invoking the builder, as long as no intervening operation invalidates it; `get*` and dynamic-state reads never remove or replace an artifact that was present before.", "quantifier": "all cache states, all intervening sequences of non-invalidating operations, all builder programs", "why_tests_cant": "Quantifies over every intervening sequence and over what arbitrary builders do in between.", "anchors": ["src/cache.rs:Cache::get", "src/cache/internal.rs:get", "src/cache/internal.rs:lookup"]}
{"id": "C04", "title": "Invalidation removes exactly the transitive dependents", "statement": "`invalidate(b)` removes the artifacts of `b` and of every builder that transitively recorded a dependency on `b`, and keeps every other artifact unchanged; afterwards the recorded dependency graph is the old one restricted to the surviving builders.", "quantifier": "all reachable dependency graphs (any shape, also cyclic), all builders", "why_tests_cant": "Needs all graph shapes including diamonds and cycles.", "anchors": ["src/cache.rs:Cache::invalidate", "src/cache/internal.rs:invalidate_by_id"]}
{"id": "C05", "title": "Invalidation keeps dynamic states and knowledge of builders", "statement": "`invalidate(b)` changes no dynamic state and does not change which builders are known nor their number.", "quantifier": "all reachable cache states, all builders", "why_tests_cant": "Frame condition over every builder in the cache and every graph.", "anchors": ["src/cache/internal.rs:invalidate_by_id", "src/cache.rs:Cache::invalidate"]}
{"id": "C06", "title": "Invalidation terminates on every dependency graph", "statement": "The invalidation work list is exhausted after at most 1 + (number of recorded dependency edges) iterations, also for cyclic graphs.", "quantifier": "all cache contents (even corrupted ones), all builders, all iteration orders", "why_tests_cant": "Termination for every graph, including cycles.", "anchors": ["src/cache/internal.rs:invalidate_by_id"]}
{"id": "C07", "title": "Independence of hash iteration order", "statement": "The result and the cache state after any operation do not depend on the iteration order of the internal hash maps and sets: two runs of the same history that differ only in iteration orders yield equal outputs and equal states (only the state left behind by the panic of C14 may differ; the panic itself does not).", "quantifier": "all pairs of iteration-order choices, all histories", "why_tests_cant": "std HashMap order is randomised; no finite set of runs covers all orders.", "anchors": ["src/cache/internal.rs:invalidate_by_id", "src/cache/internal.rs:invalidate_dependents", "src/cache/internal.rs:garbage_collection"]}
{"id": "C08", "title": "No internal panic", "statement": "No cache operation panics by itself (failed downcast, missing map entry, `unwrap`, failed debug assertion), in debug or release builds: in every reachable state the only panics are those raised by user builders, except for `garbage_collection` and `get_mut`/`lookup_mut` in the situations C09 and C14 describe exactly.", "quantifier": "all reachable states, all operations, all builder programs, debug assertions on or off", "why_tests_cant": "Absence of panics over all histories.", "anchors": ["src/cache/internal.rs:lookup", "src/cache/internal.rs:build", "src/cache/internal.rs:dyn_state_cast_mut", "src/cache/internal.rs:ensure_dyn_state", "src/cache/internal.rs:garbage_collection"]}
{"id": "C09", "title": "Exactly when garbage collection panics", "statement": "`garbage_collection` panics if and only if, for some address, the builder there was purged, or a builder unknown to the cache was invalidated or `lookup_mut`-ed, since when the cache came to know no builder at that address and was not cleared with `clear_all`. In particular it never panics in histories that do not purge and neither invalidate nor `lookup_mut` an unknown builder; and it is refuted that it never panics in general: `purge(b); garbage_collection()` panics in every reachable state, as do `invalidate(b); garbage_collection()` and `lookup_mut(b); garbage_collection()` for an unknown `b`.", "quantifier": "all reachable states and histories", "why_tests_cant": "Depends on the whole history of the leaf bookkeeping; the existing tests never collect after a purge.", "anchors": ["src/cache/internal.rs:garbage_collection", "src/cache/internal.rs:purge", "src/cache/internal.rs:invalidate_by_id", "src/cache/internal.rs:invalidate_dependents"]}
{"id": "C10", "title": "Garbage collection safety", "statement": "`garbage_collection` never removes or changes the artifact, the dynamic state or the known-status of a builder to which a strong reference (Blueprint) still exists.", "quantifier": "all reachable states, all live builders, all iteration orders", "why_tests_cant": "Over all graphs mixing live and dead builders.", "anchors": ["src/cache.rs:Cache::garbage_collection", "src/cache/internal.rs:garbage_collection"]}
{"id": "C11", "title": "Garbage collection progress", "statement": "When `garbage_collection` returns, every builder without strong references that had no recorded dependents before the call is forgotten (no artifact, no dynamic state, not known), and nothing else was forgotten.", "quantifier": "all reachable states", "why_tests_cant": "Exact set over all graph shapes.", "anchors": ["src/cache.rs:Cache::garbage_collection", "src/cache/internal.rs:garbage_collection"]}
{"id": "C12", "title": "Repeated garbage collection is complete on acyclic graphs", "statement": "If no strong references to any known builder are left and the recorded dependency graph is acyclic, repeating `garbage_collection` at most (number of known builders) times leaves no known builder, artifact or dynamic state; each call that leaves something behind strictly decreases the number of known builders. More generally only live builders, their (transitive) dependencies, and dependency cycles survive.", "quantifier": "all reachable states whose recorded graph is acyclic", "why_tests_cant": "Unbounded graph depth.", "anchors": ["src/cache.rs:Cache::garbage_collection", "src/cache/internal.rs:garbage_collection"]}
{"id": "C13", "title": "Garbage collection is atomic with respect to its own panic", "statement": "If `garbage_collection` panics, the cache is unchanged, so after catching the panic every other operation behaves as before.", "quantifier": "all reachable states", "why_tests_cant": "Requires reasoning about every state in which the panic can occur.", "anchors": ["src/cache/internal.rs:garbage_collection"]}
{"id": "C14", "title": "Mutable access: exact panic condition and effect", "statement": "The documented claim 'get_mut / lookup_mut invalidate all dependents' is refuted: they panic exactly if some other builder has a recorded dependency on the target. Otherwise they change nothing but the returned artifact (and build it if it is missing; if the target depends on itself, its artifact is removed first). If the panic is caught, all other artifacts, all dynamic states and all known builders are kept, but the recorded dependencies on the target are lost, so that a later invalidate(target) leaves stale artifacts of its former dependents.", "quantifier": "all reachable states, all builders, all mutations", "why_tests_cant": "The failing case needs a dependent; quantifies over all states.", "anchors": ["src/cache.rs:Cache::get_mut", "src/cache.rs:Cache::lookup_mut", "src/cache/internal.rs:lookup_mut", "src/cache/internal.rs:invalidate_dependents"]}
{"id": "C15", "title": "Errors are never cached", "statement": "A failed build leaves no artifact for that builder; an `Err` is returned only if no artifact was cached and the builder's own `build` returned exactly that error; the next `get` invokes the builder again (a builder that was re-entered may have stored an artifact in its inner run).", "quantifier": "all states, all builder programs", "why_tests_cant": "Over all interleavings of nested failing and succeeding builds.", "anchors": ["src/cache/internal.rs:build", "src/cache.rs:Resolver::resolve"]}
{"id": "C16", "title": "lookup agrees with get and observers are pure", "statement": "`lookup*` returns Some(a) iff `get*` would return Ok(a) without invoking any builder; `lookup`, `lookup_ref`, `lookup_cloned`, `get_dyn_state`, `is_builder_known` and `number_of_known_builders` change nothing.", "quantifier": "all reachable states, all builders", "why_tests_cant": "Relates two operations in every state.", "anchors": ["src/cache.rs:Cache::lookup", "src/cache.rs:Cache::get", "src/cache/internal.rs:lookup"]}
{"id": "C17", "title": "Identity and type safety under address reuse", "statement": "An artifact or dynamic state returned for a builder was created by that very builder object (never by a dead builder whose address was reused) and has that builder's artifact / state type.", "quantifier": "all histories with arbitrary drops and address-reusing allocations", "why_tests_cant": "Depends on the allocator reusing addresses at an adversarial moment.", "anchors": ["src/cache/internal.rs:make_builder_known", "src/blueprint.rs:Blueprint::id", "src/lib.rs:BuilderId", "src/cache/internal.rs:lookup"]}
{"id": "C18", "title": "Builder identity of Blueprints", "statement": "Two live blueprints are equal (and have the same id and hash) iff they refer to the same builder object; `clone` and all conversions between Blueprint, BlueprintDyn and BlueprintUnsized preserve id and builder.", "quantifier": "all blueprints, all sequences of clone/convert", "why_tests_cant": "Over all conversion chains and all live pairs.", "anchors": ["src/blueprint.rs:Blueprint", "src/blueprint.rs:BlueprintDyn", "src/blueprint.rs:BlueprintUnsized", "src/canning.rs"]}
{"id": "C19", "title": "Meaning of is_builder_known and number_of_known_builders", "statement": "A builder is known iff some call introduced it (the target of get*/get_mut/dyn_state/dyn_state_mut, or a builder resolved meanwhile, whether the build succeeded, failed or panicked) and no later call unlearnt it (its purge, clear_all, or its collection: no strong reference and no recorded dependent); an artifact or dynamic state implies known; not known implies no artifact, no dynamic state and no recorded dependency; the number of known builders is the number of distinct builders known.", "quantifier": "all reachable states, all builders", "why_tests_cant": "Invariant over all histories.", "anchors": ["src/cache.rs:Cache::is_builder_known", "src/cache.rs:Cache::number_of_known_builders", "src/cache/internal.rs:make_builder_known"]}
{"id": "C20", "title": "Dynamic state life cycle", "statement": "A builder's dynamic state is initialised from `init_dyn_state` exactly when first needed, persists across invalidate, clear_artifacts, lookups and collection (while live), and is reset only by purge and clear_all; `dyn_state_mut` returns the current state, invalidates exactly the builder and its transitive dependents, and stores the modification.", "quantifier": "all reachable states, all operations, all mutations", "why_tests_cant": "Over all histories.", "anchors": ["src/cache/internal.rs:ensure_dyn_state", "src/cache/internal.rs:dyn_state_mut", "src/cache/internal.rs:dyn_state"]}
{"id": "C21", "title": "State isolation", "statement": "During `get*` a builder's dynamic state can only be changed by that builder's own `build`; no other operation except dyn_state_mut, purge, clear_all (and collection of dead builders) on that builder changes an existing dynamic state.", "quantifier": "all states, all builder programs, all operations", "why_tests_cant": "Over all builder programs and nesting.", "anchors": ["src/cache.rs:Resolver::my_state", "src/cache/internal.rs:dyn_state_cast_mut"]}
{"id": "C22", "title": "Purge removes everything about a builder", "statement": "After `purge(b)`, `b` is unknown, has no artifact and no dynamic state; the artifacts of its transitive dependents are gone; all other artifacts, dynamic states and known builders are unchanged.", "quantifier": "all reachable states, all builders", "why_tests_cant": "Exact effect over all graphs.", "anchors": ["src/cache.rs:Cache::purge", "src/cache/internal.rs:purge"]}
{"id": "C23", "title": "clear_artifacts removes all and only artifacts", "statement": "`clear_artifacts` removes every artifact and recorded dependency and changes neither dynamic states nor known builders; afterwards every builder is rebuilt on its next get.", "quantifier": "all reachable states", "why_tests_cant": "Over all states; includes leaf bookkeeping which later collections rely on.", "anchors": ["src/cache.rs:Cache::clear_artifacts", "src/cache/internal.rs:clear_artifacts"]}
{"id": "C24", "title": "clear_all yields a fresh cache", "statement": "After `clear_all` the cache is indistinguishable from a newly constructed one: it is equal to it, and every later history of calls with its answers is possible with the cleared cache iff it is possible with a new cache in its place.", "quantifier": "all states, all later histories", "why_tests_cant": "Quantifies over all continuations.", "anchors": ["src/cache.rs:Cache::clear_all", "src/cache/internal.rs:clear_all"]}
{"id": "C25", "title": "At most one build per builder and get", "statement": "Without re-entrancy, during one `get*` each builder is invoked successfully at most once, builders with a cached artifact are not invoked, and between two successful builds of the same builder its artifact was removed by an invalidating operation.", "quantifier": "all states, all builder programs, diamond graphs of any size", "why_tests_cant": "Sharing must hold for every graph.", "anchors": ["src/cache/internal.rs:get", "src/cache/internal.rs:build"]}
{"id": "C26", "title": "A panicking builder leaves the cache usable", "statement": "If a builder panics during `get*` (at any point of any nested build) and the panic is caught, the cache satisfies all of these properties in every continuation; no partial artifact is stored for the builders that were being built and artifacts completed before the panic are kept.", "quantifier": "all panic points in all nested builds, all continuations", "why_tests_cant": "Crash points are unbounded.", "anchors": ["src/cache/internal.rs:build", "src/cache.rs:Resolver::resolve"]}
{"id": "C27", "title": "Acyclic builders terminate and are never re-entered; cyclic ones never return", "statement": "If every builder resolves only builders of strictly smaller rank, `get*` terminates with recursion depth at most rank + 1 and no builder is re-entered. If every run of each builder of a set resolves a builder of the set before it returns, and none has an artifact, no `get*` of one of them ever returns; if no builder panics by itself, it does not terminate.", "quantifier": "all ranked builder systems of any depth, all states", "why_tests_cant": "Unbounded depth.", "anchors": ["src/cache/internal.rs:get", "src/cache/internal.rs:build"]}
{"id": "C28", "title": "RedeemingBuilder", "statement": "A RedeemingBuilder returns the inner artifact when the inner build succeeds and remembers it; when the inner fails it returns the most recent success (or the default), and panics exactly if there is none. The documented claim that after a failure no dependency on the inner builder is kept is refuted: the dependency is always recorded, so invalidating the inner builder invalidates the redeeming one.", "quantifier": "all inner builders, all states", "why_tests_cant": "All inner behaviours and histories.", "anchors": ["src/utils.rs:RedeemingBuilder", "src/cache.rs:Resolver::resolve"]}
{"id": "C29", "title": "FunctionalBuilder is a leaf", "statement": "A FunctionalBuilder resolves nothing and its result is exactly its closure applied to its own state, whose mutation persists.", "quantifier": "all closures, all states", "why_tests_cant": "All closures.", "anchors": ["src/utils.rs:FunctionalBuilder"]}
{"id": "C30", "title": "ConstBuilder always yields the same bin", "statement": "Whatever operations happen in between, every get of a ConstBuilder returns the very bin it was constructed with (shared cans), or a box with a value equal to it (boxed can; unless the user changed the cached artifact in place).", "quantifier": "all histories", "why_tests_cant": "All histories.", "anchors": ["src/utils.rs:ConstBuilder"]}
{"id": "C31", "title": "ConfigurableBuilder yields its current configuration", "statement": "get of a ConfigurableBuilder returns the value last stored via dyn_state_mut (the initial value if none since the last purge/clear_all).", "quantifier": "all histories", "why_tests_cant": "All histories of configuration changes.", "anchors": ["src/utils.rs:ConfigurableBuilder"]}
{"id": "C32", "title": "ClonedBuilder, ForwardingBuilder and FeigningBuilder", "statement": "ForwardingBuilder yields the identical bin of its inner builder, ClonedBuilder a new bin with an equal value; both pass the inner error on and record exactly the inner builder as dependency. FeigningBuilder yields the identical bin of its (infallible) inner builder, never returns an error, and never panics itself. A get of a ForwardingBuilder or ClonedBuilder can panic only because getting the inner builder panics.", "quantifier": "all inner builders, all states", "why_tests_cant": "All inner behaviours.", "anchors": ["src/utils.rs:ClonedBuilder", "src/utils.rs:ForwardingBuilder", "src/utils.rs:FeigningBuilder"]}
{"id": "C33", "title": "SimpleBuilder adaptors and unpack", "statement": "A SimpleBuilder (rc, arc, boxed) used as Builder behaves as its build function with stateless () dynamic state and cannot fail; `unpack` of a Result<T, Never> always yields the Ok value, so `unpack(get(..))` of such a builder is total.", "quantifier": "all simple builders, all states", "why_tests_cant": "Totality for all builders.", "anchors": ["src/rc.rs:SimpleBuilder", "src/lib.rs:unpack", "src/lib.rs:Unpacking"]}
{"id": "C34", "title": "Recorded dependencies are exactly the resolves since the last removal", "statement": "The cache records a dependency of U on W iff U resolved W (successfully or not) and since then neither U nor W nor anything U depends on was invalidated, purged, cleared (or collected). Consequently a dependency resolved only in a failed or superseded build still triggers invalidation (precision is refuted), but never too little.", "quantifier": "all histories", "why_tests_cant": "Over all histories of failing builds.", "anchors": ["src/cache/internal.rs:track_dependency", "src/cache/internal.rs:build", "src/cache/internal.rs:invalidate_by_id"]}
{"id": "C35", "title": "Doctor events reproduce the cache", "statement": "The doctor receives resolve/build/invalidate/clear events such that replaying them from an empty state reproduces exactly the artifacts and recorded dependencies of the cache, for histories without clear_artifacts, garbage_collection and mutable access (for which it is refuted).", "quantifier": "all histories", "why_tests_cant": "Over all histories.", "anchors": ["src/diagnostics/mod.rs:Doctor", "src/cache/internal.rs:track_dependency", "src/cache/internal.rs:build", "src/cache/internal.rs:invalidate"]}
{"id": "C36", "title": "Diagnostics output", "statement": "VisgraphDoc names each built artifact uniquely across the whole run and emits a well-formed DOT document, to be read back as exactly the graph of the events, provided the artifacts' texts can stand between quotes; the document covers all recorded dependencies and cached artifacts. Refuted: artifact labels are not escaped, so a Debug text with a quote breaks the document or injects statements; builder nodes are named by address, so a reused address merges two builders. TextualDoc writes one line per event, refuted for invalidate events, which lack the line break.", "quantifier": "all event sequences, all Debug texts", "why_tests_cant": "All texts and all event sequences.", "anchors": ["src/diagnostics/visgraph.rs:VisgraphDoc", "src/diagnostics/textual.rs:TextualDoc"]}
{"id": "C37", "title": "Canning round trips", "statement": "For each can (Rc, Arc, Box): converting a bin into a can and downcasting with the right type returns the same bin (same pointer), downcasting with any other type returns None, can and bin pointers agree; a weak reference upgrades iff a strong one is left; content lives exactly as long as it is reachable, nothing leaks, nothing dangles, a Box has one owner. For BuilderArtifact: downcasting succeeds for the type of the builder only and gives a blueprint of the same builder, but whether it was a Blueprint or a BlueprintUnsized is forgotten, so that the right-type-only clause holds for the builder type and fails for the kind of blueprint.", "quantifier": "all values, types and reference-count histories", "why_tests_cant": "All reference-count histories.", "anchors": ["src/canning.rs"]}
{"id": "C38", "title": "Cached artifacts were built under the current dynamic state", "statement": "While an artifact stays cached, the dynamic state of its builder is the one its build left behind: any change through dyn_state_mut or purge removes the artifact.", "quantifier": "all histories without re-entrant builds", "why_tests_cant": "Over all histories.", "anchors": ["src/cache/internal.rs:dyn_state_mut", "src/cache/internal.rs:build", "src/cache/internal.rs:purge"]}
{"id": "C39", "title": "Builders do only what their code says", "statement": "Whatever the cache does for a builder — resolve another builder, record a dependency, store an artifact, report an error — is something that builder's own build code can do; the cache never invents dependencies, artifacts or errors, and never attributes one builder's to another.", "quantifier": "all builder definitions, all histories of API calls, all logged events", "why_tests_cant": "Over all builder code and all histories, including nested builds, failures and panics.", "anchors": ["src/cache/internal.rs:build", "src/cache/internal.rs:track_dependency", "src/cache.rs:Resolver"]}
{"id": "C40", "title": "An artifact is the result of one complete run of its builder", "statement": "While the cache holds an artifact for a builder (and the user has not written to it through get_mut/lookup_mut), it is the value returned by one complete run of that builder's build, which left the dynamic state that the cache holds now, and every artifact handed to that run by the resolver is the one the cache holds now for the resolved builder, recorded as a dependency.", "quantifier": "all builder definitions, all histories without re-entrant builds (builders that resolve nothing: all histories)", "why_tests_cant": "An invariant relating the stored data to an execution of arbitrary code, over all interleavings of nested builds and invalidations.", "anchors": ["src/cache/internal.rs:build", "src/cache/internal.rs:invalidate_by_id", "src/cache/internal.rs:dyn_state_mut", "src/cache.rs:Resolver"]}
{"id": "C41", "title": "Artifacts are never mixed up, whatever panics were caught", "statement": "After any history in which every panic is caught and the cache used further — also panics from inside the cache that leave the recorded dependencies damaged, and panics of the Drop code of artifacts and dynamic states that cut a call off in the middle (except a purge cut off by the purged builder's own artifact, see C43) — still: no downcast fails and no missing entry is unwrapped; get*, lookup*, dyn_state, get_dyn_state, clear_* and the queries never panic by themselves; an artifact returned for a builder was built by that very builder object and has its type; a cached artifact is returned without building, a missing one is built and stored or the builder's own error is returned; invalidation terminates. (Staleness is not excluded, see C14.)", "quantifier": "all histories with all panics caught, all crash points at which Drop code may panic, all builder definitions, debug assertions on or off", "why_tests_cant": "Quantifies over every damaged state that any sequence of caught panics can produce.", "anchors": ["src/cache/internal.rs:invalidate_by_id", "src/cache/internal.rs:invalidate_dependents", "src/cache/internal.rs:lookup_mut", "src/cache/internal.rs:get", "src/cache/internal.rs:build"]}
{"id": "C42", "title": "clear_artifacts or clear_all repairs the cache after any panic", "statement": "After any history with all panics caught (as in C41), one clear_artifacts makes, and after any history whatsoever, with Drop code panicking anywhere, one clear_all makes the cache as good as new: from then on panics occur only as in C08, invalidate, purge and garbage_collection have exactly the effects of C04, C22 and C11, dependencies are recorded as in C34, and the artifact graph is coherent as in C02.", "quantifier": "all histories with all panics caught, all crash points, followed by a clear and any ordinary history", "why_tests_cant": "Over all damaged states and all continuations.", "anchors": ["src/cache/internal.rs:clear_artifacts", "src/cache/internal.rs:clear_all", "src/cache/internal.rs:invalidate_by_id"]}
{"id": "C43", "title": "Panicking Drop code: what an interrupted call leaves behind", "statement": "If dropping an artifact or a dynamic state panics while the cache executes a call, the call ends in that panic, and: an interrupted invalidate, dyn_state_mut, lookup_mut or get_mut of b has removed at most artifacts of b and its transitive dependents; an interrupted purge has in addition forgotten b itself; an interrupted garbage_collection touched only builders it was to collect, keeps all guarantees for all later calls, and calling it again completes it; purge (unless a dependent's artifact panicked), clear_artifacts and clear_all are completed by calling them again. Not so invalidate: if b's own artifact panics, all dependents keep stale artifacts which a second invalidate does not remove; and after a purge interrupted by b's own artifact, b's dynamic state may be handed to another builder allocated at the same address later, or make it panic by a failed downcast.", "quantifier": "all reachable states, all calls, all sets of artifacts and states whose drop panics (crash points), all continuations", "why_tests_cant": "Crash points: every entry may be the one whose drop panics, in every state, for every iteration order.", "anchors": ["src/cache/internal.rs:invalidate_by_id", "src/cache/internal.rs:purge", "src/cache/internal.rs:garbage_collection", "src/cache/internal.rs:clear_artifacts", "src/cache/internal.rs:clear_all", "src/cache/internal.rs:dyn_state_mut"]}
{"id": "C44", "title": "The cache is the reference cache", "statement": "Every history of API calls and answers of the cache (returned values and caught panics) is a history of a reference cache, and conversely: the reference cache keeps, per builder object, an artifact, a dynamic state, whether it is known, and one dependency relation, and is described by one rule per call and outcome (the documented ones, and the two panics of C09 and C14; no ids, hash maps, leaf sets, work lists, downcasts, debug assertions or iteration orders). After each history both contain the same artifacts, states, known builders, dependencies and log, and give the same answer to the next call.", "quantifier": "all builder programs (including allocation and dropping of builders, failing and panicking code, re-entrant builds), all histories of all API calls, all allocators and outside worlds", "why_tests_cant": "Equality of two infinite sets of histories over all programs.", "anchors": ["src/cache/internal.rs:RawCache", "src/cache.rs:Cache", "src/cache.rs:Resolver"]}
{"id": "C45", "title": "Debug or release, hash iteration order and kind of cans do not matter", "statement": "Two caches in the same outside world have the same histories, contents and next answers, whether compiled with debug assertions or not and whatever the iteration orders of their hash sets are; and everything a cache of boxed artifacts answers without mutable access, a cache of reference counted artifacts answers as well.", "quantifier": "all histories, all pairs of iteration orders, debug and release, all builder programs", "why_tests_cant": "Relates two runs under every pair of hash seeds and build profiles.", "anchors": ["src/cache/internal.rs:invalidate_by_id", "src/cache/internal.rs:garbage_collection", "src/cache/internal.rs:build", "src/canning.rs:CanSized"]}
{"id": "C46", "title": "What can be seen is all there is; laws of the calls", "statement": "Two caches, however they came about, that hold the same artifacts, dynamic states, known builders, dependencies and left-over addresses, with the same builders around, answer every further sequence of calls identically (they are interchangeable); interchangeable caches agree on everything that can be looked up. Up to interchangeability: invalidate and purge are idempotent and commute, purge subsumes invalidate, clear_all makes all earlier removals, looks and state changes pointless, looking (and get of a cached artifact) changes nothing, gc does nothing if every known builder is still held, two dyn_state_mut calls are one with the composed function and subsume invalidate, changes to different builders commute, dropping a builder commutes with removals, two writes through lookup_mut are one, and invalidate undoes them.", "quantifier": "all reachable caches, all builders (including in cyclic dependencies), all functions, all future call sequences including builds by arbitrary builder programs", "why_tests_cant": "Contextual equivalence: quantifies over all future histories from all reachable states.", "anchors": ["src/cache.rs:Cache::invalidate", "src/cache.rs:Cache::purge", "src/cache.rs:Cache::dyn_state_mut", "src/cache.rs:Cache::clear_all", "src/cache.rs:Cache::clear_artifacts", "src/cache.rs:Cache::garbage_collection", "src/cache.rs:Cache::lookup_mut"]}
{"id": "C47", "title": "Several caches sharing builders do not disturb each other", "statement": "A program may use several caches, of any mix of shared and boxed kinds, on the same builders, with builders made by one cache's artifacts and resolved by another. Each cache answers its own calls exactly as a cache on its own would (it is the reference cache of C44, with builders and bins made or dropped in between); a call on, or the drop of, one cache changes no artifact, dynamic state, known builder or dependency of another; no cache ever takes one builder for another because of addresses reused while another cache still knows the old builder. With a single cache this is the system of the other properties.", "quantifier": "all histories of calls on any number of caches, interleaved in any way, all builder programs, all addresses chosen by the allocator, all panics, caches dropped and made at any time", "why_tests_cant": "Quantifies over all interleavings of calls on unboundedly many caches and all allocator choices; the tests use two or three caches in a fixed order.", "anchors": ["src/multi_level_test.rs", "src/cache.rs:Cache", "src/canning.rs:WeakBuilder"]}
{"id": "C48", "title": "Other threads making and dropping builders at any time do not disturb the cache", "statement": "With the Arc variants, other threads may make builders, drop their last blueprint of a builder, or make bins at any moment, also while get is building, while builder code runs, and between the individual steps of garbage_collection. Whatever the interleaving: every call answers as the reference cache of C44 with those acts in between; nothing the cache holds (artifacts, dynamic states, known builders, dependencies) changes because of them; a cached artifact is returned without calling any builder; calls panic only for the reasons they do sequentially; garbage_collection forgets everything that was unowned and unused when it was called, never touches a builder that is still owned when it returns or is used by another, and forgets a builder dropped meanwhile either completely or not at all; builders which are alive or known never share an address. Without such acts this is the sequential system of the other properties.", "quantifier": "all schedules of the other threads' acts (functions of the clock), all histories of calls, all builder programs, addresses, iteration orders and panics, no bound on the number of acts", "why_tests_cant": "Quantifies over all interleavings with other threads; a test executes one schedule, and the upgrade/drop race inside garbage_collection is timing dependent.", "anchors": ["src/arc.rs", "src/boxed.rs", "src/cache/internal.rs:garbage_collection", "src/cache/internal.rs:get", "src/canning.rs:upgrade_from_weak"]}
{"id": "C49", "title": "A doctor that panics does no harm", "statement": "The diagnostics doctor is user code called in the middle of cache calls, and the bundled doctors panic when their output cannot be written. If the doctor panics and the panic is caught, then: invalidate, purge and clear_all have done all their work; dyn_state_mut has invalidated and not touched the state; get and get_mut lose nothing that was cached, keep what was built before the panic with all dependencies recorded, and do not store the artifact the doctor was being told of (so the doctor may know of an artifact the cache does not have); calls that tell the doctor nothing are not affected; calls that return did exactly what they do without a doctor. After any history of such panics the cache is as sound as ever: invalidation is exact, cached artifacts are those of the last build and coherent with what their builders were given, recorded dependencies change only as called for, and no call panics for a new reason.", "quantifier": "all doctors (any decision to panic as a function of everything told so far), all panic points, all histories of calls with caught doctor panics and interrupted garbage collections, all builder programs, addresses and iteration orders", "why_tests_cant": "The panic may come at any event of any history; a test has one doctor failing at one point.", "anchors": ["src/cache/internal.rs:track_dependency", "src/cache/internal.rs:build", "src/cache/internal.rs:purge", "src/cache/internal.rs:clear_all", "src/cache/internal.rs:invalidate", "src/diagnostics/mod.rs:Doctor", "src/diagnostics/textual.rs", "src/diagnostics/visgraph.rs"]}
{"id": "C50", "title": "Repeated garbage collection reclaims everything that does not hang on the user or on a cycle, and nothing else", "statement": "Builders stay alive as long as somebody holds a blueprint of them: the user, another live builder, or an artifact or dynamic state in the cache. Take any cache in which all builders nobody holds have been dropped. Calling garbage_collection as many times as there are known builders (dropping, after each call, the builders that are no longer held) leaves exactly those builders known that are not doomed, where a builder is doomed if the user does not hold it (directly or through other builders) and everything in the cache that blocks it (depends on it, or whose artifact or state holds it, directly or through other builders) is doomed too. The survivors keep their artifacts, states and dependencies, and the live builders are those held by the user or by surviving values. If no builder blocks itself, directly or through others, and the user holds nothing, everything is reclaimed and no builder is left alive; conversely an artifact or state that (transitively) holds its own builder stays, with its builder, however often garbage_collection is called. Unless something happened that breaks garbage_collection (C09), no round panics.", "quantifier": "all reachable caches, all ownership structures among builders, artifacts, states and the user, all numbers of rounds, all iteration orders", "why_tests_cant": "Quantifies over all ownership graphs and needs induction over rounds and well-foundedness of ownership; tests see single graphs.", "anchors": ["src/cache/internal.rs:garbage_collection", "src/cache/internal.rs:BuilderEntry", "src/canning.rs", "src/blueprint.rs"]}
{"id": "C51", "title": "Nothing is built that need not be: get calls exactly the builders it needs", "statement": "With builders that are functions of their dynamic state and of what they resolve: a get that returns has called exactly the builders that are wanted, where the requested builder is wanted unless its artifact is cached, and whatever a wanted builder resolves when evaluated from scratch is wanted unless its artifact was cached when get was called. Each of them is called exactly once, unless it fails. Afterwards the cache has the artifacts it had before and those of the wanted builders that did not fail, and no others. A get that panics has called only wanted builders. No other call but get_mut runs any builder: invalidation, clearing, garbage collection and dyn_state_mut are lazy. After changing the dynamic state of one builder, getting another calls exactly the wanted builders among those that were not cached or are affected by the change; all cached artifacts that are not affected are kept and their builders not called.", "quantifier": "all histories of pure builders, all cache contents, all builder programs, all graphs, all requests", "why_tests_cant": "Minimality of rebuilding is a statement about all builder graphs and cache contents, in both directions (nothing too much, nothing too little); tests count builds in single graphs.", "anchors": ["src/cache/internal.rs:get", "src/cache/internal.rs:build", "src/cache/internal.rs:invalidate", "src/cache.rs:Resolver", "src/cache/internal.rs:dyn_state_mut"]}
{"id": "C52", "title": "Cache transparency whatever other threads do", "statement": "With builders that are functions of their dynamic state and of what they resolve, and while other threads make and drop builders and bins at any time (before and in the middle of calls): get, get_ref and get_cloned return, or panic with, what evaluating the builder from scratch without a cache gives; so does lookup if it returns something, and everything in the cache is such a result. The call changes no builder there was before and no dynamic state. If builder code does not depend on addresses of bins, the answer is the only one possible and does not depend on the schedule, and get ends whenever the evaluation from scratch does.", "quantifier": "all schedules of other threads, all histories of pure builders, all builder programs, all cache contents, all points of a call", "why_tests_cant": "Interleavings of other threads with the turns of get and garbage_collection are unbounded, and tests run one of them.", "anchors": ["src/arc.rs", "src/cache/internal.rs:get", "src/cache/internal.rs:build", "src/cache/internal.rs:garbage_collection", "src/cache.rs:Resolver"]}
{"id": "C53", "title": "Everything at once: threads, panicking doctors, moody initial states, builders that catch panics", "statement": "While other threads make and drop builders, the doctor panics when it likes, init_dyn_state answers differently each time or panics, builders catch the panics of what they resolve and carry on, and garbage collection is broken off by panicking Drop code, all in the same history: calls panic only with user panics and with the panics known from calm weather. get of a cached artifact returns it and changes nothing; any get, also one that panics, loses and replaces no artifact, adds only what was built in it and records every dependency, also those whose panic was caught, and returns the artifact that is cached now or the error just returned. invalidate and dyn_state_mut, also if they panic, remove exactly the artifacts of the builder and what depends on it. init_dyn_state is asked only if there is no state. garbage_collection removes what was garbage when it was called and nothing that is held or depended on. In every state the artifacts a builder was given are those in the cache (unless a builder resolved itself), the dependency is recorded, and what is cached is what the last build returned.", "quantifier": "all histories, other weather in every call: all schedules of other threads, all decisions of doctors, init_dyn_state and catching builders, all builder programs, all crash points", "why_tests_cant": "The combinations of concurrent drops, panics at arbitrary points, caught panics and changing initial states are unbounded, and each is hard to provoke in a test.", "anchors": ["src/cache/internal.rs:build", "src/cache/internal.rs:get", "src/cache/internal.rs:ensure_dyn_state", "src/cache/internal.rs:garbage_collection", "src/cache.rs:Resolver", "src/lib.rs:Builder", "src/diagnostics/mod.rs:Doctor"]}
{"id": "C54", "title": "Bundled doctors with failing output", "statement": "If the output of a VisgraphDoc or TextualDoc fails (each write or flush may fail, after writing any part of its text), the doctor panics, and stays usable: the output consists of one piece per event told, each a beginning of what a doctor with a reliable output would have written about it had it been told only the events reported without panic before, and the whole of that if the event was reported without panic. So up to the first panic the output is that of a reliable doctor, and a panicking report never spoils the numbering of later ones; no two builds reported without panic have the same number. VisgraphDoc::into_inner gives the output back, closed, iff the closing write succeeds; if it fails it is repeated while unwinding, and the process aborts iff that fails too; dropping the doctor closes the document once and panics iff that fails. (Builds whose report panicked may share their number with the next build; a closing line may be written twice.)", "quantifier": "all sequences of events, all failure behaviours of the output (any operations, any part written), all options", "why_tests_cant": "Each operation of the output can fail after any part of its text, in any combination over an unbounded sequence of events.", "anchors": ["src/diagnostics/visgraph.rs:VisgraphDoc", "src/diagnostics/textual.rs:TextualDoc"]}
{"id": "C55", "title": "How much the cache stores", "statement": "The entries in all tables of the cache number at most six per known builder, two per recorded dependency and one per id left over; there is no more bookkeeping, whatever the history of builds, failures, invalidations, collections and panics. Recorded dependencies are between known builders only, so at most the square of their number. Ids are left over only by purge, and by invalidate and lookup_mut of builders the cache does not know, at most one by each such call since the last clear_all, and none in histories without them. garbage_collection, repeated as often as there are known builders, gives back everything once no known builder is held and there are no dependency cycles; clear_all always does; clear_artifacts keeps at most the known builders, their states and leaf marks. The exception is what a user would call a leak: ids left over stay until clear_all (or until a builder at the same address becomes known), so that a cache that knows nothing can store any number of them.", "quantifier": "all histories, builder programs, panics, address and iteration-order choices", "why_tests_cant": "A bound on bookkeeping has to hold after every history; tests look at contents of single tables after a few calls, and growth shows only in long runs.", "anchors": ["src/cache/internal.rs:CacheInternal", "src/cache/internal.rs:invalidate_by_id", "src/cache/internal.rs:purge", "src/cache/internal.rs:garbage_collection", "src/cache/internal.rs:clear_all", "src/cache/internal.rs:clear_artifacts", "src/cache.rs:Cache"]}
{"id": "C56", "title": "Identity of bins", "statement": "In an Rc or Arc cache, used by a user whose code makes bins only with Rc::new/Arc::new or gets them from the cache, two bins with the same identity (ptr_eq) have the same content, wherever they turn up: in answers, in cached artifacts and dynamic states, inside other artifacts, or handed between builders. The bin of a SimpleBuilder, ConfigurableBuilder or ClonedBuilder is new when it is built: it is identical to no bin seen before; and right after a get that builds it, no other cached artifact or dynamic state shares it (in particular not the inner builder of a ClonedBuilder). The builders bundled with the crate never hand on a bin they were not given.", "quantifier": "all histories of a user who forges no bins, all builder programs that forge none, panics, address and iteration-order choices, any bins the user makes on their own", "why_tests_cant": "Sharing is a property of all bins that ever existed in a history; tests compare two pointers at a time.", "anchors": ["src/utils.rs:ClonedBuilder", "src/utils.rs:ConfigurableBuilder", "src/utils.rs:ConstBuilder", "src/utils.rs:ForwardingBuilder", "src/rc.rs:SimpleBuilder", "src/canning.rs:Can", "src/cache.rs:Cache"]}
{"id": "C57", "title": "Caches used while one another's builders are being built", "statement": "A builder's code may use other caches (say, through a RefCell) while it is being built, make any calls on them, and these may run builders that use further caches, to any depth. Each cache still answers every call on it, whoever makes it, like the reference cache in a program where meanwhile builders are made and dropped, bins are made and time passes, and nothing else; it panics only for the reasons it otherwise does. A call changes nothing in caches that are not used during it, whatever happens in those that are. get of an artifact in the cache returns it without using any other cache. Using another cache is not a dependency: an artifact stays cached when what its builder got from another cache is invalidated there.", "quantifier": "all numbers of caches of any kinds, all histories of calls by the user and by builders at any depth, all programs, panics caught or passed on, address choices, iteration orders; caches dropped at any time", "why_tests_cant": "Interleavings of nested calls on any number of caches are unbounded; the interference of one cache with another through shared builders and reused addresses is only excluded by an invariant over all of them.", "anchors": ["src/cache.rs:Cache::get", "src/cache.rs:Resolver", "src/cache/internal.rs:RawCache::build", "src/canning.rs:WeakBuilder", "src/multi_level_test.rs"]}
{"id": "C58", "title": "Blueprints never dangle; a builder lives exactly as long as somebody holds it", "statement": "Programs in which the user and all code of builders use only builders of which they hold a blueprint (in a variable, a field, or a value given to them) never have a builder used that has been dropped, and none is dropped while it is being built, however calls, dropped blueprints, panics and collections follow one another. At any time exactly those builders exist that the user, or an artifact or dynamic state in the cache, holds, directly or through fields of builders: the cache itself keeps no builder alive. When the user has dropped all blueprints and cleared the cache, in whatever order, no builder is left. Calling garbage_collection as often as there are known builders leaves exactly those that are not lost for the user (as in C50). get returns what evaluating the builder from scratch gives (pure builders, no writing into artifacts), and does so whenever that evaluation ends; it panics only for the reasons it otherwise does.", "quantifier": "all builders (any fields, any code keeping or dropping its local blueprints at any point), all histories of calls and of dropping blueprints, all kinds of caches, address choices and iteration orders", "why_tests_cant": "Which blueprints are held where, and when the last one is dropped, has unboundedly many possibilities; that a weak reference in the cache is never upgraded after the last blueprint is gone is an invariant over all of them.", "anchors": ["src/blueprint.rs:Blueprint", "src/blueprint.rs:BlueprintUnsized", "src/blueprint.rs:BlueprintDyn", "src/canning.rs:394-541", "src/cache/internal.rs:RawCache", "src/cache/internal.rs:garbage_collection", "src/cache/internal.rs:build"]}
{"id": "C59", "title": "How much work the calls are", "statement": "The lookups, dyn_state, get_dyn_state, is_builder_known and number_of_known_builders, and get on an artifact that is there, do a fixed number of accesses to the cache's tables, whatever the cache holds. get does at most a fixed number and a fixed number for each time a builder resolves something during the call (the same bound, up to a constant, if it panics). invalidate, purge, dyn_state_mut and lookup_mut do at most a fixed number and a fixed number for each dependency forgotten; for invalidate these are the dependencies of the builders affected, so what is not affected is not even looked at. get_mut: both together. garbage_collection does at most a fixed number for each builder it knows, each leaf and each dependency it forgets. All calls of a history together do at most a fixed number per call, a fixed number per time a builder resolved something, and what garbage_collection and clear_artifacts looked at: forgetting dependencies is paid for by having made them. Counted are accesses to tables and elements of sets (hash tables taken as constant time), not the builders' and doctors' own code.", "quantifier": "all reachable states, all builders, all histories (with caught panics), all iteration orders, address choices, builds with and without debug assertions", "why_tests_cant": "A measurement on some graphs says nothing about other graphs or orders; whether a builder can be visited many times by invalidation depends on the shape of the dependency graph and on the iteration order.", "anchors": ["src/cache/internal.rs:invalidate_by_id", "src/cache/internal.rs:invalidate_dependents", "src/cache/internal.rs:track_dependency", "src/cache/internal.rs:get", "src/cache/internal.rs:build", "src/cache/internal.rs:lookup", "src/cache/internal.rs:lookup_mut", "src/cache/internal.rs:purge", "src/cache/internal.rs:garbage_collection", "src/cache/internal.rs:clear_artifacts", "src/cache/internal.rs:clear_all"]}
{"id": "C60", "title": "Blueprints shared with other threads, or kept by a doctor, never dangle and do not disturb the cache", "statement": "As C58, while others hold blueprints too: other threads (Arc variants) and doctors that keep the handles they are given. Whatever builders they make, blueprints they are given or drop, at any moment of a call, including during a build and between two steps of a garbage_collection: no call of the user and no builder run by it uses a builder that has been dropped, and none is dropped while it is being built. At any time exactly those builders exist that the user, the others, or an artifact or dynamic state in the cache holds, directly or through fields of builders. When everybody has dropped all blueprints and the cache is cleared, no builder is left. The calls answer as the reference cache does; get returns what evaluating the builder from scratch gives (pure builders, no writing into artifacts) and panics only for the reasons it otherwise does.", "quantifier": "all builders in safe Rust, all schedules of what others do, all histories of calls, of handing over and of dropping blueprints, with caught panics; all address choices and iteration orders", "why_tests_cant": "Which blueprint is dropped by another thread at which moment is up to the scheduler; a race that upgrades a weak reference too late or drops a builder in use shows only under schedules tests do not force.", "anchors": ["src/arc.rs", "src/boxed.rs", "src/blueprint.rs:Blueprint", "src/diagnostics/mod.rs:BuilderHandle", "src/canning.rs:394-541", "src/cache/internal.rs:garbage_collection", "src/cache/internal.rs:build", "src/cache/internal.rs:get"]}
{"id": "C61", "title": "Memory: reference counts decide what lives and where new builders can be", "statement": "Let a user and the code of builders use only blueprints they hold (as C58), with Rc or Arc. Then everything that happens can happen on a memory of allocations with counts of strong and weak references: every call, every caught panic and every drop of blueprints is a sequence of clones of references that are there, allocations at free addresses and drops of references. At any time a builder is alive exactly if its strong count is above zero, and it is at the address under which the cache knows it. An address is in use exactly if a live builder is there or the cache knows a builder there: so the allocator never gives the address of a builder the cache knows to a new one, even after the known builder has been dropped, and gives back every other one. Upgrading the weak reference the cache has of a builder succeeds exactly if the builder is alive. When the user has dropped all blueprints and cleared the cache, all memory of builders is given back.", "quantifier": "all histories of calls, caught panics and drops of blueprints by a user holding any set of builders; all builder programs and field layouts; all allocators and iteration orders; all memories reachable by steps of smart pointers that match the history", "why_tests_cant": "Aliasing of a dropped builder's address by a new one depends on the allocator and shows only in rare interleavings; no test covers all of them.", "anchors": ["src/cache/internal.rs: RawCache::known_builders, garbage_collection", "src/blueprint.rs: Blueprint::new, Blueprint::new_binned, Blueprint::id, BlueprintUnsized::id", "src/canning.rs: CanStrong::upgrade_from_weak, CanStrong::downgrade, Can::can_as_ptr"]}
{"id": "C62", "title": "Order and repetition of requests do not matter", "statement": "With builders that are functions of their dynamic state and of what they resolve (as C01, not depending on addresses of bins): take two sequences of get, get_ref and get_cloned, from the same state, that ask for the same set of builders, in any order, any of them any number of times and in any of the three forms, where requests may return artifacts or errors or panic (caught). They end in the same state up to the addresses of bins: the same artifacts in the cache, the same dynamic states, the same known builders and recorded dependencies. Equal requests in them are answered alike, and so is any further request. A sequence calls exactly the builders that some request on its own would call (except those whose init_dyn_state panics), each that does not fail once altogether, and the cache then has what it had and the artifacts of these that did not fail.", "quantifier": "all reachable states of pure builders, all pairs of finite sequences of requests, all builder programs incl. failing and panicking ones, all iteration orders", "why_tests_cant": "All orders of all requests on all dependency graphs and cache contents cannot be tried.", "anchors": ["src/cache/internal.rs: RawCache::get, RawCache::get_ref, RawCache::get_cloned, RawCache::build", "src/cache.rs: Cache::get, Cache::get_ref, Cache::get_cloned", "src/cache.rs: Resolver::resolve, Resolver::resolve_ref, Resolver::resolve_cloned"]}
{"id": "C63", "title": "Transparency with artifacts changed in place", "statement": "Builders are functions of their dynamic state and of what they resolve (as C01), but the user also changes artifacts through get_mut and lookup_mut of a boxed cache, at any time in the history. Then every get, get_ref, get_cloned and lookup answers what evaluating the builders from scratch under the present dynamic states gives, where each builder whose artifact has been changed since it was built counts as giving just that changed artifact; errors and panics likewise. In particular a change is seen by everything built later from it, and nothing in the cache was computed from the artifact as it was before the change. get_mut and lookup_mut hand out that same value, and what the user makes of it is then the artifact. The change lasts until the artifact is to be forgotten (builder or something it depends on invalidated, purged or reconfigured, cache cleared, collected as garbage) or changed again, is not overwritten by building, and is lost completely then: the next get builds afresh. A get calls exactly the builders it wants, where changed artifacts count as there.", "quantifier": "all histories of all calls (get_mut and lookup_mut with arbitrary changes included), all pure builder programs incl. failing and panicking ones, all dependency graphs, all iteration orders", "why_tests_cant": "All interleavings of changes in place with building, invalidation and reconfiguration on all graphs cannot be tried; staleness would show only in particular ones.", "anchors": ["src/cache.rs: Cache::get_mut, Cache::lookup_mut", "src/cache/internal.rs: RawCache::get_mut, RawCache::lookup_mut, RawCache::build, RawCache::invalidate_by_id, RawCache::invalidate_dependents"]}
{"id": "C64", "title": "Rebuilding after a change is exact", "statement": "With builders that are functions of their dynamic state and of what they resolve (as C01, not depending on addresses of bins), after any history: every dependency the cache has recorded is one the builder would resolve if evaluated from scratch under the present dynamic states (none is out of date), all dependencies of an artifact in the cache are recorded, and whatever it was built from is in the cache as well unless that fails. Hence invalidate, purge and dyn_state_mut of a builder w remove exactly the artifacts whose evaluation needs w, directly or indirectly, and a following get calls only builders it needs that need w or were not there before, each that does not fail once. If everything below o was in the cache (as it is after o was got, if nothing below it fails) and builders resolve the same ones as before (always so after invalidate), get o builds exactly the builders that lie between o and w.", "quantifier": "all histories without get_mut and lookup_mut, all pure builder programs incl. failing, panicking ones and ones whose resolves depend on what they got, all dependency graphs, all iteration orders", "why_tests_cant": "Which dependencies are current depends on the whole history of builds, failures, panics and reconfigurations; all graphs and histories cannot be tried.", "anchors": ["src/cache/internal.rs: RawCache::invalidate_by_id, RawCache::track_dependency, RawCache::build, RawCache::get", "src/cache.rs: Cache::invalidate, Cache::purge, Cache::dyn_state_mut, Cache::get, Resolver::resolve"]}
{"id": "C65", "title": "Builders that look at the outside world: invalidating the readers keeps the cache up to date", "statement": "Builders may also read the outside world (files, clocks, interior mutability) while being built. If, whenever the world changes, the user invalidates those builders known to the cache that behave differently now (or clears the artifacts, or otherwise nothing that was built from them, directly or not, is in the cache) before the next get, then every get, get_ref, get_cloned and lookup answers what evaluating the builders from scratch in the present world under the present dynamic states gives; errors and panics likewise. No other builders need to be invalidated: whatever was built from the readers is dropped with them, and builders that look at the world but at an unchanged part of it, or do not look, are kept. The get calls exactly the builders it needs in the present world whose artifacts are not there. Without the invalidation the old artifact is handed out (example).", "quantifier": "all histories of calls without get_mut and lookup_mut, all builder programs that read their state, resolve others, look at the world any number of times, fail or panic; all worlds and changes of the world between calls; all sets of invalidated builders; all dependency graphs, iteration orders", "why_tests_cant": "A stale artifact shows only for particular combinations of what changed, who noticed, who had been built from whom (also from failed builds) and what was invalidated in which order; tests cover a few.", "anchors": ["src/cache.rs: Cache::invalidate (documentation: builders whose outside inputs changed), get, lookup, clear_artifacts", "src/cache/internal.rs: invalidate_by_id, track_dependency, build", "src/lib.rs: Builder::build"]}
{"id": "C66", "title": "Builders that make builders are cached transparently", "statement": "Builders may make new builders while being built and hand their blueprints on as artifacts, errors or parts of these (builders of builders, to any depth), and drop builders. Whatever get, get_ref, get_cloned or lookup answers, in any history of calls, is what evaluating the builders from scratch under the present dynamic states gives, where a newly made builder is one with the definition asked for that was made by this very builder: never one the user made, one another builder made, or the same one twice in one evaluation. Errors and panics likewise. The builders there were keep their definitions and dynamic states. The answer is unique up to addresses of bins and the naming of the builders made: corresponding builders, of this or another cache, give corresponding answers. In a tower of builders of any height (a builder of builders of ... of leaves) each level gives a blueprint of the level below: a new one if the artifact is not in the cache, the cached one otherwise; a leaf gives its state.", "quantifier": "all histories of calls without get_mut and lookup_mut, all builder programs that read their state, resolve others (also those they made or were handed), make bins and builders, drop builders, fail or panic; all heights of towers; all iteration orders, address assignments and reuses of addresses", "why_tests_cant": "src/multi_level_test.rs tries two levels in one order of calls; a stale or mixed-up builder shows only for particular graphs, orders of invalidation, drops and reuses of addresses.", "anchors": ["src/multi_level_test.rs: BuilderBuilder, SuperBuilder, test_level_1, test_level_2", "src/cache/internal.rs: build, track_dependency, lookup, invalidate_by_id", "src/cache.rs: Cache::get, get_cloned, lookup; Resolver::resolve", "src/blueprint.rs: Blueprint::new"]}
{"id": "C67", "title": "History independence: what is cached never shows", "statement": "With builders that are functions of their dynamic state and of what they resolve (as C01, not depending on addresses of bins), what a get, get_ref or get_cloned answers - artifact, error or panic, up to addresses of bins - depends only on the builders there are and their dynamic states (present or initial), not on what is in the cache, on the calls that led there, on caught panics, on iteration orders, on addresses or on which cache, debug or release, is asked. Nor does it depend on these whether the get ends: if it ends with one cache, it ends with every other. In particular gets, lookups, invalidations, clear_artifacts, reading dynamic states, and dropping builders, in any number and order, never change what a later get answers or make it run forever.", "quantifier": "all pairs of reachable states (also of different caches) with the same builders and dynamic states, all histories between them, all pure builder programs including failing and panicking ones", "why_tests_cant": "Compares every state of the cache with every other one; a test compares a few pairs. Non-termination cannot be observed by a test.", "anchors": ["src/cache.rs: Cache::get, get_ref, get_cloned, invalidate, clear_artifacts", "src/cache/internal.rs: get, build, invalidate_by_id"]}
{"id": "C68", "title": "Adaptors can be put in and taken out anywhere", "statement": "Wrapping a builder in ForwardingBuilders, ClonedBuilders and (if it gives no error) FeigningBuilders, any number and in any order, does not change what get, get_ref or get_cloned answers (artifact, error or panic, up to addresses of bins), nor whether it ends. More generally, take two caches whose builders have the same dynamic states and the same code, but for such adaptors put between a builder and those it resolves, or taken out, anywhere in the graph (differently for each use): getters of corresponding builders answer the same, and one ends if and only if the other does - whatever is in either cache.", "quantifier": "all pairs of reachable states, all pure builder programs as in C01 (any graph, failing and panicking ones included), all correspondences between builders, all towers of adaptors", "why_tests_cant": "Ranges over all graphs and all places where adaptors can be; src/utils.rs has a documentation example per adaptor.", "anchors": ["src/utils.rs: ForwardingBuilder, ClonedBuilder, FeigningBuilder (build)", "src/cache.rs: Cache::get, get_ref, get_cloned; Resolver::resolve, resolve_cloned", "src/cache/internal.rs: get, build"]}
{"id": "C69", "title": "Bystanders are left alone", "statement": "Take a set of builders in a cache such that no other builder resolves any of them and no recorded dependency goes from one side to the other. Whatever is done with the other builders - gets, get_mut, dyn_state_mut, invalidate, purge, new builders made, blueprints dropped, builders that fail, panic (and are caught) or make further builders, and garbage collection while the set is held - nothing happens to the set: artifacts (with their addresses), dynamic states, presence in the cache, recorded dependencies and the number of times each builder was called stay as they were, and it remains such a set. Lookups answer the same; getters of builders in a self-contained set of pure builders answer the same before and after.", "quantifier": "all reachable states, all sets of builders with that property, all histories of calls on the others of any length, all builder programs", "why_tests_cant": "Ranges over all graphs and all histories on the unrelated part; a test shows a few unrelated builders surviving one invalidation.", "anchors": ["src/cache/internal.rs: get, build, invalidate_by_id, invalidate_dependents, purge, garbage_collection", "src/cache.rs: Cache::invalidate, purge, dyn_state_mut, get_mut, garbage_collection"]}
{"id": "C70", "title": "It makes no difference where builders are in memory", "statement": "The cache tells builders apart by their addresses, which the allocator chooses and may use again for a new builder once nothing holds the old one. Take two programs making the same calls, with whatever allocators, as long as the code of builders does not itself look at the outside world. In histories without garbage collection, and in histories with garbage collection in which nothing is purged and only builders known to the cache are invalidated (or changed with lookup_mut), all answers are the same (artifacts, errors, panics), and so are the states: which builders live, artifacts, dynamic states, what is known, dependencies, and all that happened. Each such history could have been with an allocator that never uses an address twice. Without the restriction it is false: after purging a builder, whether garbage_collection panics depends on whether a later builder was put where the purged one was.", "quantifier": "all pairs of allocators (address choices, iteration orders), all builder programs not looking at the outside world (they may make and drop builders, set their state, fail, panic), all such histories of any length", "why_tests_cant": "A test runs with the one allocator there is, and address reuse is up to it; the theorem ranges over all address choices.", "anchors": ["src/lib.rs: BuilderId", "src/cache/internal.rs: CacheOwned tables keyed by BuilderId, garbage_collection, invalidate_by_id, invalidate_dependents, purge"]}
{"id": "C71", "title": "Rewriting a builder's code is safe if it computes the same", "statement": "Take two caches whose builders have the same dynamic states and code which, whatever answers its resolves are given, has the same result (up to addresses of bins): it may resolve in another order, through another of the resolve methods, the same builder several times or once, or other builders. Then getters of the same builder answer the same in both (artifact, error or panic), whatever is in either cache; and if the rewritten code resolves nothing else, its getters end if the others do. In particular the order of two resolves does not matter, and resolving the same builder twice is resolving it once.", "quantifier": "all pairs of reachable states, all pure builder programs as in C01 (any graph, failing and panicking ones included), all rewritings", "why_tests_cant": "Ranges over all programs, all graphs and all cache contents; order and repetition of resolves decide what is built when and which dependencies are recorded when.", "anchors": ["src/cache.rs: Resolver::resolve, resolve_ref, resolve_cloned; Cache::get, get_ref, get_cloned", "src/cache/internal.rs: get, build"]}
