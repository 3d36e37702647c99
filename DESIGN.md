# daab: formal model and proofs (Rocq / Coq 8.16.1, std++)

Where to start reading: `rocq/theories/Types.v`, `Cache.v`, `Build.v`, `System.v`
(the model), `Spec.v` (the vocabulary of the statements), `Props1.v` ... `Props38.v`
(the theorems; everything else is proof).

## What is modelled

`daab` caches artifacts built by user supplied builders.  The core is
`src/cache/internal.rs` (`RawCache`), wrapped 1:1 by `src/cache.rs` (`Cache`,
`Resolver`).  The model is an executable Gallina interpreter:

* **Addresses and objects.** `BuilderId` is the address of the builder
  (`src/lib.rs:519-536`).  Addresses are `N` and can be *reused* after the
  builder died and no weak reference pins the allocation; builder *objects*
  are numbered by a counter and never reused.  This is what makes address
  reuse (C17) expressible.  That the allocator does so is itself proved of a
  reference counting memory (C61).
* **Builders** are programs in a small free monad (`prog`): return a bin or an
  error, panic, resolve another builder (`resolve`, `resolve_ref`,
  `resolve_cloned`) with a Gallina continuation, read/write `my_state`,
  ask the outside world (any interior mutability, I/O, randomness),
  allocate a bin, create and drop builders.  A theorem "for all builders"
  quantifies over all such programs, for all continuations.
* **Hash iteration order** is an adversarial oracle: every iteration over a
  `HashSet`/`HashMap` is a permutation chosen by the environment.
* **Types** are tags; each downcast compares tags and panics on mismatch.
* **Panics** are explicit outcomes carrying the state at the panic (what
  `catch_unwind` would see).  Debug assertions are modelled, switchable.
* **Fuel** bounds the recursion depth of builds only; out of fuel is a separate
  outcome (`NoFuel`), never a normal looking value.  Theorems about outcomes
  hold for every fuel; C27 says when there is enough and that it then does not
  matter.  The invalidation loop gets as fuel a number computed from the graph
  that is *proved* sufficient (C06).
* **Illegal** is the outcome for things safe Rust excludes: using a dropped
  builder, dropping a builder that is being built (borrowed), an allocator
  returning an address in use, `get` on boxed artifacts / `get_mut` on shared ones.
* **Histories** (`runs`, `reachable`) are finite sequences of API operations
  (including allocation and drops of builders) by the user of one `Cache`; a
  history continues after a caught user panic (and after a caught
  `garbage_collection` panic).  After a caught panic of `get_mut`/`lookup_mut`
  the invariants are broken: what then holds is C14 and C41 (histories
  with every panic caught), until the cache is cleared (C42).

## Files

| File | Content |
|------|---------|
| Types | values, bins, builder programs, definitions |
| Cache | `RawCache` and its functions, one by one (internal.rs) |
| Build | `build`, `get`, `resolve`, `Resolver` |
| System | objects, API operations (`op`), `step`, histories (`runs`) |
| Spec | vocabulary of the statements, defined by observations |
| InvalidateFacts, Prims, Invariant, MutFacts, InvStep | the invariant and its preservation |
| ObsFacts, OpFacts, BuildFacts, MutOps, StepFacts, HistFacts | effects of operations and histories |
| Demo | concrete systems used to show hypotheses are met |
| Facts1-3, GcFacts, OrderFacts, LogFacts, CohFacts, DepFacts, RankFacts | proofs for Props1-3 |
| EvalSpec, EvalFacts, EvalTotal | cache-free evaluation (C01) |
| Machine, CodeSpec, CodeFacts, PlayFacts | builds as an abstract machine; runs of code (C39, C40) |
| Utils, UtilFacts | `src/utils.rs`, simple builders, `unpack` (C28-C33) |
| Rc, RcFacts | `src/canning.rs`, `src/blueprint.rs` over a model of `Rc`/`Arc`/`Box` (C18, C37) |
| Doc, DotSpec, DocFacts | `src/diagnostics/*`; a reader of DOT (C36) |
| Interrupt | calls cut off by panicking `Drop` code |
| RoughSpec, RoughFacts | going on after internal panics and interruptions (C41, C42) |
| InterruptFacts, BombFacts | interrupted calls (C43) |
| Reference | the reference cache: big-step rules over per-builder data |
| RefFacts, RefBuild, RefCalls | the model refines it and vice versa (C44, C45) |
| RefLaws | interchangeable states, laws of calls on the reference cache, carried over to the model (C46) |
| Several, SeveralFacts | several caches sharing builders and the allocator: each is a reference cache whose outside world includes the others (C47) |
| Threads, ThreadSpec, ThreadFacts | calls with other threads' acts in between, by an arbitrary schedule; the reference cache with such acts; refinement (C48) |
| Watched, WatchFacts | calls whose doctor may panic; they are the ordinary calls up to the panic, which leaves a prefix of a build (C49) |
| Owner, OwnerFacts | who holds a builder (user, builders, artifacts, states); dropping what nobody holds; repeated garbage collection (C50) |
| MinSpec, MinFacts | which builders a get wants, by evaluation from scratch; it calls exactly those (C51) |
| TransFacts, TransTotal | transparency while other threads run, on the reference cache of ThreadSpec (C52) |
| Storm | everything at once: other threads, panicking doctors, `init_dyn_state` that is not a constant, builders that catch panics, interrupted garbage collection (C53) |
| StormFacts, StormStep | its small transitions (those of Prims, popping a caught build, initialising a state with any value), effects of the calls, invariant of the histories |
| DocFail | the bundled doctors with an output whose operations fail (panicking `unwrap`), `into_inner`, `Drop` during unwinding (C54) |
| FootSpec, FootFacts | what counts as stored; every key of the dependency tables is known, counting (C55) |
| Nested | caches used by the code of builders being built, to any depth (C57) |
| NestSpec, NestFacts | each of them is the reference cache while others run |
| Owned | who holds blueprints of whom; builders are dropped when nobody does; programs that use only what they hold (C58) |
| OwnedFacts, OwnedCalls, OwnedTotal | what is held is alive, as invariant along the simulation by ThreadSpec's reference cache with others dropping builders; termination |
| Work | the calls again, counting accesses to the tables (C59) |
| WorkFacts | the counting calls do what the calls do; potential of the dependency tables, amortised bounds |
| Shared | Owned histories while others (threads, doctors that keep handles) make, are given and drop blueprints at any point of a call (C60) |
| Memory | spec: when a memory (Rc) matches a state of a history (Owned) |
| MemFacts, MemRuns | simulation of builds, calls and histories by memory steps |
| MinOrder | what a returning or panicking get records: who is called, resolves, states (proofs for C62) |
| EditSpec | histories with artifacts changed in place; the builders with the changed artifacts (specification for C63) |
| EditFacts | a cache with changed artifacts does what one whose builders just return them does (proofs for C63) |
| IncFacts | evaluation depends only on what is below; recorded dependencies are what is asked for (proofs for C64) |
| WorldSpec | builders that look at the outside world; histories in which whoever notices a change is invalidated (specification for C65) |
| WorldFacts | the cache does the same with the builders facing a fixed world, which are pure (proofs for C65) |
| MakeSpec | evaluation from scratch for builders that make builders; equality up to the names of builders (specification for C66) |
| MakeFacts | the invariant of C01 for builders that make builders, with a ghost function saying who made whom; uniqueness up to names (proofs for C66) |
| ColdFacts | the evaluator of EvalSpec finds every evaluation, so getters that end with one cache end with every other (proofs for C67) |
| AdaptSpec, AdaptFacts | when two systems of builders are the same but for adaptors (specification for C68); proofs |
| FrameSpec, FrameFacts | bystanders: builders the others do not resolve (specification for C69); proofs, on the reference cache |
| PlaceSpec, PlaceFacts | histories in which addresses of builders do not matter, states that differ in these only (specification for C70); proofs, on the reference cache |
| SameSpec, SameFacts | running code with given answers, code that computes the same (specification for C71); proofs |
| SharedFacts, SharedBuild, SharedCalls | invariant and simulation of Shared by the reference cache with acts of others: a turn, a build, a call, a history |
| BinSpec, BinFacts | which bins something contains, programs that forge no bins; invariant about all bins in a state (C56, C32) |
| Conformance | the project's own unit tests (36 of them) run in the model, as validation of the model (examples, no property) |
| MoreFacts, AfterFacts, LeafFacts, CycleFacts | whole-history theorems (Props9) |
| Props1 ... | the theorems, with `Print Assumptions` and examples |

## Coverage of the source

| Source | Model |
|--------|-------|
| src/cache/internal.rs (all functions) | Cache.v, Build.v |
| src/cache.rs (`Cache`/`CacheOwned`, `Resolver`); src/rc.rs, arc.rs, boxed.rs are type aliases and the simple builders | System.v, Build.v |
| src/lib.rs (`Builder`, `BuilderId`, `unpack`, `Never`, simple builders) | Types.v, Utils.v |
| src/blueprint.rs (`Blueprint`, `BlueprintUnsized`/`Dyn`, `BuilderArtifact`) | Rc.v |
| src/canning.rs (cans, bins, weak cans for Rc, Arc, Box) | Rc.v |
| src/utils.rs (Redeeming, Cloned, Forwarding, Functional, Feigning, Const, Configurable) | Utils.v |
| src/diagnostics/{mod,visgraph,textual}.rs | Doc.v; events of the cache: System.v `doctor_log` |

Each definition cites file and lines.

## Not modelled

* Rust's type checker / borrow checker themselves (they justify `Illegal`),
  memory safety, `unsafe` code (there is none in the modelled part), Send/Sync.
  Calls on the cache are sequential (`&mut self`); what other threads do between and
  during them with the `Arc` variants is modelled in Threads.v (C48), taking the
  counts of `Arc` as atomic (no weak memory).
* `Rc`, `Arc`, `Box`, `HashMap`, `HashSet` of the standard library are modelled by
  their documented behaviour.  `Box` of zero-sized values has no unique address;
  C18/C37 do not cover identities of boxed zero-sized values.
* User `Drop` code that runs while the cache is in the middle of an operation:
  that it panics is modelled (Interrupt.v, C41-C43), but for the artifact which a
  re-entrant build replaces; builders dropped because the last blueprint was in a
  removed artifact are dropped after the operation (as `ODrop`), or, during
  `garbage_collection` and builds, by a turn of Threads.v.
* Failures of the `Write` of the bundled doctors are modelled in DocFail.v (texts; C54) and, for their effect
  on the cache, as panics of a doctor (Watched.v, Storm.v). Not modelled: `u64` overflow of their counters; the tables of printable Unicode
  characters (parameter `printable`) and type name abbreviation by `tynm`
  (parameter).
* `init_dyn_state` is a constant of the builder (or panics) everywhere but in Storm.v (C53), where
  it answers as it likes; builders that catch panics of `resolve` are in Storm.v only.
* `ArtifactHandle`'s `Eq` on fat pointers.
* The `Debug` impls other than through the handles of the doctors; proc macros,
  `#[deprecated]` aliases.
* A builder that calls another cache while it is being built is modelled in Nested.v
  only (C57); elsewhere this is the outside world (it may get answers, make and drop
  builders and make bins). `Drop` code of artifacts that calls caches: only as turns
  of others in Threads.v.

## Trusted base

Coq's kernel (and `coqchk`), the reading of the Rust source recorded in the
comments, and what `Print Assumptions` lists under each theorem: "Closed under the
global context" for every theorem in MANIFEST.json.  `coqchk` in addition lists the
axioms of all libraries *loaded* (not used by the theorems): the seven of the
standard library's ssreflect, `Coq.ssr.ssrunder.Under_rel.{Under_rel,
Under_rel_from_rel, Under_relE, Over_rel, over_rel, over_rel_done,
under_rel_done}` (abstract constants of an opaque module).  No axioms of our own,
no functors, no module types, no kernel check switched off.

## Plan per property

"inv" = invariant by induction over histories, "ref" = refinement
to a small specification, "exact" = exact characterisation of one operation,
"refuted" = the documented claim is false of the code, witness proved.
All are proved (MANIFEST.json).

| Id | Model part | Proof |
|----|-----------|-------|
| C01 | whole system, pure builders | ref: inductive cache-free evaluation as invariant over cached artifacts along recorded edges; totality against a fuelled evaluator |
| C02 | trace of the run | inv; refuted with re-entrancy |
| C03 | get/lookup | inv over non-invalidating steps |
| C04-C06 | invalidate_by_id | exact (closure), loop invariant, measure |
| C07 | oracle orders | exact results are order independent, lifted to histories |
| C08 | all panic sites | inv |
| C09-C13 | garbage_collection | exact + inv; refuted parts with all-state theorems; C09 as an iff over histories |
| C14 | get_mut/lookup_mut | exact; the state after the panic, and stale artifacts from it |
| C15,C16 | build/get/lookup | exact |
| C17 | addresses, tags | inv |
| C18 | blueprint handles | inv over a model of reference counted memory |
| C19-C24 | dyn states, purge, clear | exact + inv; C19, C24 for whole histories |
| C25-C27 | build | induction on programs/fuel; C27 cycles: invariant of the machine |
| C28-C33 | utils.rs builders as `prog`s | runs of their code (C40), inv |
| C34,C35 | trace | ref: replaying events |
| C36 | diagnostics texts | strings; a DOT reader, round trip |
| C37 | canning | inv over a model of reference counted memory |
| C38 | dyn states | inv |
| C39,C40 | whole system | inv of the machine: history of each frame is a run of its code |
| C41,C42 | whole system, all panics caught, calls cut off | simulation by the cache without its graph, inv |
| C43 | crash points in each removing call | cut-off invalidation as a relation on caches; interrupted gc: inv; negative parts for all states / by witness |
| C46 | whole system | contextual equivalence through the reference cache: its states, up to clock and log, are determined by what can be observed; laws by rewriting on it |
| C47 | several caches | invariant per cache (its view of the shared world satisfies Inv and is shown by a reference cache), preserved by the steps of the others because these only add builders at addresses free for it |
| C48 | other threads | schedule-parametric interpreter (turns at each observable point); refinement to the reference cache with acts of others, by induction on fuel and programs; acts between removals commute behind them |
| C49 | doctors that panic | interpreter with an arbitrary panic decision at each doctor call; it agrees with Build.v/System.v or stops after a sequence of small transitions, so the invariants proved per transition hold at every panic point |
| C50 | reclaiming by repeated garbage collection | ownership as a relation over the cache; one round removes exactly the collectable entries and keeps `doomed` invariant; the count of known builders falls as long as a doomed one is left; acyclic ownership is well-founded by finiteness |
| C51 | minimal rebuilding | induction over programs and recursion depth, with the transparency invariant of C01: called builders are wanted, and the set of called builders is closed under asking; evaluation is well-founded, so no builder is called inside itself |
| C52 | transparency with threads | mutual induction over the big-step rules of the threaded reference cache (C48), with the evaluation along recorded dependencies as invariant; purity of whatever exists in the end implies purity before, as builders are only ever added; termination by induction over the code against the fuelled evaluator |
| C53 | all adversities at once | interpreter parametrised by the weather; each call is a sequence of small transitions (two more than in calm weather, which change next to nothing observable), so the invariants carry over; equal to Watched.v with just a doctor, to System.v in calm weather |
| C54 | bundled doctors with failing output | arbitrary failure function over the operations of the output; per event case analysis over the point of failure, induction over the events; texts specified by the reliable doctor |
| C55 | entries in all tables | new invariant (keys of both dependency tables are known) through all operations, then counting with injections into known builders and dependencies; leaf ids left over by induction over the history; an explicit family of histories for the leak |
| C58 | Owned.v: sets of blueprints held by the user, fields, locals, cached values; a builder is dropped when in none | invariant (everything held is alive, everything alive is held) carried through the simulation by the reference cache, in which dropping is an act of others; induction over fuel, programs, histories; totality against EvalSpec |
| C59 | Work.v: the functions of Cache/Build/System with a counter of table accesses | counting is erased (equality of functions); amortised analysis with a potential proportional to the recorded dependencies, induction over loops, fuel, programs and histories |
| C60 | Shared.v: as Owned.v, with a set of blueprints held by others, changed at every turn by an arbitrary schedule | the invariant of C58 with the others' set added; every turn is a sequence of acts of others on the reference cache (ThreadSpec.v), none dropping what the user or the running code holds |
| C61 | Memory.v: when a memory of Rc.v is one for a state of Owned.v | simulation of every step of a history by steps of the memory, by induction over programs, fuel and histories; in every such memory, strong counts and free addresses agree with the state |
| C62 | Props29.v: sequences of requests; MinSpec.v | what a request calls, keeps and records is a function of the state and the requested builder (induction over programs and fuel, for returning and panicking requests); wanted sets of sequences are unions (induction over the sequence) |
| C63 | EditSpec.v: builders whose artifact was changed replaced by ones returning it | simulation between the state and the one with the code of these builders replaced (induction over programs and fuel: a builder whose artifact is there does not run); the invariant of C01 for the latter; nobody depends on what is changed at that moment; nobody depends on itself (evaluations are well-founded) |
| C64 | MinSpec.v: what builders ask for when evaluated from scratch | invariant over histories: recorded dependencies = resolves of evaluation from scratch for whoever ran and was not forgotten since; preserved because evaluation only depends on what lies below (locality lemma) and forgetting is closed upwards |
| C65 | WorldSpec.v: programs with the answers of the world filled in | simulation between the state and the one with these programs (induction over programs and fuel; clocks differ); the invariant of C01 for the latter; a change of the world keeps it as evaluation along recorded dependencies only meets builders that do not notice |
| C66 | MakeSpec.v: evaluation in which a new builder is any builder with that definition made by the evaluated builder, not used before in this run | invariant: every artifact is what evaluation along recorded dependencies gives (as C01), with who made whom as ghost state that only grows; induction over programs and fuel, case analysis over calls; uniqueness by induction over evaluations; towers by inversion of evaluations |
| C67 | as C01 | answers: both getters give what evaluation from scratch gives (C01), and this is unique; ending: evaluation as a program is complete (induction over evaluations, monotone in fuel), and getters end if it does (C01_total); calls that change no dynamic state keep definitions and states (effects of the calls) |
| C68 | AdaptSpec.v: correspondence of builders up to towers of adaptors, on programs | simulation of evaluations from scratch (induction over fuel, then over programs), taking adaptors off and putting them on; answers as C67, ending as C67 |
| C69 | FrameSpec.v: code that does not resolve a set of builders; what it means that nothing happened to them | frame rules for every elementary update of the reference cache of C44, carried through builds (mutual induction over its evaluation), calls and histories; refinement brings it to the model; getters by evaluation from scratch (C01) |
| C70 | PlaceSpec.v: code that does not ask, histories without garbage collection or without what makes it panic, states equal but for addresses | forward simulation from any allocator to one that never reuses, on the reference cache (mutual induction over builds, then calls, histories); two histories meet in the same replay, the reference cache being deterministic; counterexample by computation |
| C71 | SameSpec.v: running code with given answers to its resolves, apart from caches and graphs | each evaluation from scratch of a builder is a run with finitely many collected answers (induction over evaluations); both evaluations are then runs with the union of the two collections, on which they agree by induction; answers and ending as C67 |
| C57 | Nested.v: a world of caches, those in the middle of a call suspended with their stacks | refinement of every cache at once, by induction over fuel and programs: the cache in use gets a derivation of the reference cache, what it does is acts of others for all others |
| C56 | all bins in states, traces and answers | invariant with the set of existing bins as a growing parameter, by induction over programs, fuel and histories; programs restricted to those that forge no bins |
| C44,C45 | whole system against Reference.v | ref: simulation in both directions, induction over programs and over derivations |

## Findings (claims of the documentation or natural expectations that are false)

* F1 (C09) `purge(b); garbage_collection()` panics (index of an unknown leaf).
* F2 (C09) `invalidate(b)` or `lookup_mut(b)` of an unknown builder, then `garbage_collection()` panics.
* F3 (C14) `get_mut`/`lookup_mut` do not invalidate dependents but panic if there is another one
  (`invalidate_dependents` removes the dependents entry first, then `invalidate_by_id` expects its counterpart).
* F4 (C28) RedeemingBuilder keeps the dependency on the failed inner builder, contrary to its documentation.
* F5 (C34) over-invalidation: dependencies resolved in a failed or superseded build stay recorded.
* F6 (C36) TextualDoc's invalidate entry lacks the line break.
* F7 (C36) VisgraphDoc does not escape artifact labels.
* F8 (C02) re-entrance (a builder resolving itself) breaks coherence.
* F9 (C35) `clear_artifacts`, `garbage_collection`, `lookup_mut` are not told to the doctor.
* F10 (C20) a panicking `init_dyn_state` leaves a known builder without a dynamic state.
* F11 (C37) `BuilderArtifact` forgets whether it was made of a Blueprint or a BlueprintUnsized.
* F13 (C14) catching the panic of F3 and invalidating leaves stale artifacts.
* F16 (C41) after catching the panic of F3, `invalidate`, `purge` and `dyn_state_mut` of a former dependent panic too; `clear_artifacts` repairs it (C42).
* F17 (C43) if the artifact of b panics while being dropped, `invalidate(b)` leaves all dependents stale, also when repeated.
* F18 (C43) a `purge(b)` cut off by b's own artifact leaves b's dynamic state without owner; a later builder at the same address gets it, or panics.
* F19 (C49) the doctor is told of an artifact before it is stored: if it panics then, it knows of an artifact the cache does not have.
* F20 (C50) an artifact or dynamic state which (transitively) holds a blueprint of its own builder is never collected, nor is its builder dropped: the cache holds artifacts strongly.
* F21 (C53) a builder that catches the panic of a `resolve` and returns an artifact has that artifact cached, and it stays when the resolved builder is built successfully later: like with errors, only invalidation of the resolved builder removes it.
* F22 (C54) a build whose report to a bundled doctor panics late has been written but not counted: the next build gets the same number, and the same node in the graph if the memory is reused.
* F23 (C54) `VisgraphDoc::into_inner` whose closing write fails writes the closing line again while unwinding (spoiling a document it had completed), and aborts the process if that fails too.
* F24 (C55) `purge`, and `invalidate`/`lookup_mut` of an unknown builder, put an id into the leaf set that nothing but `clear_all` takes out again: besides making `garbage_collection` panic (F1, F2) this leaks one entry per such call.
* F25 (C57) What a builder gets from another cache is not a dependency: invalidating it there leaves what was built from it cached (`C57_untracked`). Expected of separate caches, but nothing in the documentation warns of it.
* F14 Debug of ConstBuilder/ConfigurableBuilder prints "FunctionalBuilder"; of BlueprintDyn "BlueprintUnsized" (cosmetic, not modelled).
* F15 (C36) builder nodes in DOT are merged when an address is reused.

## Seeded bugs

`seeded/LOG.jsonl`: one line per wrong program tried, with the theorems that failed.
