{
 "claims": [
  {
   "property": "C01",
   "status": "proved",
   "theorems": [
    "C01_get",
    "C01_get_panics",
    "C01_lookup",
    "C01_get_unique",
    "C01_get_panics_unique",
    "C01_total"
   ],
   "note": "Cache-free evaluation is a separate inductive relation (EvalSpec.v). Soundness for values, errors and panics, uniqueness, and totality for terminating evaluations. Deterministic builders are those not using PAsk/PNew/PDrop, as the property says."
  },
  {
   "property": "C02",
   "status": "proved",
   "theorems": [
    "C02_coherent",
    "C02_was_built",
    "C02_reentrant_refuted"
   ],
   "note": "As stated. For re-entrant builds the claim is refuted by C02_reentrant_refuted."
  },
  {
   "property": "C03",
   "status": "proved",
   "theorems": [
    "C03_artifact_kept",
    "C03_get_caches",
    "C03_get_again"
   ],
   "note": "As stated; C03_get_again combines the two other theorems."
  },
  {
   "property": "C04",
   "status": "proved",
   "theorems": [
    "C04_invalidate_exact"
   ],
   "note": "As stated, with the recorded graph after the call."
  },
  {
   "property": "C05",
   "status": "proved",
   "theorems": [
    "C05_invalidate_frame"
   ],
   "note": "As stated."
  },
  {
   "property": "C06",
   "status": "proved",
   "theorems": [
    "C06_invalidation_terminates"
   ],
   "note": "For any cache contents whatever, no reachability assumed."
  },
  {
   "property": "C07",
   "status": "proved",
   "theorems": [
    "C07_step_order_independent",
    "C07_history_order_independent"
   ],
   "note": "Per step and per history; the only exception is the state left behind by the panic of C14, which is not resumed from."
  },
  {
   "property": "C08",
   "status": "proved",
   "theorems": [
    "C08_panics",
    "C08_calm_no_user_panic",
    "C08_calm_no_panic"
   ],
   "note": "As stated; exceptions described exactly by C09 and C14. The calm corollaries: builders that never panic give no panic at all."
  },
  {
   "property": "C09",
   "status": "proved",
   "theorems": [
    "C09_exact",
    "C09_unknown_lookup_mut_then_gc_panics",
    "C09_gc_returns",
    "C09_purge_then_gc_panics",
    "C09_unknown_invalidate_then_gc_panics",
    "C09_gc_returns_after_clear_all"
   ],
   "note": "C09_exact is an iff over histories; the refutations hold in every reachable state."
  },
  {
   "property": "C10",
   "status": "proved",
   "theorems": [
    "C10_gc_safe"
   ],
   "note": "As stated, for returning and panicking calls."
  },
  {
   "property": "C11",
   "status": "proved",
   "theorems": [
    "C11_gc_exact"
   ],
   "note": "As stated (exact)."
  },
  {
   "property": "C12",
   "status": "proved",
   "theorems": [
    "C12_gc_complete",
    "C12_gc_empties",
    "C12_gc_progress"
   ],
   "note": "C12_gc_complete is the general iff; the acyclic case and strict progress follow."
  },
  {
   "property": "C13",
   "status": "proved",
   "theorems": [
    "C13_gc_panic_atomic"
   ],
   "note": "As stated."
  },
  {
   "property": "C14",
   "status": "proved",
   "theorems": [
    "C14_panic_aftermath",
    "C14_panic_stale",
    "C14_mut_panics_iff",
    "C14_lookup_mut_effect",
    "C14_get_mut_effect",
    "C14_self_dependent",
    "C14_self_dependent_get_mut"
   ],
   "note": "The documented behaviour is refuted; exact condition, effect, state after the panic and its consequence are proved."
  },
  {
   "property": "C15",
   "status": "proved",
   "theorems": [
    "C15_get_error",
    "C15_error_retried",
    "C15_resolve_error"
   ],
   "note": "As stated; for re-entrant builds an inner run of the same builder may have stored an artifact, hence the hypothesis reent = false in the last clauses."
  },
  {
   "property": "C16",
   "status": "proved",
   "theorems": [
    "C16_lookup_observes",
    "C16_get_dyn_state_observes",
    "C16_is_known_observes",
    "C16_lookup_agrees_with_get"
   ],
   "note": "As stated."
  },
  {
   "property": "C17",
   "status": "proved",
   "theorems": [
    "C17_artifact_of_this_builder",
    "C17_get_of_this_builder",
    "C17_new_builder_is_fresh",
    "C17_types"
   ],
   "note": "As stated."
  },
  {
   "property": "C18",
   "status": "proved",
   "theorems": [
    "C18_equal_iff_same_builder",
    "C18_one_builder",
    "C18_clone",
    "C18_convert",
    "C18_builder_kept",
    "C18_new_id",
    "C18_zero_sized"
   ],
   "note": "Over the model of Rc/Arc memory in Rc.v. C18_zero_sized: unsized conversions keep the identity of zero-sized builders too (Rc/Arc)."
  },
  {
   "property": "C19",
   "status": "proved",
   "theorems": [
    "C19_step",
    "C19_history",
    "C19_unknown_has_nothing",
    "C19_number_of_known",
    "C19_get_makes_known"
   ],
   "note": "As stated, per call and per history."
  },
  {
   "property": "C20",
   "status": "proved",
   "theorems": [
    "C20_dyn_state",
    "C20_dyn_state_mut",
    "C20_state_persists"
   ],
   "note": "As stated."
  },
  {
   "property": "C21",
   "status": "proved",
   "theorems": [
    "C21_state_kept"
   ],
   "note": "As stated."
  },
  {
   "property": "C22",
   "status": "proved",
   "theorems": [
    "C22_purge_exact"
   ],
   "note": "As stated."
  },
  {
   "property": "C23",
   "status": "proved",
   "theorems": [
    "C23_clear_artifacts_exact"
   ],
   "note": "As stated."
  },
  {
   "property": "C24",
   "status": "proved",
   "theorems": [
    "C24_history",
    "C24_clear_all_fresh"
   ],
   "note": "No reachability assumed."
  },
  {
   "property": "C25",
   "status": "proved",
   "theorems": [
    "C25_between_builds",
    "C25_at_most_one_build"
   ],
   "note": "As stated, without re-entrant builds."
  },
  {
   "property": "C26",
   "status": "proved",
   "theorems": [
    "C26_get_panics"
   ],
   "note": "C26_get_panics is the effect of the panic; that all other properties hold in every continuation is part of their statements, as histories go on after caught builder panics. C41 covers all other panics."
  },
  {
   "property": "C27",
   "status": "proved",
   "theorems": [
    "C27_cycle",
    "C27_cycle_diverges",
    "C27_depth",
    "C27_terminates",
    "C27_not_reentered",
    "C27_depth_irrelevant",
    "C27_grounded"
   ],
   "note": "As stated; C27_grounded: builders that resolve only older builders can be ranked."
  },
  {
   "property": "C28",
   "status": "proved",
   "theorems": [
    "C28_get",
    "C28_panics",
    "C28_remembers",
    "C28_most_recent",
    "C28_default",
    "C28_doc_refuted"
   ],
   "note": "As stated; the documented claim is refuted."
  },
  {
   "property": "C29",
   "status": "proved",
   "theorems": [
    "C29_leaf",
    "C29_get",
    "C29_panics",
    "C29_cached",
    "C29_pure"
   ],
   "note": "As stated."
  },
  {
   "property": "C30",
   "status": "proved",
   "theorems": [
    "C30_get",
    "C30_always_same"
   ],
   "note": "As stated."
  },
  {
   "property": "C31",
   "status": "proved",
   "theorems": [
    "C31_get",
    "C31_config_kept",
    "C31_configure"
   ],
   "note": "As stated."
  },
  {
   "property": "C32",
   "status": "proved",
   "theorems": [
    "C32_cloned_new",
    "C32_cached",
    "C32_errors",
    "C32_get",
    "C32_feigning",
    "C32_panics",
    "C32_feigning_panics"
   ],
   "note": "That the bin of a ClonedBuilder is new is C32_cloned_new, in the setting of C56 (users and builders that forge no bins)."
  },
  {
   "property": "C33",
   "status": "proved",
   "theorems": [
    "C33_infallible",
    "C33_unpack",
    "C33_infallible_builders",
    "C33_simple",
    "C33_simple_get",
    "C33_simple_panics"
   ],
   "note": "As stated."
  },
  {
   "property": "C34",
   "status": "proved",
   "theorems": [
    "C34_step",
    "C34_history",
    "C34_precision_refuted"
   ],
   "note": "As stated; precision is refuted."
  },
  {
   "property": "C35",
   "status": "proved",
   "theorems": [
    "C35_replay",
    "C35_untold_refuted"
   ],
   "note": "As stated; refuted for the operations the doctor is not told of."
  },
  {
   "property": "C36",
   "status": "proved",
   "theorems": [
    "C36_document",
    "C36_artifact_label",
    "C36_builder_label",
    "C36_numbers",
    "C36_artifact_names",
    "C36_builder_names",
    "C36_edges",
    "C36_quotes_refuted",
    "C36_injection_refuted",
    "C36_graph_covers_cache",
    "C36_builder_nodes_refuted",
    "C36_text_lines",
    "C36_text_document",
    "C36_text_invalidate_refuted"
   ],
   "note": "Strings are lists of bytes; a separate reader of DOT (DotSpec.v) reads the document back. Parameters: which characters count as printable, and the type names."
  },
  {
   "property": "C37",
   "status": "proved",
   "theorems": [
    "C37_round_trip",
    "C37_downcast",
    "C37_upgrade",
    "C37_lives_iff_reachable",
    "C37_no_leak",
    "C37_safe",
    "C37_box_unique",
    "C37_builder_artifact"
   ],
   "note": "As stated, over the model of Rc/Arc/Box memory in Rc.v."
  },
  {
   "property": "C38",
   "status": "proved",
   "theorems": [
    "C38_state_of_cached"
   ],
   "note": "As stated."
  },
  {
   "property": "C39",
   "status": "proved",
   "theorems": [
    "C39_code",
    "C39_dependencies",
    "C39_errors"
   ],
   "note": "As stated; a run of code is defined separately (CodeSpec.v)."
  },
  {
   "property": "C40",
   "status": "proved",
   "theorems": [
    "C40_run",
    "C40_shared",
    "C40_get",
    "C40_get_panics",
    "C40_leaf"
   ],
   "note": "As stated."
  },
  {
   "property": "C41",
   "status": "proved",
   "theorems": [
    "C41_panics",
    "C41_artifact_of_this_builder",
    "C41_types",
    "C41_lookup",
    "C41_get_dyn_state",
    "C41_get_hit",
    "C41_get_miss",
    "C41_invalidation_terminates"
   ],
   "note": "Also with calls cut off by Drop code. Histories go on after every panic, whatever its kind."
  },
  {
   "property": "C42",
   "status": "proved",
   "theorems": [
    "C42_panics",
    "C42_invalidate_exact",
    "C42_purge_exact",
    "C42_gc_exact",
    "C42_coherent",
    "C42_step"
   ],
   "note": "As stated; clear_all even after histories excluded by C41 (wild)."
  },
  {
   "property": "C43",
   "status": "proved",
   "theorems": [
    "C43_model",
    "C43_returns",
    "C43_interrupted",
    "C43_interrupted_purge",
    "C43_interrupted_gc",
    "C43_retry_purge",
    "C43_retry_clear",
    "C43_retry_gc",
    "C43_stale",
    "C43_sturdy_panics",
    "C43_sturdy_invalidate",
    "C43_sturdy_coherent",
    "C43_sturdy_step",
    "C43_leaked_state",
    "C43_leaked_downcast"
   ],
   "note": "Crash points at every drop of an artifact or state in invalidate, purge, gc, dyn_state_mut, lookup_mut, get_mut, clear. C43_stale and C43_leaked_* are the negative parts. The artifact replaced by a re-entrant build is assumed to be dropped silently."
  },
  {
   "property": "C44",
   "status": "proved",
   "theorems": [
    "C44_history",
    "C44_state",
    "C44_call",
    "C44_deterministic",
    "C44_by_hand",
    "C44_applies"
   ],
   "note": "Both directions. Reference.v shares with the model only values, builder programs, operations, answers and the event type."
  },
  {
   "property": "C45",
   "status": "proved",
   "theorems": [
    "C45_history",
    "C45_state",
    "C45_next",
    "C45_kind",
    "C45_applies"
   ],
   "note": "Boxed to shared is one direction only: a shared cache also hands out bins."
  },
  {
   "property": "C46",
   "status": "proved",
   "theorems": [
    "C46_equivalence",
    "C46_observed",
    "C46_observables",
    "C46_invalidate",
    "C46_purge",
    "C46_clear",
    "C46_looks",
    "C46_get_cached",
    "C46_gc_nothing",
    "C46_dyn_state",
    "C46_dyn_state_comm",
    "C46_drop",
    "C46_lookup_mut",
    "C46_applies"
   ],
   "note": "Interchangeability quantifies over all futures; proved by carrying laws over from the reference cache (C44). The outside world is taken to do the same from the current clock on."
  },
  {
   "property": "C47",
   "status": "proved",
   "theorems": [
    "C47_reference",
    "C47_next",
    "C47_frame",
    "C47_addresses",
    "C47_alone",
    "C47_applies"
   ],
   "note": "Calls on different caches follow each other; a builder that itself calls another cache while being built is covered only as outside world (asks, new and dropped builders, new bins) of the cache resolving it."
  },
  {
   "property": "C48",
   "status": "proved",
   "theorems": [
    "C48_reference",
    "C48_panics",
    "C48_turn",
    "C48_hit",
    "C48_gc",
    "C48_addresses",
    "C48_sequential",
    "C48_nobody",
    "C48_applies"
   ],
   "note": "Schedules are functions of the clock, and taking time is one of the acts, so every placement of acts at the turns is covered. Turns are at each thing builder code does, before the cache looks for an artifact, before each upgrade and each removal of garbage_collection; in between the code touches only the cache, which others cannot reach (&mut self). Memory-order effects inside Arc are not modelled (Arc counts are taken as atomic)."
  },
  {
   "property": "C49",
   "status": "proved",
   "theorems": [
    "C49_model",
    "C49_returns",
    "C49_panics",
    "C49_late",
    "C49_dyn_state_mut",
    "C49_get",
    "C49_get_mut",
    "C49_get_where",
    "C49_watched_panics",
    "C49_watched_invalidate",
    "C49_watched_coherent",
    "C49_watched_built",
    "C49_watched_step",
    "C49_applies",
    "C49_told_not_stored"
   ],
   "note": "The doctor's decision to panic is an arbitrary function of the events so far, another one for each call. Events a doctor is not told are part of that argument too, which only makes the doctors more general."
  },
  {
   "property": "C50",
   "status": "proved",
   "theorems": [
    "C50_reclaim",
    "C50_safe",
    "C50_possible",
    "C50_settles",
    "C50_retained",
    "C50_acyclic",
    "C50_all",
    "C50_older",
    "C50_leak"
   ],
   "note": "Which builders a builder holds in its fields (K) and which the user holds (R) are parameters; what artifacts and dynamic states hold is read off the values. R is fixed while the rounds run; C50_settles lets the user drop more first. Values dropped in the middle of garbage_collection release the builders they held right after it, which is the same because it looks for unreachable builders first."
  },
  {
   "property": "C51",
   "status": "proved",
   "theorems": [
    "C51_called",
    "C51_panic",
    "C51_once",
    "C51_has",
    "C51_lazy",
    "C51_incremental"
   ],
   "note": "For pure builders that do not depend on bin addresses (as C01); which builders are wanted is defined by evaluation from scratch, not by the cache."
  },
  {
   "property": "C52",
   "status": "proved",
   "theorems": [
    "C52_get",
    "C52_get_panics",
    "C52_before",
    "C52_cached",
    "C52_lookup",
    "C52_get_unique",
    "C52_get_panics_unique",
    "C52_schedules",
    "C52_total",
    "C52_applies"
   ],
   "note": "For pure builders (as C01); the thread model is that of C48. Evaluation is with the builders there are when the call returns, because others may make builders a pure builder already names; C52_get_unique and C52_total start from the builders there were before the call. Illegal in C52_total stands for impossible schedules and for resolving a dropped builder, which ownership of blueprints excludes (C60)."
  },
  {
   "property": "C53",
   "status": "proved",
   "theorems": [
    "C53_doctor",
    "C53_model",
    "C53_panics",
    "C53_get",
    "C53_get_answer",
    "C53_hit",
    "C53_invalidate",
    "C53_dyn_state",
    "C53_dyn_state_mut",
    "C53_gc",
    "C53_coherent",
    "C53_built",
    "C53_applies"
   ],
   "note": "A caught panic continues the builder as with an error value of its choice, so a program can tell it from a real error. Turns of others are as in C48, and one more while init_dyn_state runs. Which panics are caught, what init_dyn_state returns and when the doctor panics are arbitrary functions, different for every call."
  },
  {
   "property": "C54",
   "status": "proved",
   "theorems": [
    "C54_visgraph",
    "C54_textual",
    "C54_says_unique",
    "C54_first_panic",
    "C54_reliable",
    "C54_numbers",
    "C54_end",
    "C54_numbers_refuted",
    "C54_closing_refuted",
    "C54_applies"
   ],
   "note": "C54_visgraph and C54_textual are the main statements (pieced, reported, vd_says, td_says in DocFail.v); C54_says_unique shows that the text compared with is determined. Which operations fail and how much they write before is an arbitrary function. C54_numbers_refuted and C54_closing_refuted are the exceptions named in the statement."
  },
  {
   "property": "C55",
   "status": "proved",
   "theorems": [
    "C55_bound",
    "C55_deps",
    "C55_left_over",
    "C55_friendly",
    "C55_reclaimed",
    "C55_clear",
    "C55_clear_artifacts",
    "C55_left_over_stays",
    "C55_leak"
   ],
   "note": "Counts entries, not bytes, and not the capacity HashMap and Vec keep in reserve. The sizes of artifacts and dynamic states are the user's. C55_leak is the exception named in the statement."
  },
  {
   "property": "C56",
   "status": "proved",
   "theorems": [
    "C56_identity",
    "C56_new",
    "C56_get",
    "C56_crate"
   ],
   "note": "Forging is excluded by a condition on programs and calls (unforged, honest in BinSpec.v) that every Rust program meets, because a bin can only be made or received; the bins the user makes on their own are all made at the start, which is no restriction because shared bins are immutable. Identity is that of the allocation: addresses reused after a bin has been freed are different identities. Box caches are excluded: a Box has no identity to compare, and get_mut changes contents."
  },
  {
   "property": "C57",
   "status": "proved",
   "theorems": [
    "C57_reference",
    "C57_panics",
    "C57_panics_next",
    "C57_frame",
    "C57_hit",
    "C57_applies",
    "C57_untracked"
   ],
   "note": "Nested.v adds to the builders' code of Build.v the use of other caches, as what a PAsk asks; which call is made when, and how its answer comes back, are arbitrary functions. The reference is tlife (NestSpec.v): ThreadSpec's reference cache while others run. Using a cache that is in the middle of a call is impossible (&mut self) and is not a run. Runs end with the panic of get_mut/lookup_mut because of dependants, as elsewhere."
  },
  {
   "property": "C58",
   "status": "proved",
   "theorems": [
    "C58_no_dangling",
    "C58_release",
    "C58_settled",
    "C58_alive",
    "C58_no_leak",
    "C58_reclaim",
    "C58_reference",
    "C58_panics",
    "C58_get",
    "C58_cached",
    "C58_total",
    "C58_applies",
    "C58_rogue"
   ],
   "note": "Which blueprints are in fields, and which local variables the code has dropped when, are arbitrary functions; the rule that code uses only what it holds is the predicate fair/owns of Owned.v, which safe Rust enforces. A builder is dropped when nobody holds it, before the next thing anybody does. Cycles of blueprints through Rc fields are impossible here because fields are given when the builder is made (interior mutability of fields is not modelled). C58_rogue: breaking the rule does lead to a dropped builder."
  },
  {
   "property": "C59",
   "status": "proved",
   "theorems": [
    "C59_same",
    "C59_histories",
    "C59_constant",
    "C59_get",
    "C59_get_panics",
    "C59_forgets",
    "C59_invalidate",
    "C59_total"
   ],
   "note": "The counting functions of Work.v are those of the model with a counter (C59_same); the constants are those of the theorems. The bound on a whole history rests on a potential (WorkFacts.v): every recorded dependency carries the cost of forgetting it. Not counted: the elements that HashMap iteration steps over because of reserved capacity, and what the builders and doctors do."
  },
  {
   "property": "C60",
   "status": "proved",
   "theorems": [
    "C60_no_dangling",
    "C60_share",
    "C60_settled",
    "C60_alive",
    "C60_no_leak",
    "C60_reference",
    "C60_panics",
    "C60_get",
    "C60_cached",
    "C60_applies"
   ],
   "note": "What others do at their turns is an arbitrary function of the clock (taking time is one of the acts, so every placement is covered). They can be given any builder that is alive, which is more than the programs in question allow. A builder made by others needs what is in its fields to be held by them. Code of builders gets blueprints from what it resolves, its state and what it makes, not from other threads."
  },
  {
   "property": "C61",
   "status": "proved",
   "theorems": [
    "C61_start",
    "C61_call",
    "C61_panic",
    "C61_release",
    "C61_history",
    "C61_live",
    "C61_free",
    "C61_alloc",
    "C61_upgrade",
    "C61_no_leak",
    "C61_applies"
   ],
   "note": "The memory contains the builders; blueprints held by user, running code and cached values, and weak references of the cache are its pool (Memory.v). Cached artifacts and dynamic states are not themselves allocations in it. Only that each is held, not how often, is related; C37 relates the numbers of references to the counts. C61_alloc: the condition under which the model allocates is exactly that the address is free in memory."
  },
  {
   "property": "C62",
   "status": "proved",
   "theorems": [
    "C62_called",
    "C62_once",
    "C62_has",
    "C62_order",
    "C62_answers",
    "C62_later"
   ],
   "note": "For pure builders that do not depend on addresses of bins (as C01, C51). [asked] is in Props29.v; any number of levels of nested builds; the fuel of each request is arbitrary. Requests that exhaust the fuel or are illegal (resolving a dropped builder) are not covered, as in C51."
  },
  {
   "property": "C63",
   "status": "proved",
   "theorems": [
    "C63_histories",
    "C63_none",
    "C63_kept",
    "C63_lost",
    "C63_cleared",
    "C63_get",
    "C63_get_panics",
    "C63_lookup",
    "C63_get_mut",
    "C63_get_mut_fails",
    "C63_get_mut_panics",
    "C63_lookup_mut",
    "C63_unique",
    "C63_total",
    "C63_called"
   ],
   "note": "Histories are those of C01 with get_mut and lookup_mut added (C63_histories: every history of pure builders is one). That panics of get_mut and lookup_mut because somebody depends on the builder are not resumed is as in C14 (the cache is inconsistent then). Builders do not depend on the addresses of bins, as for C51. A changed artifact remains a value: the model of a boxed bin is its content."
  },
  {
   "property": "C64",
   "status": "proved",
   "theorems": [
    "C64_recorded",
    "C64_recorded_all",
    "C64_closed",
    "C64_affected",
    "C64_forgotten",
    "C64_only",
    "C64_between",
    "C64_between_invalidate",
    "C64_once",
    "C64_all"
   ],
   "note": "[asks] and [needs] are in terms of evaluation from scratch only (MinSpec.v). Histories with get_mut or lookup_mut are excluded: a changed artifact is no longer what its recorded dependencies say (see C63). That C64_between asks for equal resolves after purge and dyn_state_mut is needed: what a builder resolves may depend on the changed state; C64_only holds without."
  },
  {
   "property": "C65",
   "status": "proved",
   "theorems": [
    "C65_get",
    "C65_get_panics",
    "C65_lookup",
    "C65_unique",
    "C65_total",
    "C65_called",
    "C65_refresh",
    "C65_clear",
    "C65_unnoticed",
    "C65_pure"
   ],
   "note": "The outside world is one number, of which a builder that asks makes what it likes; it does not change during a call (C48, C52, C53 are about changes during calls). C65_refresh says what the user has to do, C65_clear the alternative; [informed] in WorldSpec.v allows anything after which nothing in the cache comes from a builder that notices. C65_pure: for builders that do not look these are the histories of C01."
  },
  {
   "property": "C66",
   "status": "proved",
   "theorems": [
    "C66_get",
    "C66_get_panics",
    "C66_lookup",
    "C66_unique",
    "C66_pure",
    "C66_level",
    "C66_leaf",
    "C66_level_new"
   ],
   "note": "Builders may make and drop builders, but neither set their own dynamic state nor look at the outside world (C65). Which builder a new one is, is left open by the specification up to: it has the definition asked for, was made by this builder, and is not used twice in one run; who made whom is existentially quantified (some function from builders to makers that gives no maker to the user's builders). Uniqueness is up to a given correspondence of builders; it needs builders made by corresponding builders with the same definition to correspond, so it does not apply when the user reconfigures some of them differently. If a builder fails and is run again it makes new builders, while a dependent that was handed the error keeps what was in it."
  },
  {
   "property": "C67",
   "status": "proved",
   "theorems": [
    "C67_answer",
    "C67_ends",
    "C67_forgetting",
    "C67_forgetting_ends"
   ],
   "note": "For pure builders as in C01. Legality (resolving a dropped builder, asking a boxed cache for a bin) does depend on the cache: a builder that would resolve a dropped one is legal as long as its artifact is there; getters that are illegal in one of the two caches are left out (ownership of blueprints excludes them, C58). Ending is stated as: with enough fuel, and any more, the model's bound on the nesting of builds is not met."
  },
  {
   "property": "C68",
   "status": "proved",
   "theorems": [
    "C68_tower",
    "C68_tower_ends",
    "C68_answer",
    "C68_ends",
    "C68_adaptors"
   ],
   "note": "For pure builders as in C01; the adaptors are such builders (C68_adaptors). A FeigningBuilder counts as an adaptor around builders that evaluation from scratch gives no error for (in the code their Err is Never). Nothing is said about how often builders are called or what is cached (C32, C51): each adaptor has an artifact of its own. Legality and ending as in C67."
  },
  {
   "property": "C69",
   "status": "proved",
   "theorems": [
    "C69_history",
    "C69_looks",
    "C69_get"
   ],
   "note": "By refinement with the reference cache of C44. [avoids] (FrameSpec.v) ranges over the code a builder may run, including that of builders it makes; bystanders may be resolved by one another and by nobody else. Clearing the whole cache is excluded, and garbage collection is allowed only while the whole set is held (else it may collect part of it, rightly). Calls that only look at the set (lookup, get_dyn_state, is known) and dropping blueprints, also those of the set, are allowed. C69_get is for pure builders as in C01 and needs membership in the set to be decided."
  },
  {
   "property": "C70",
   "status": "proved",
   "theorems": [
    "C70_history",
    "C70_uncollected",
    "C70_replay",
    "C70_gc_refuted"
   ],
   "note": "By replaying both histories on the reference cache of C44 with an allocator that never reuses. In the model addresses come from the same oracle as answers of the outside world, hence the restriction to code that does not ask ([unasking], PlaceSpec.v). A history here is one whose allocations the allocator could make (no address in use by a live or known builder); both histories are given. The addresses of bins are the model's counter in both (identity of bins: C56). C70_gc_refuted is the counterexample for garbage collection after a purge (see C09 for when it panics)."
  },
  {
   "property": "C71",
   "status": "proved",
   "theorems": [
    "C71_answer",
    "C71_ends",
    "C71_rewrites",
    "C71_once",
    "C71_swap",
    "C71_itself",
    "C71_steps",
    "C71_after_resolve",
    "C71_after_state",
    "C71_after_new",
    "C71_unused"
   ],
   "note": "For pure builders as in C01. [computes_same] ranges over all answers to what is resolved (also some no builder would give), which makes the condition on the code independent of the graph. Swapping two resolves may make a difference to ending (one is then made before the other's panic), hence C71_ends asks for more than C71_answer. How often builders are called and what is recorded may differ. Legality and ending as in C67."
  }
 ]
}