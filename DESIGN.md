# Formal model of wujiu2020/strip in Rocq (Coq 8.16.1)

(The table at the end is generated by tools/design.py from MANIFEST.json,
properties.jsonl and the Coq sources; edit tools/design_head.md for the rest.)

## Approach

* Only the Coq standard library is used. No axioms are added; every theorem
  named in MANIFEST.json is followed by `Print Assumptions` in its file.
* Go strings and byte slices are `bytes := list ascii` (GoStr.v). Integers are
  `Z` with explicit width conversions where the code converts.
* Per area: `*Model.v` (the code, function by function, each definition citing
  /repo lines and its simplifications), `*Spec.v` or the head of the `Props_*.v`
  file (a small specification that does not use the model's helpers),
  `*Facts.v` (lemmas) and `Props_*.v` (the theorems `Cnn_...`, and `Example`s
  showing concrete runs that meet their hypotheses).
* A property the code violates keeps its full statement in properties.jsonl with
  the remark FALSE and the failing case. For it we prove `..._refuted` (the full
  statement is false, by a concrete run of the model) and `..._partial` (the
  strongest conditional version found, often an exact description of what the
  code does). Its status is `partial`.
* Everything the code gets from outside (clock, random bytes, hash functions,
  network faults, file systems, map iteration order, schedules, user callbacks,
  the text made by package fmt) is universally quantified: a section variable or
  an argument. Where a law of an external function is needed (decompression
  inverts compression, unmarshal inverts marshal) it is a section hypothesis,
  hence a visible premise of the theorem, and an Example shows an instance.

## Models, area by area

| area | files of /repo | model | how it is proved |
|---|---|---|---|
| Router | router.go, router_util.go, router_filter.go, router_method.go, router_action.go (registration, call) | RouterModel: route tree as nested inductive, declarations as trees, configRoutes as structural fixpoint in a panic monad, match as fixpoint on segments; SliceModel: Go slices over a heap with any append growth policy | (exact statements in RouterExact, Props_RouterExact) invariants of built trees by induction over declarations; induction over segments; simulation of heap slices by pure lists (BuilderFacts, Props_BuilderExact); the matcher instrumented with the nodes it looks at, distinctness by induction over segments (C175) |
| Conversions | app_util.go, utils/converter*.go | GoNum (strconv), ConvModel, ValueModel, BaseModel (exact statements in Props_ConvExact, Props_Base) | arithmetic; round trips |
| Response | response.go | (exact statements in Props_RespExact, Hijack and body in Props_RespBody) RespModel: writer state machine over net/http's connection (any acceptance of bytes), hooks as trees with observations, panics and deadlock as outcomes; HeadModel: the same writer with header maps on a connection that takes everything | trace invariants by induction over call sequences |
| Chain, recovery, app | context.go, app.go, recovery.go | (exact statements in Props_ChainExact) ChainModel: handlers as (possibly infinite) action trees, both nested chains, index and Written; AppModel: router and chain together | induction on trees and on the remaining chain |
| Inject | inject/*.go | InjectModel: injector heap, providers as oracles, fuelled resolution; InjectWorld/InjectHist: histories of calls; Props_InjectExact: what an injector keeps, read off the log; InjectWalk, InjectDone, Props_InjectWalk: the exact outcome of every lookup (built, missing, cycle, endless) | history invariants; fuel bound by the number of providers; refutations by computation |
| Secure values, remember | sessions/utils.go, remember.go | SecureModel over GoEnc (base64, query escape, hex), HMAC quantified | round trips, exact acceptance condition (Props_SecureExact) |
| Ids | utils/rand.go, sessions/utils.go | RandModel | arithmetic, injectivity |
| Caches | caches/*.go | CacheModel: providers over transcribed server semantics (memcached, Redis, MongoDB), one fault per round trip | refinement to a TTL map (CacheSpec); exact ends, counters and isolation in Props_CacheExact; values and faults in Props_CacheVal |
| Sessions | sessions/provider.go, manager.go, store_dummy.go | SessModel on CacheModel | state machine invariants over histories and faults; exact outcomes in Props_SessExact; SessConc: any number of requests with one session, interleaved, refined to one register; RegenConc: the round trips of Regenerate between them |
| Config | config/*.go, config.go, utils/helpers/config.go | ConfigModel | induction over lines and parents; exact panics in Props_ConfigExact |
| Params | params/*.go | ParamsModel: map iteration order is any permutation (relation `binds`), floats, times and JSON quantified | induction over names, bodies and types; exact statements in Props_ParamsExact, Props_ParamsPanic (panics), Props_ParamsOrder (map order); EmbedModel, Props_Embed (promoted fields) |
| Time parameters | params/binder.go (floats, times, default formats) | TimeModel: time.Parse for the four default layouts | layouts against an independent grammar of texts |
| Requests to params | params/params.go (ParseParams, ParamsParser, BindJsonBody) | ParamsReqModel: content type, the shared limit as a small-step machine, uploads on a disk | inductive invariant over interleavings; simulation of the reader of uploads |
| Declarations | router.go (Router), router_action.go, router_filter.go, context.go | DeclModel: types of controllers, identity of filters as type and data word | case analysis over types; induction over argument lists; simulation with the numbered filters |
| Controllers of concurrent requests | router_action.go (callStructFunc), inject/inject.go (apply) | CtlModel: memory with shared objects, one copy per request, small steps under a schedule | invariants over schedules; a constructed schedule for the leak |
| Lookups of concurrent requests | `InjectConc`: a lookup as the tree of its accesses to the shared 32-bit counters, schedules of several requests | C163: a lookup alone is InjectModel's (CPS adequacy), other requests can only turn a cycle error into something else (tameness), invariant over the schedule; C164: induction on the number of lookups |
| Functions that call the injector back | `ReentModel`: functions are programs of injector operations; a history of what happened | C165: invariant that the history determines what is kept, provided and found (induction over fuel, operations and function bodies); simulation of InjectModel for functions that do not call back; C166 |
| Contexts as values | context.go, app.go ServeHTTP, router.go handle, request-logger/logger.go setLoggerInContext, utils/helpers/log.go | ReqCtxModel: both Contexts of a request with the context.Context behind each; handlers are trees that call Next on, replace and look up any of them; a trace of events | C167: the trace determines every answer (`gives`, `stands`); C168: order invariant over both indices, a measure for ending, simulation of ChainModel; C173, C174: the logger filter as a handler, invariants over the events after its start |
| Worker | utils/worker.go | WorkerModel: small-step interleaving machine, user code as infinite trees | inductive invariants over reachable states; progress and termination under fair schedules (WorkerLive); every deadlock and panic characterised for all programs (Props_WorkerExact) |
| Log | log.go, request-logger/*.go | LogModel, ReqLogModel on HeadModel | history invariants; exact outcomes (Props_LogExact, Props_ReqLogExact) |
| Static files | static-serve/static.go | (exact statements in Props_StaticExact) StaticModel: events (open, close, serve, redirect); http.Dir, http.Redirect and url escaping transcribed | case analysis over exact path resolution (`resolves`) |
| Several applications, assertions | app.go, app_util.go (ReplaceFilters), assert.go | AppsModel: applications as slices over the heap of SliceModel; AssertModel: reflect kinds in their order | ownership invariant over calls (C176); case analysis (C178) |
| Results | router_action_out.go, utils/apires/*.go | ResultModel on HeadModel, error values on a heap | histories of calls on shared errors |
| Context values | utils/context.go | CtxValModel | injectivity of keys, induction over the chain |
| Stacks, panic page | app_util.go (Stack, FileSource), recovery.go (page) | StackModel: frames as a list, file reading and function names quantified; the page as text | induction over frames and lines; an HTML reader (tags, references) as specification |
| Session stores | sessions/provider.go, store_dummy.go | StoreModel: both stores and the program's maps on a heap, the cache an oracle of everything asked | refinement to a machine of values with one shared map |
| Cookies | sessions/manager.go, remember.go, config.go | CookieModel on SessModel with net/http's cookie functions; UserAgent: the browser of RFC 6265, a specification | parsing lemmas over all byte strings; induction over browser histories; reduction to the session theorems |
| Setting up | config.go, app.go, utils/helpers/*.go, sessions/manager.go (GC) | SetupModel on ConfigModel | reduction to the config theorems; induction over options, collections |
| RealURL | params/real.go | UrlModel with the functions of net/url | induction over percent-encoded texts |
| Listening | app.go (Run) | ListenModel with net.SplitHostPort on SetupModel | case analysis on the last colon and the first bracket |
| Splitting texts | app_util.go (StrTo.Strings) | StringsModel with strings.Split | the leftmost cut is unique; induction on the text |
| Gzip | gzip/gzip.go | GzipModel on HeadModel, compressor quantified | simulation between the run with and without the filter |

## Not modelled

Data races below the level of channel, lock and atomic operations, the Go memory
model, real network I/O, reflect beyond the facts stated in the models, floating
point, actual hash functions and compressors, the wording of fmt, assert.go (test helper), default.go.

## Trusted base

* Coq 8.16.1's kernel (and coqchk, run by vcheck).
* `Print Assumptions` prints "Closed under the global context" for every theorem
  of MANIFEST.json: no axioms at all. vcheck's `library_axioms` lists the fields of
  module parameters in Coq.ssr.ssrunder, which the standard library loads; no
  theorem depends on them.
* The transcription of the cited Go lines into the models, and of the parts of Go's
  standard library into Go*.v, RespModel (net/http), StaticModel (net/http, net/url),
  and of the cache servers into CacheModel. Nothing was executed: /repo was read.

## Testing the theorems

seeded/LOG.jsonl lists every wrong program tried (tools/mutate.py edits a scratch copy
of the model and rebuilds): the edit, the claim it breaks, the theorems that failed, and
theorems added or tightened because a wrong program survived.

## Property by property

| id | property | status | theorems (file) | note |
|---|---|---|---|---|
| C01 | Served action was registered for that request | proved | C01_served_action_was_declared (Props_Router.v) | for all programs, methods, paths |
| C02 | Static routes are always reachable and win | proved | C02_static_routes_always_served (Props_Router.v) | latest declaration of the pattern and method is served |
| C03 | Not found, exactly | proved | C03_not_found_exact, C03_found_exact (Props_RouterExact.v); C03_not_found_complete_refuted, C03_not_found_complete_partial (Props_Router.v) | both directions for every program; the refuted theorem shows that conforming patterns can be missed (the hidden ones) |
| C04 | Exactly one pattern is selected | proved | C04_selection_exact, C04_selection_unique (Props_RouterExact.v); C04_priority_unique, C04_priority_refuted, C04_route_priority_partial (Props_Router.v) | iff for every program; priority over hidden patterns is refuted |
| C05 | Path normalisation | proved | C05_segments_clean, C05_normalisation (Props_Router.v) | trimming is Go's TrimSpace incl. the Unicode spaces |
| C06 | Route params are the matched segments | proved | C06_params_are_the_matched_segments (Props_Router.v) | names, values, reconstruction of the path and Values map |
| C07 | Method dispatch order | proved | C07_request_exact, C07_answers_exist (Props_RouterExact.v); C07_method_dispatch, C07_dispatch_total (Props_Router.v) | all cases, HEAD defaults and replaced wildcards included |
| C08 | HEAD follows GET, exactly | proved | C08_head_exact (Props_RouterExact.v); C08_head_is_get_refuted, C08_head_is_get_partial (Props_Router.v) | exact; the refuted theorem is the double GET declaration |
| C09 | Filter inheritance | proved | C09_filters_in_force, C09_outer_before_inner (Props_Router.v) | set, order and uniqueness of the filters of every served action |
| C10 | Filters of sibling routes never interfere | proved | C10_sibling_filters_do_not_interfere (Props_Action.v) | slice heap with aliasing; every append/remove modelled on shared arrays |
| C11 | Ambiguous declarations are rejected | proved | C11_param_names_agree, C11_wildcard_names_agree, C11_wildcard_is_last (Props_Router.v) | stated as facts of every accepted program |
| C12 | What a later declaration changes, exactly | proved | C12_registration_exact, C12_table_exact (Props_RouterExact.v); C12_registration_monotone_refuted, C12_registration_monotone_partial (Props_Router.v) | exact; the refuted theorem is the replaced wildcard |
| C13 | What MethodHandler builders do to one another | proved | C13_one_call, C13_used_twice (Props_BuilderExact.v); C13_builders_independent_partial, C13_builders_independent_refuted (Props_Action.v) | that builders are independent is refuted |
| C14 | RouteInfo.Path is the declared pattern | proved | C14_route_info_path (Props_Router.v) |  |
| C15 | Action arguments are the params in order | proved | C15_call_exact, C15_recorded_types, C15_zero_values (Props_ConvExact.v); C15_arguments_partial, C15_arguments_refuted (Props_Action.v) | exact for all types; floats by an arbitrary parser |
| C16 | Each handler runs at most once and in order | proved | C16_at_most_once_in_order (Props_Chain.v) | holds for all behaviours, also panics and repeated Next |
| C17 | Untouched chains run completely | proved | C17_untouched_chains_complete (Props_Chain.v) |  |
| C18 | Nothing starts after the response was written | proved | C18_no_start_after_written (Props_Chain.v) |  |
| C19 | What a second Next does | proved | C19_second_next_exact (Props_ChainExact.v); C19_next_twice_partial, C19_next_twice_refuted (Props_Chain.v) | exact; that a second Next is harmless is refuted |
| C20 | What the recovery filter does with panics | proved | C20_recovery_exact, C20_panic_escapes_iff, C20_client_exact, C20_client_500 (Props_ChainExact.v); C20_no_panic_escapes_partial, C20_status_after_panic, C20_client_gets_500, C20_recovery_refuted (Props_Chain.v) | exact; that no panic escapes and the client always gets 500 is refuted |
| C21 | Header is sent exactly once, before any body byte | proved | C21_one_header_first (Props_Resp.v) | hijacked connections may have none |
| C22 | The status on the wire and Status() | proved | C22_wire_exact, C22_status_exact, C22_status_tells_wire (Props_RespExact.v); C22_wire_status_partial, C22_status_refuted (Props_Resp.v) | exact for every call sequence and every hook; that Status() is the wire status unconditionally is refuted |
| C23 | Before hooks run once, in reverse order, before the header | proved | C23_hooks_at_most_once_reversed, C23_hooks_run_before_header (Props_Resp.v) |  |
| C24 | Size and Written | proved | C24_size_is_bytes_sent, C24_written_monotone, C24_written_iff, C24_written_iff_refuted (Props_Resp.v); C24_written_exact (Props_RespExact.v) | exact |
| C25 | Flush commits 200 | proved | C25_flush_exact, C25_flush_first (Props_RespExact.v); C25_flush_after_write_partial, C25_flush_commits_200, C25_flush_refuted (Props_Resp.v) | exact; the intended claim (Flush sends the pending status) is refuted |
| C26 | Find answers with what is kept, else from the nearest latest provider | proved | C26_find_exact, logged_kept (Props_InjectExact.v); C26_nearest_value_partial, C26_nearest_function_partial, C26_nowhere, C26_nearest_refuted (Props_Inject.v); C26_assigned (Props_Assign.v) | exact for every history; what is kept is read off the log of calls |
| C27 | A kept value stays and is not built again | proved | C27_kept_exact, logged_kept, C26_find_exact (Props_InjectExact.v); C27_built_once_partial, C27_same_value_partial, C27_built_once_refuted (Props_Inject.v) | exact for every history and every next operation |
| C28 | Missing dependencies are reported, not executed | proved | C28_only_supported_calls, C28_missing_is_error (Props_Inject.v); C28_missing_exact (Props_InjectWalk.v) | every history; chains of parents that end |
| C29 | Dependency cycles are reported | proved | C29_cycle_is_error (Props_Inject.v); C29_cycle_exact, C29_cycle_named (Props_InjectWalk.v) | every history; chains of parents that end |
| C30 | Lookups hang exactly on cycles whose providers have all been used | proved | C30_hangs_exact (Props_InjectWalk.v); C30_terminates_acyclic_partial, C30_terminates_refuted (Props_Inject.v) | exact for every history; the unconditional claim is refuted by prog30 |
| C31 | Invoke calls the function exactly once unless a value is kept for its result | proved | C31_invoke_exact (Props_InjectExact.v); C31_invoke_once_partial, C31_invoke_once_refuted (Props_Inject.v) | exact for every history |
| C32 | What can be built is built | proved | C32_find_exact, C32_invoke_exact, C32_invoke_cycle_named (Props_InjectWalk.v); C32_find_succeeds_partial, C32_invoke_succeeds_partial, C32_invoke_succeeds_refuted (Props_Inject.v) | exact for every history, no panics; own slot provided as a value: only the two bounds |
| C33 | Which types share a slot | proved | C33_slots_exact, C33_literals_share, C33_pointers_aside (Props_InjectExact.v); C33_named_slots_differ_partial, C33_slots_differ_refuted (Props_Inject.v) | exact |
| C34 | Re-providing takes effect on that injector only | proved | C34_provide_exact (Props_InjectExact.v); C34_new_value_is_found, C34_new_function_is_called, C34_built_values_stay, C34_reprovide_refuted (Props_Inject.v) | exact for every history |
| C35 | Secure cookie round trip | proved | C35_secure_round_trip, C35_empty_refused (Props_Secure.v) |  |
| C36 | Only signed values decode | proved | C36_accepted_exact (Props_SecureExact.v); C36_accepted_is_signed, C36_other_key_refused (Props_Secure.v) | for every MAC function |
| C37 | Which pairs share a signature with an issued value | proved | C37_same_text_exact, C37_reused_signature_exact (Props_SecureExact.v); C37_signature_covers_pair_refuted, C37_signature_covers_pair_partial (Props_Secure.v) | exact, for every MAC function; the naive property (one pair per signature) is refuted |
| C38 | The time of an accepted value | proved | C38_time_exact, C36_accepted_exact (Props_SecureExact.v); C38_expiry_refuted, C38_time_is_signed_partial, C38_never_later_partial (Props_Secure.v) | exact; C38_expiry_refuted shows how the saturation undoes expiry |
| C39 | Remember-me round trip | proved | C39_remember_round_trip (Props_Secure.v) |  |
| C40 | What HasRemember accepts | proved | C40_has_remember_exact, C40_not_ok_is_empty (Props_SecureExact.v); C40_only_remember_cookies_refuted, C40_reported_user_is_signed_partial (Props_Secure.v) | exact |
| C41 | Session ids are well formed | proved | C41_sid_well_formed, C41_sids_differ, C41_sid_or_panic (Props_Rand.v) |  |
| C42 | Number encoding is invertible | proved | C42_number_round_trip, C42_any_text, C42_outside_domain, C42_decode_exact (Props_Rand.v) |  |
| C43 | Random strings, exactly | proved | C43_random_bytes_exact, C43_letters_used (Props_SecureExact.v); C43_random_bytes_partial, C43_random_bytes_refuted, C43_no_partial_output, C43_alphabets (Props_Rand.v) | exact |
| C44 | Session start | proved | C44_start_exact (Props_SessExact.v); C44_fresh_session, C44_existing_session, C44_id_not_chosen_partial, C44_fresh_id_refuted, C44_remember_as_session_refuted (Props_Sess.v) | exact, with every connection failure |
| C45 | Regenerate | proved | C45_regenerate_exact, C45_no_cookie (Props_SessExact.v); C45_regenerate_partial, C45_regenerate_new, C45_cache_error_refuted, C45_old_id_refuted (Props_Sess.v) | exact, with every connection failure; the naive property is refuted by C45_cache_error_refuted and C45_old_id_refuted |
| C46 | Session store is a map that survives requests | proved | C46_session_is_map, C46_flush_then_read, C46_survives_requests (Props_Sess.v) |  |
| C47 | What brings a destroyed session back | proved | C47_destroyed_exact, C47_both_destroy, C47_revived, C47_destroy_reports (Props_SessExact.v); C47_destroyed_stays_partial, C47_other_object_refuted (Props_Sess.v) | exact over all histories of actions |
| C48 | Flush, and flushing again | proved | C48_flush_exact (Props_SessExact.v); C48_retry_partial, C48_retry_refuted (Props_Sess.v) | exact, with every connection failure |
| C49 | Sessions are isolated | proved | C49_sessions_isolated (Props_Sess.v) |  |
| C50 | Every cache is a TTL map | proved | C50_cache_is_ttl_map (Props_Cache.v) | for values that print, keys and timeouts the server takes (memcached: up to 30 days, no evictions), Redis Touch without "no end" (C53) |
| C51 | When garbage collection shows | proved | C51_gc_visible_exact (Props_CacheExact.v); C51_gc_invisible_partial, C51_gc_invisible_refuted (Props_Cache.v) | exact |
| C52 | What makes a missing entry appear | proved | C52_comes_back_exact (Props_CacheExact.v); C52_missing_until_set_partial, C52_expired_returns_refuted (Props_Cache.v) | exact, for timeouts and values the server takes |
| C53 | Touch with a negative timeout | proved | C53_touch_forever_exact (Props_CacheExact.v); C53_touch_forever_partial, C53_touch_forever_refuted (Props_Cache.v) | exact |
| C54 | Timeout argument | proved | C54_timeout_exact, C54_mongo_overflow_exact (Props_CacheExact.v); C54_positive_timeout_partial, C54_default_timeout, C54_no_timeout, C54_huge_timeout_refuted (Props_Cache.v) | exact up to 9223372036 s on every back end and beyond on Mongo; Redis and memcached beyond that depend on floats, not modelled |
| C55 | Key prefix isolation | proved | C55_redis_isolation_exact, C55_memcached_isolation_exact, C55_memcached_keys_exact, C55_clean_exact (Props_CacheExact.v); C55_prefixes_isolate_partial, C55_prefixes_isolate_refuted (Props_Cache.v) | exact |
| C56 | Back ends agree on timeouts | proved | C56_ends_exact, C56_agreement_exact (Props_CacheExact.v); C56_back_ends_agree_partial, C56_back_ends_agree_refuted (Props_Cache.v) | exact |
| C57 | Config lookup precedence | proved | C57_first_nonempty, C57_env_name, C57_env_key_shared_refuted (Props_ConfigFind.v) | parents form a finite chain; names of environment variables are shared by different keys (C57_env_key_shared_refuted) |
| C58 | INI parsing is line-local, last wins | proved | C58_line_forms, C58_last_value_wins, C58_round_trip, C58_render_and_parse (Props_Config.v); C58_byte_order_mark, C58_list_section (Props_ConfigExact.v) |  |
| C59 | Loader never crashes and names the error | proved | C59_loader_total (Props_Config.v); C59_errors_exact (Props_ConfigExact.v) |  |
| C60 | Default value is honoured | proved | C60_default_exact (Props_ConfigExact.v); C60_default_partial, C60_default_refuted (Props_ConfigFind.v) | exact |
| C61 | Bind | proved | C61_bind_exact (Props_ConfigExact.v); C61_bind_partial, C61_bind_refuted, C61_no_configer (Props_ConfigFind.v) | exact |
| C62 | Later config files win | proved | C62_later_files_win, C62_dir_again_refuted (Props_ConfigFind.v); C62_files_in_order (Props_ConfigExact.v) | a directory named again keeps its first place (C62_dir_again_refuted) |
| C63 | Unified parameter values | proved | C63_unified_values, C63_first_value_is_bound, C63_string (Props_Params.v) | a url-encoded body repeats the query's values at the end (C64) |
| C64 | How often a submitted value appears | proved | C64_each_value_count, C64_each_value_once_iff (Props_ParamsExact.v); C64_each_value_once_partial, C64_each_value_once_refuted (Props_Params.v) | the naive claim (never twice) is refuted |
| C65 | Integer binding | proved | C65_integer_binding_exact_form, C65_uint_binding_exact_form, C65_integer_binding_partial, C65_integer_binding_refuted (Props_Params.v) | exact |
| C66 | Bool binding | proved | C66_bool_binding (Props_Params.v) |  |
| C67 | Indexed slices | proved | C67_slice_elements, C67_indexed_value, C67_zero_values (Props_ParamsBind.v) | for every order of the maps |
| C68 | What the order of the maps can change in a bound value | proved | C68_only_the_order_varies, C68_equal_when_orderly, C68_two_spellings_refuted, C68_number_keys_refuted (Props_ParamsOrder.v); C68_binding_is_deterministic_partial, C68_binding_is_deterministic_refuted (Props_ParamsBind.v) | equality without conditions is refuted three ways; the theorems say what remains for every type with string-keyed maps |
| C69 | Worker bound | proved | C69_bound (Props_Worker.v) | all interleavings, any programs |
| C70 | Wait is a barrier | proved | C70_barrier, C70_all_done (Props_Worker.v) |  |
| C71 | Nothing is accepted once closed | proved | C71_closed (Props_Worker.v) |  |
| C72 | What Wait reports of failed tasks | proved | C72_recorded_once, C72_failure_is_recorded, C72_one_is_recorded, C72_who_reports (Props_WorkerErr.v); C72_error_is_a_tasks_partial, C72_reported_once_partial, C72_recorded_error_reported_partial (Props_Worker.v); C72_missed_refuted, C72_lost_refuted (Props_WorkerLive.v) | that Wait reports the failure of every task it waited for is refuted; who_reports and recorded_error_reported say together what is reported, up to the race of the record with a Wait under way |
| C73 | No channel panic | proved | C73_no_channel_panic (Props_Worker.v) |  |
| C74 | When submitting blocks for ever | proved | C74_submit_blocks_only_if, C74_only_deadlock, C74_deadlock_for_every_n (Props_WorkerExact.v); C74_nested_refuted, C74_deadlock_partial, C74_spare_slot_partial (Props_WorkerLive.v) | that submitting from a task is safe is refuted |
| C75 | Progress | proved | C75_terminates, C75_progress, C75_no_crash (Props_WorkerLive.v) | main goroutines may submit, wait and close freely |
| C76 | Integer conversion round trips | proved | C76_integer_round_trip (Props_Conv.v) |  |
| C77 | Conversions are exact or an error | proved | C77_strip_exact_or_error, C77_utils_exact_or_error_partial, C77_utils_zero_on_error_refuted (Props_Conv.v); C77_utils_int_exact, C77_utils_uint_exact (Props_ConvExact.v) | exact for both packages and every string |
| C78 | ToStr prints the value | proved | C78_exact, C78_strip_exact (Props_ConvExact.v); C78_tostr_prints_partial, C78_tostr_prints_refuted (Props_Conv.v) | exact |
| C79 | Uint conversions | proved | C79_exact (Props_ConvExact.v); C79_utils_uint_total, C79_uint_32_bits_partial, C79_strip_uint_total_refuted (Props_Conv.v) | exact; that every uint is parsed is refuted |
| C80 | Request id round trip | proved | C80_round_trip, C80_decode_any (Props_ReqLog.v) |  |
| C81 | Own request ids are accepted | proved | C81_own_ids_accepted, C81_visible, C81_which_ids (Props_ReqLog.v); C81_first_header (Props_Header.v) | without a ReqidFilter |
| C82 | Static files stay inside the root | proved | C82_inside_root (Props_Static.v); C82_root_exact (Props_StaticExact.v) | containment of the paths handed to the file system; symbolic links are the file system's business |
| C83 | Static prefix boundary | proved | C83_prefix_boundary, prefix_used_unique (Props_Static.v) |  |
| C84 | What the client address and host are taken from | proved | C84_real_ip, C84_right_for, C84_right_for_forwarded, C84_real_host (Props_ParamsExact.v); C84_real_ip_partial, C84_real_ip_refuted, C84_real_host_partial, C84_real_host_refuted (Props_Params.v) | the naive claim (address without port) is refuted for IPv6 |
| C85 | Log level filter | proved | C85_level_filter, C85_more_severe_passes (Props_Log.v) |  |
| C86 | Flat mode | proved | C86_flat_one_line (Props_Log.v) |  |
| C87 | Request id prefix survives | proved | C87_carries_request_id (Props_Log.v) | for ids without a newline, as HTTP guarantees |
| C88 | Result status is honoured | proved | C88_resbody, C88_with, C88_content_type, C88_raw_status_exact, C88_rawbody_partial, C88_rawret_refuted, C88_rawtext_refuted (Props_Result.v) | exact; the refutations show the unconditional claim for RawBody false |
| C89 | Error builders do not mutate | proved | C89_no_mutation, C89_new, C89_derived (Props_Result.v) |  |
| C90 | Documented action results | proved | C90_exact, C90_documented_partial, C90_other_results, C90_zero_status, C90_string_panics, C90_documented_refuted (Props_Result.v) | exact; string results are documented but panic |
| C91 | Context values | proved | C91_find_exact, C91_plain_slots, C91_find_partial, C91_store, C91_rejected, key_injective, C91_unnamed_refuted, C91_local_refuted, C91_nil_refuted, C91_must (Props_CtxVal.v) | exact for all types (named pointer types are not modelled) |
| C92 | Gzip filter is transparent | proved | C92_exact, C92_transparent_partial, C92_not_accepted, C92_empty_refuted (Props_Gzip.v) | exact; the compressor is specified by hypotheses of the section (decompression inverts it, a toy instance meets them) |
| C93 | Which requests end, and what the response sees | proved | C93_requests_end_exact (Props_ChainExact.v); C93_request_is_an_exchange, C93_requests_end, C93_requests_end_refuted (Props_Chain.v) | exact |
| C94 | A request runs exactly its handlers | proved | C94_request_runs_exactly, C94_request_starts_only (Props_App.v) | composition of router and chains |
| C95 | Apply fills the tagged fields it reaches | proved | C95_apply_exact (Props_InjectExact.v); C95_apply_sets_tagged_fields_partial, C95_apply_refuted (Props_Inject.v) | exact |
| C96 | Exists is read-only | proved | C96_exists_is_pure (Props_Inject.v) |  |
| C97 | Functions get the labelled dependencies | proved | C97_arguments_of_providers, C97_arguments_of_invoke_partial (Props_Inject.v); C97_arguments_of_invoke (Props_InjectWalk.v) | every history |
| C98 | Counters | proved | C98_counters_exact, C98_missing_exact, C98_default_count (Props_CacheExact.v); C98_redis_any_text (Props_CacheVal.v); C98_counters_partial, C98_memcached_counts_up_partial, C98_counters_refuted (Props_Cache.v) | exact |
| C99 | Logging out | proved | C99_logout_exact (Props_SessExact.v); C99_logout_partial, C99_logout_refuted (Props_Sess.v) | exact, with every connection failure |
| C100 | Touching a session extends it | proved | C100_touch_extends (Props_Sess.v); C100_touch_exact (Props_SessExact.v) |  |
| C101 | List flags | proved | C101_set_exact, C101_string_exact (Props_ConfigExact.v); C101_set_partial, C101_set_splits_refuted, C101_unique (Props_ConfigFind.v) | exact |
| C102 | Decode fills exactly the tagged fields | proved | C102_decode_exact (Props_ConfigExact.v); C102_decode_partial, C102_decode_refuted (Props_ConfigFind.v) | exact |
| C103 | Binding panics exactly on slices longer than an int | proved | C103_panics_exactly, C103_no_slice_no_panic (Props_ParamsPanic.v); C103_binding_never_panics_partial, C103_binding_never_panics_refuted (Props_ParamsBind.v) | exact for types without embedded structs (C192); memory is unlimited in the model (C110: one parameter can ask for any size) |
| C104 | A pointer is set exactly when its own name has a value | proved | C104_pointer, C104_parts_alone (Props_ParamsExact.v); C104_pointer_partial, C104_pointer_set_iff_submitted_refuted (Props_ParamsBind.v) | the naive claim (set when a part was submitted) is refuted |
| C105 | BindValuesToStruct fills exactly the exported fields | proved | C105_bind_values_to_struct, C105_panics_only, C105_unsubmitted_scalars_become_zero, C105_unsubmitted_fields_are_kept_refuted (Props_ParamsBind.v); C105_unmentioned_fields_are_reset, C105_unmentioned_is_reset (Props_ParamsExact.v) | that unsubmitted fields keep their value is refuted; distinct, acyclic embedded pointers |
| C106 | A malformed form hides every parameter | proved | C106_parameters_after_errors (Props_ParamsExact.v); C106_errors_keep_other_params_partial, C106_errors_keep_other_params_refuted (Props_Params.v) | that other parameters survive a malformed body is refuted |
| C107 | Struct fields from dotted names | proved | C107_struct_fields, C67_zero_values (Props_ParamsBind.v) | fields promoted from embedded structs: C192 |
| C108 | Maps from brackets or JSON | proved | C108_map_entries, C108_map_from_json, C108_scalar_keys, C108_scalar_keys_json (Props_ParamsBind.v) | string, bool and integer keys |
| C109 | Which uploaded files can be read | proved | C109_which_uploads_can_be_read, C109_one_such_list (Props_ParamsExact.v); C109_uploads_can_be_read_partial, C109_uploads_can_be_read_refuted, C109_uploads_on_disk_are_gone, C109_big_upload_is_lost (Props_Params.v) | that every upload can be read is refuted |
| C110 | The size of a bound slice | proved | C110_slice_size, C110_size_is_determined (Props_ParamsExact.v); C110_one_parameter_any_size, C110_slice_size_partial, C110_slice_size_is_bounded_by_the_request_refuted (Props_ParamsBind.v) | that the size is bounded by the request is refuted |
| C111 | When using a worker can panic | proved | C111_panics_only_if, C111_panics_for_every_n (Props_WorkerExact.v); C111_submit_during_wait_refuted, C111_submit_after_wakeup_refuted, C111_orderly_partial (Props_WorkerLive.v) | that RunTask may be called while another goroutine waits is refuted |
| C112 | All deadlocks of a worker | proved | C112_every_deadlock, C112_close_blocks_only_if (Props_WorkerExact.v); C112_close_in_task_refuted, C112_close_outside_partial (Props_WorkerLive.v) | that Close can be called from anywhere is refuted; the deadlocks of every program are characterised |
| C113 | A task of a wrong type | proved | C113_wrong_type_blocks_for_ever, C113_wrong_type_stays, C113_wrong_type_takes_a_slot (Props_WorkerExact.v); C113_other_task_refuted, C113_unended_blocks_partial (Props_WorkerLive.v) | that it does no harm is refuted |
| C114 | Until when a worker accepts tasks | proved | C114_accepted_until, C114_dropped_after (Props_WorkerExact.v); C114_reuse_partial, C114_reuse_refuted (Props_WorkerLive.v) | that a worker can be used again after any Wait is refuted |
| C115 | Accepted tasks run once | proved | C115_once (Props_Worker.v) |  |
| C116 | What a log line says, exactly | proved | C116_printed_text (Props_Log.v); C116_line_exact, C116_methods (Props_LogExact.v) |  |
| C117 | Logger.Recover, for every level | proved | C117_recover_panics_iff, C117_recover_returns (Props_ReqLogExact.v); C117_recover_partial, C117_recover_refuted (Props_Log.v) | that Recover contains every panic is refuted |
| C118 | When two request ids are equal | proved | C118_ids_equal_iff (Props_ReqLogExact.v); C118_ids_distinct_partial, C118_ids_refuted (Props_ReqLog.v) | that ids are unique is refuted |
| C119 | The X-Reqid the response leaves with | proved | C119_first_is_a_write, C119_first_is_a_flush, C119_one_is_first, C119_header_names (Props_ReqLogExact.v); C119_response_carries_id_partial, C119_response_carries_id_refuted (Props_ReqLog.v) | that the response always carries the id is refuted |
| C120 | The lines of one request | proved | C120_lines_are, C120_logged_status_not_sent (Props_ReqLogExact.v); C120_begin_and_end_partial, C120_begin_and_end_refuted (Props_ReqLog.v) | that every request has an end line with the status sent is refuted |
| C121 | The client address in the request log | proved | C121_address_is, C121_entry_exists, C121_forwarded_iff (Props_ReqLogExact.v); C121_client_address_partial, C121_client_address_refuted (Props_ReqLog.v); C121_first_headers (Props_Header.v) | that it is always the client address is refuted |
| C122 | Directory redirects and the host | proved | C122_redirect_exact, C122_location_written (Props_StaticExact.v); C122_redirect_stays_partial, C122_with_prefix, C122_redirect_stays_refuted (Props_Static.v) | exact condition both ways; C122_redirect_stays_refuted shows that the unconditional claim is false |
| C123 | Served files are closed | proved | C123_files_closed_exact, C123_all_closed_iff (Props_StaticExact.v); C123_files_closed_partial, C123_files_closed_refuted (Props_Static.v) | exact: the leak of the fallback file is the only exception and happens on every such request |
| C124 | What the static filter serves | proved | C124_one_answer, C124_what_is_served, C124_stat_failure (Props_Static.v) |  |
| C125 | The skip list is matched against the path as sent | proved | C125_skip_exact (Props_StaticExact.v); C125_skip_partial, C125_skip_refuted (Props_Static.v) | exact; C125_skip_refuted: skip prefixes do not protect files |
| C126 | Fallback instead of 404 | proved | C126_fallback_exact (Props_StaticExact.v); C126_fallback_partial, C126_fallback_refuted (Props_Static.v) | exact condition both ways |
| C127 | Content type follows the file | proved | C127_name_exact (Props_StaticExact.v); C127_name_partial, C127_name_refuted (Props_Static.v) | all cases |
| C128 | Encoding failures | proved | C128_encode_failure, C128_raw_failure, C128_encode_failure_refuted (Props_Result.v) | exact behaviour; C128_encode_failure_refuted shows that the status is not 500 |
| C129 | Results can be reused | proved | C129_reusable (Props_Result.v) |  |
| C130 | Reader results are closed | proved | C130_reader_closed_exact, C130_generic_exact, C130_reader_closed_partial, C130_reader_closed_refuted, C130_generic_refuted (Props_Result.v) | exact; in the two exceptions the reader leaks |
| C131 | Derived errors equal their origin | proved | C131_derived_equal_exact, C131_derived_equal_partial, C131_derived_equal_refuted (Props_Result.v) | exact |
| C132 | Compressed responses are labelled | proved | C132_labelled, C132_no_length, C132_type (Props_Gzip.v); C132_first_type (Props_Header.v) | fields the chain or its hooks set themselves are theirs |
| C133 | Who gets compressed responses | proved | C133_accepts_exact, C133_refused_refuted (Props_Gzip.v) | exact; the refutation shows that refusals are not respected |
| C134 | Outer filters under gzip | proved | C134_outer_exact, C134_outer_writes_refuted, C134_outer_dropped (Props_Gzip.v) | exact, all cases |
| C135 | RealURL is the URL behind proxies | proved | C135_real_url, C135_real_url_error (Props_ParamsExact.v) | url.ParseRequestURI is a parameter |
| C136 | A Wait inside a task never returns | proved | C136_wait_in_task_never_returns (Props_WorkerExact.v) |  |
| C137 | What the panic page shows of the stack | proved | C137_page_text, C137_shown_is_a_function, C137_text_is_kept_refuted (Props_Stack.v) |  |
| C138 | Markup on the panic page | proved | C138_stack_is_inert, C138_page_is_inert_refuted, C138_page_markup (Props_Stack.v) | what fmt prints for the panic value is a parameter |
| C139 | Stack writes every frame by itself | proved | C139_stack_frames, C139_line_text_is_a_function, C139_file_source, C139_addresses (Props_Stack.v) | files do not change while Stack runs; file names are not empty |
| C140 | Function names in stacks | proved | C140_function_names, C140_unknown_function (Props_Stack.v) |  |
| C141 | The panic page shows the stack | proved | C141_page_shows_stack, C141_page_layout (Props_Stack.v) | function names contain no line break |
| C142 | A session and the map it was made with | proved | C142_session_and_its_map, C142_read_session (Props_Store.v) | one goroutine at a time |
| C143 | The dummy store behaves like a session | proved | C143_dummy_is_a_session (Props_Store.v) |  |
| C144 | What Flush saves | proved | C144_what_flush_saves, C144_changes_are_saved_refuted (Props_Store.v) |  |
| C145 | Effective settings | proved | C145_effective_settings, C145_mode_from_file_refuted (Props_Setup.v) | the environment does not change in between |
| C146 | The classic filters | proved | C146_other_options_panic, C146_classic_filters, C146_on_a_used_application, C146_again_adds_nothing_refuted (Props_Setup.v) | hooks add filters of the program only, none twice |
| C147 | When sessions are collected | proved | C147_gc_schedule, C147_interval_used_refuted, C147_no_secret_no_manager (Props_Setup.v) |  |
| C148 | Hijack | proved | C148_after_hijack, C148_failed_hijack (Props_RespBody.v) |  |
| C149 | The body on the wire | proved | C149_body_exact (Props_RespBody.v) |  |
| C150 | Conversions of any value | proved | C150_signed_exact, C150_unsigned_exact, C150_text_exact, C150_no_number, C150_widening, C150_bool_exact, C150_other_accessors (Props_Value.v) | exact; floats only as a source, by their printed form |
| C151 | ToInt64 | proved | C151_to_int64_exact (Props_Value.v) | exact |
| C152 | Floats and times from parameters | proved | C152_float, C152_time, C152_one_time, C152_zero_values (Props_Time.v) | exact, for any reader of floats and times |
| C153 | The default time formats | proved | C153_default_times, C153_zone_of_any_format, C153_one_meaning, C153_no_minutes_refuted (Props_Time.v) | exact; the fraction's nanoseconds and the zone's offset are read by an arbitrary function; that hour and minute suffice is refuted |
| C154 | BindJsonBody | proved | C154_first, C154_read_error, C154_body_is_read_once, C154_twice_refuted (Props_ParamsReq.v) | for any decoder |
| C155 | Which bodies are parameters | proved | C155_bodies, C155_values (Props_ParamsReq.v) | exact |
| C156 | The memory limit for uploads | proved | C156_limit, C156_first_setting_wins, C156_later_settings_refuted (Props_ParamsReq.v) | all interleavings |
| C157 | Uploaded files reach the handler | proved | C157_readable, C157_no_file_stays, C157_all_or_lost, C157_upload_refuted (Props_ParamsReq.v) | that every upload can be read is refuted |
| C158 | What Router accepts | proved | C158_router_panics, C158_router_path (Props_Decl.v) | white space as strings.TrimSpace |
| C159 | Which controllers can be declared | proved | C159_accepted, C159_nil (Props_Decl.v) | all types, methods and options |
| C160 | Which filters are the same | proved | C160_accepted, C160_invoked, C160_exempt, C160_provide_refuted, C160_typed_refuted, C160_numbered (Props_Decl.v) | that Exempt takes away an inject.Provide given as a slice is refuted; C160_numbered links to the numbered filters of the routing model |
| C161 | Every request has its own controller | proved | C161_unreached_structs_stay, C161_own_fields, C161_as_alone, C161_failed_lookup (Props_Ctl.v) | all schedules |
| C162 | Fields injected behind pointers are shared by all requests | proved | C162_shared_behind_pointers (Props_Ctl.v) | isolation behind pointers is refuted for every such controller |
| C163 | Lookups of concurrent requests | proved | C163_as_alone, C163_shared_injectors_stay, C163_cycle_always_reported_refuted (Props_InjectConc.v) | functions provided answer a request as if it were alone; a request works on its own injectors only |
| C164 | The counters of providers wrap | proved | C164_counter_wraps_refuted (Props_InjectConc.v) | the property is the exact form: when the spurious cycle is reported |
| C165 | What a filter provides is what later handlers get | proved | C165_found, C165_arguments, C165_kept_after_call, C165_provided_is_given, C165_kept_is_given, C165_find_gives_provided, C165_without_callbacks, C165_last_provided_wins_refuted (Props_Reent.v) | one goroutine |
| C166 | Making a slot with functions that call back | proved | C166_kept_calls_nothing, C166_made_once_refuted, C166_cycles_are_reported_refuted (Props_Reent.v) | made once and cycle reporting are refuted for functions that call back |
| C167 | What the Contexts of a request answer | proved | C167_values_exact, C167_route_sees_app, C167_app_keeps_its_values, C167_context_of_the_request, C167_derived_lookups_return, C167_behind_itself, C167_lookups_return_refuted, C167_key (Props_ReqCtx.v) | that all lookups return is refuted; when they do is proved |
| C168 | Handlers that hold several Contexts | proved | C168_at_most_once_in_order, C168_given_context, C168_found_context, C168_app_chain_is_over, C168_requests_end, C168_own_contexts_only, C168_next_on_found_context_refuted, C168_goes_on_after_panic (Props_ReqCtx.v) | agrees with ChainModel for handlers that use only the Context they are given |
| C169 | What a cache gives back for each value | proved | C169_value_given_back, C169_kept_is_a_function, C169_caches_agree (Props_CacheVal.v); C169_memcached_keys (Props_Texts.v) | floats are not modelled |
| C170 | Caches and lost connections | proved | C170_gc_needs_no_server, C170_lost_connection (Props_CacheVal.v) | all failure points |
| C171 | A session is one register for concurrent requests | proved | C171_session_is_a_register, C171_own_copy (Props_SessConc.v) | all schedules and faults |
| C172 | Updates of concurrent requests | proved | C172_lost_update, C172_serial_updates_survive, C172_updates_survive_refuted (Props_SessConc.v) | that overlapping updates survive is refuted, with the exact outcome |
| C173 | GetLogger finds the request's logger | proved | C173_logger_of_the_request, C173_filter_sets_logger, C173_get_logger, C173_with_logger, C173_key (Props_ReqCtxLog.v) | all handlers and histories |
| C174 | Values behind the Context and the request logger | proved | C174_values_of_the_request, C174_values_survive_refuted (Props_ReqCtxLog.v) | that values survive the filter is refuted; what is found is exact |
| C175 | Routing looks at every declared node at most once | proved | C175_each_node_once (Props_RouterCost.v) | the matcher instrumented with its looks, shown to find what the matcher of C01-C15 finds |
| C176 | Applications keep their own filters | proved | C176_own_filters, C176_no_replacing, C176_shared_exact, C176_independent_refuted (Props_Apps.v) | independence for all uses refuted with Go's doubling; exact law of two calls |
| C177 | Errors report their status | proved | C177_status_reported, C177_text_is_body, C177_other_errors (Props_Result.v) | on the heap of errors of C89 and C131 |
| C178 | Assertions decide nil | proved | C178_nil_or_not, C178_odd_nils, C178_booleans (Props_Assert.v) |  |
| C179 | Regenerating a session in use | proved | C179_alone, C179_regenerate_exact, C179_values_at_the_first_read, C179_old_id_is_gone, C179_update_survives_refuted, C179_old_id_comes_back_refuted (Props_RegenConc.v) | that no flushed update is lost and that the old id stops working are refuted; alone shows that the steps are those of the Regenerate of SessModel |
| C180 | What the cookie lines say | proved | C180_session_line, C180_remember_line, C180_deleting_lines, C180_bad_names (Props_Cookie.v); C180_token (Props_Texts.v) | the lines as a browser of RFC 6265 (UserAgent.v) parses them; which texts are domain names is that of net/http |
| C181 | The cookie within its own request | proved | C181_same_request, C181_other_cookies, C181_second_line_lost_refuted (Props_Cookie.v) | that the other cookies stay is refuted for requests with several Cookie lines |
| C182 | The session cookie comes back | proved | C182_kept, C182_read_back, C182_stays, C182_destroyed (Props_Cookie.v) | for every browser history; the browser is the specification UserAgent.v |
| C183 | Remember-me through the browser | proved | C183_remember_in_the_browser (Props_Cookie.v) | exact, for lifetimes up to 292 years either way |
| C184 | Which of several cookies counts | proved | C184_which_cookie_counts, C184_no_cookie, C184_tossed_refuted (Props_Cookie.v); C184_readable_value, C184_blanks (Props_Texts.v) | exact; that a valid session cookie that is sent counts is refuted |
| C185 | After Destroy in the same request | proved | C185_start_after_destroy, C185_lost_session_refuted, C185_regenerate_after_destroy (Props_Cookie.v) | that Destroy and Start in one request leave the browser with the new session is refuted |
| C186 | Injectors whose parents go round in a circle | proved | C186_three_cases, C186_exists_hangs, C186_find_hangs, C186_provided_is_found (Props_InjectLoop.v) | in Go the endless recursion ends the program |
| C187 | Which configured domains get into the cookie | proved | C187_which_domains_count, C187_domain_names, C187_addresses (Props_CookieDomain.v) | the rules are those of net/http, which drops the attribute with a line in the log only |
| C188 | The URL RealURL gives, as a text | proved | C188_same_resource, C188_errors, C188_own_text, C188_original_text, C188_text_kept_refuted (Props_RealURL.v); C188_host_text, C188_path_text (Props_Texts.v) | exact; that the text of the header is kept is refuted; other forms of targets (star, full URLs) are quantified |
| C189 | Where Run listens | proved | C189_where_run_listens, C189_endpoints, C189_ipv6_refuted (Props_Listen.v) | the form of addresses is that of net.SplitHostPort; the system calls are not modelled; that every IP address can be configured is refuted |
| C190 | StrTo.Strings | proved | C190_strings, C190_pieces_join, C190_join_back, C190_empty_delimiter, C190_empty_delimiter_any (Props_Strings.v) | exact for UTF-8 text; a byte that begins no UTF-8 sequence is kept, as Go does since 1.18 |
| C191 | ToStr with a base | proved | C191_integer_in_base, C191_read_back, C191_no_number, C191_float, C191_different_integers (Props_Base.v) | exact; the digits of floats are quantified |
| C192 | Promoted fields of bound structs | proved | C192_field_by_name, C192_bound, C192_pointer_panics, C192_order_irrelevant, C192_order_refuted, C192_pointer_order_refuted (Props_Embed.v) | what Bind gives for a field is quantified; types that embed themselves through pointers are not modelled; that promoted fields can always be bound, and that the order never matters, is refuted: C192_order_irrelevant says when it does not |
