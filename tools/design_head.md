# Formal model of wujiu2020/strip in Rocq (Coq 8.16.1)

(The table at the end is generated by tools/design.py from MANIFEST.json,
properties.jsonl and the Coq sources; edit tools/design_head.md for the rest.)

## Approach

* Only the Coq standard library is used. No axioms are added; every theorem
  named in MANIFEST.json is followed by `Print Assumptions` in its file.
* Go strings and byte slices are `bytes := list ascii` (GoStr.v). Integers are
  `Z` with explicit width conversions where the code converts.
* Per area: `*Model.v` (the code, function by function, each definition citing
  /repo lines and its simplifications), `*Spec.v` or the head of the `Props_*.v`
  file (a small specification that does not use the model's helpers),
  `*Facts.v` (lemmas) and `Props_*.v` (the theorems `Cnn_...`, and `Example`s
  showing concrete runs that meet their hypotheses).
* A property the code violates keeps its full statement in properties.jsonl with
  the remark FALSE and the failing case. For it we prove `..._refuted` (the full
  statement is false, by a concrete run of the model) and `..._partial` (the
  strongest conditional version found, often an exact description of what the
  code does). Its status is `partial`.
* Everything the code gets from outside (clock, random bytes, hash functions,
  network faults, file systems, map iteration order, schedules, user callbacks,
  the text made by package fmt) is universally quantified: a section variable or
  an argument. Where a law of an external function is needed (decompression
  inverts compression, unmarshal inverts marshal) it is a section hypothesis,
  hence a visible premise of the theorem, and an Example shows an instance.

## Models, area by area

| area | files of /repo | model | how it is proved |
|---|---|---|---|
| Router | router.go, router_util.go, router_filter.go, router_method.go, router_action.go (registration, call) | RouterModel: route tree as nested inductive, declarations as trees, configRoutes as structural fixpoint in a panic monad, match as fixpoint on segments; SliceModel: Go slices over a heap with any append growth policy | (exact statements in RouterExact, Props_RouterExact) invariants of built trees by induction over declarations; induction over segments; simulation of heap slices by pure lists (BuilderFacts, Props_BuilderExact); the matcher instrumented with the nodes it looks at, distinctness by induction over segments (C175) |
| Conversions | app_util.go, utils/converter*.go | GoNum (strconv), ConvModel, ValueModel, BaseModel (exact statements in Props_ConvExact, Props_Base) | arithmetic; round trips |
| Response | response.go | (exact statements in Props_RespExact, Hijack and body in Props_RespBody) RespModel: writer state machine over net/http's connection (any acceptance of bytes), hooks as trees with observations, panics and deadlock as outcomes; HeadModel: the same writer with header maps on a connection that takes everything | trace invariants by induction over call sequences |
| Chain, recovery, app | context.go, app.go, recovery.go | (exact statements in Props_ChainExact) ChainModel: handlers as (possibly infinite) action trees, both nested chains, index and Written; AppModel: router and chain together | induction on trees and on the remaining chain |
| Inject | inject/*.go | InjectModel: injector heap, providers as oracles, fuelled resolution; InjectWorld/InjectHist: histories of calls; Props_InjectExact: what an injector keeps, read off the log; InjectWalk, InjectDone, Props_InjectWalk: the exact outcome of every lookup (built, missing, cycle, endless) | history invariants; fuel bound by the number of providers; refutations by computation |
| Secure values, remember | sessions/utils.go, remember.go | SecureModel over GoEnc (base64, query escape, hex), HMAC quantified | round trips, exact acceptance condition (Props_SecureExact) |
| Ids | utils/rand.go, sessions/utils.go | RandModel | arithmetic, injectivity |
| Caches | caches/*.go | CacheModel: providers over transcribed server semantics (memcached, Redis, MongoDB), one fault per round trip | refinement to a TTL map (CacheSpec); exact ends, counters and isolation in Props_CacheExact; values and faults in Props_CacheVal |
| Sessions | sessions/provider.go, manager.go, store_dummy.go | SessModel on CacheModel | state machine invariants over histories and faults; exact outcomes in Props_SessExact; SessConc: any number of requests with one session, interleaved, refined to one register; RegenConc: the round trips of Regenerate between them |
| Config | config/*.go, config.go, utils/helpers/config.go | ConfigModel | induction over lines and parents; exact panics in Props_ConfigExact |
| Params | params/*.go | ParamsModel: map iteration order is any permutation (relation `binds`), floats, times and JSON quantified | induction over names, bodies and types; exact statements in Props_ParamsExact, Props_ParamsPanic (panics), Props_ParamsOrder (map order); EmbedModel, Props_Embed (promoted fields) |
| Time parameters | params/binder.go (floats, times, default formats) | TimeModel: time.Parse for the four default layouts | layouts against an independent grammar of texts |
| Requests to params | params/params.go (ParseParams, ParamsParser, BindJsonBody) | ParamsReqModel: content type, the shared limit as a small-step machine, uploads on a disk | inductive invariant over interleavings; simulation of the reader of uploads |
| Declarations | router.go (Router), router_action.go, router_filter.go, context.go | DeclModel: types of controllers, identity of filters as type and data word | case analysis over types; induction over argument lists; simulation with the numbered filters |
| Controllers of concurrent requests | router_action.go (callStructFunc), inject/inject.go (apply) | CtlModel: memory with shared objects, one copy per request, small steps under a schedule | invariants over schedules; a constructed schedule for the leak |
| Lookups of concurrent requests | `InjectConc`: a lookup as the tree of its accesses to the shared 32-bit counters, schedules of several requests | C163: a lookup alone is InjectModel's (CPS adequacy), other requests can only turn a cycle error into something else (tameness), invariant over the schedule; C164: induction on the number of lookups |
| Functions that call the injector back | `ReentModel`: functions are programs of injector operations; a history of what happened | C165: invariant that the history determines what is kept, provided and found (induction over fuel, operations and function bodies); simulation of InjectModel for functions that do not call back; C166 |
| Contexts as values | context.go, app.go ServeHTTP, router.go handle, request-logger/logger.go setLoggerInContext, utils/helpers/log.go | ReqCtxModel: both Contexts of a request with the context.Context behind each; handlers are trees that call Next on, replace and look up any of them; a trace of events | C167: the trace determines every answer (`gives`, `stands`); C168: order invariant over both indices, a measure for ending, simulation of ChainModel; C173, C174: the logger filter as a handler, invariants over the events after its start |
| Worker | utils/worker.go | WorkerModel: small-step interleaving machine, user code as infinite trees | inductive invariants over reachable states; progress and termination under fair schedules (WorkerLive); every deadlock and panic characterised for all programs (Props_WorkerExact) |
| Log | log.go, request-logger/*.go | LogModel, ReqLogModel on HeadModel | history invariants; exact outcomes (Props_LogExact, Props_ReqLogExact) |
| Static files | static-serve/static.go | (exact statements in Props_StaticExact) StaticModel: events (open, close, serve, redirect); http.Dir, http.Redirect and url escaping transcribed | case analysis over exact path resolution (`resolves`) |
| Several applications, assertions | app.go, app_util.go (ReplaceFilters), assert.go | AppsModel: applications as slices over the heap of SliceModel; AssertModel: reflect kinds in their order | ownership invariant over calls (C176); case analysis (C178) |
| Results | router_action_out.go, utils/apires/*.go | ResultModel on HeadModel, error values on a heap | histories of calls on shared errors |
| Context values | utils/context.go | CtxValModel | injectivity of keys, induction over the chain |
| Stacks, panic page | app_util.go (Stack, FileSource), recovery.go (page) | StackModel: frames as a list, file reading and function names quantified; the page as text | induction over frames and lines; an HTML reader (tags, references) as specification |
| Session stores | sessions/provider.go, store_dummy.go | StoreModel: both stores and the program's maps on a heap, the cache an oracle of everything asked | refinement to a machine of values with one shared map |
| Cookies | sessions/manager.go, remember.go, config.go | CookieModel on SessModel with net/http's cookie functions; UserAgent: the browser of RFC 6265, a specification | parsing lemmas over all byte strings; induction over browser histories; reduction to the session theorems |
| Setting up | config.go, app.go, utils/helpers/*.go, sessions/manager.go (GC) | SetupModel on ConfigModel | reduction to the config theorems; induction over options, collections |
| RealURL | params/real.go | UrlModel with the functions of net/url | induction over percent-encoded texts |
| Listening | app.go (Run) | ListenModel with net.SplitHostPort on SetupModel | case analysis on the last colon and the first bracket |
| Splitting texts | app_util.go (StrTo.Strings) | StringsModel with strings.Split | the leftmost cut is unique; induction on the text |
| Gzip | gzip/gzip.go | GzipModel on HeadModel, compressor quantified | simulation between the run with and without the filter |

## Not modelled

Data races below the level of channel, lock and atomic operations, the Go memory
model, real network I/O, reflect beyond the facts stated in the models, floating
point, actual hash functions and compressors, the wording of fmt, assert.go (test helper), default.go.

## Trusted base

* Coq 8.16.1's kernel (and coqchk, run by vcheck).
* `Print Assumptions` prints "Closed under the global context" for every theorem
  of MANIFEST.json: no axioms at all. vcheck's `library_axioms` lists the fields of
  module parameters in Coq.ssr.ssrunder, which the standard library loads; no
  theorem depends on them.
* The transcription of the cited Go lines into the models, and of the parts of Go's
  standard library into Go*.v, RespModel (net/http), StaticModel (net/http, net/url),
  and of the cache servers into CacheModel. Nothing was executed: /repo was read.

## Testing the theorems

seeded/LOG.jsonl lists every wrong program tried (tools/mutate.py edits a scratch copy
of the model and rebuilds): the edit, the claim it breaks, the theorems that failed, and
theorems added or tightened because a wrong program survived.

## Property by property

