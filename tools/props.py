import json
P=[]
def p(id,title,stmt,quant,why,*anch):
    P.append(dict(id=id,title=title,statement=stmt,quantifier=quant,why_tests_cant=why,anchors=list(anch)))
R="router.go: "
p("C01","Served action was registered for that request","If a request is answered by a registered action, then some Router/Routers declaration in the program registers exactly that action, and the declaration's full pattern conforms to the request path segment by segment (static segments equal, `:name` any non-empty segment, `:name:verb` a segment ending in `:verb`, `*:name` the whole non-empty rest).","every handler tree given to Routers, every sequence of Routers calls accepted without panic, every method and path","the route tree and the request path are unbounded; tests only sample a few trees",R+"configRoutes, match, handle","router_util.go: calcRouterArgs, splitRoutePath")
p("C02","Static routes are always reachable and win","A pattern made only of static segments that was declared is always the one selected for its own path, whatever other param, verb or wildcard routes exist; the action served is the one of the latest declaration of that pattern and method.","every accepted declaration program and every static pattern in it","depends on all other routes present",R+"match, configRoutes")
p("C03","Not found, exactly","For every accepted program and every request, the not-found chain runs if and only if either every pattern in force that conforms to the path is hidden (it turns off at a parameter where the rest of the path leads by static segments, past no wildcard, to a position some longer pattern passes but that is no route), or the selected pattern has no declaration answering the method. A pattern is in force if it was declared and no other wildcard text was declared at its place since.","every accepted declaration program and every path","absence claim over all trees and paths",R+"match, handle")
p("C04","Exactly one pattern is selected","For every accepted program and every path, the pattern that serves the path is exactly the one that is in force, conforms, is not hidden by a static dead end, and is preferred (static before verb parameter before plain parameter before wildcard, newer verb first, decided at the first differing segment) to every other such pattern; there is at most one.","every route tree and path","needs comparison against every alternative route",R+"match, configRoutes")
p("C05","Path normalisation","The segments used for matching never contain \"\", \".\" or \"..\" and never a slash, and adding or removing duplicate, leading or trailing slashes, `.` segments or surrounding white space does not change them; `..` never climbs above the root.","every byte string used as path","all strings","router_util.go: splitRoutePath")
p("C06","Route params are the matched segments","The route params handed to the action are, in pattern order, the pairs (declared name, matched segment without its verb suffix), and for a wildcard the remaining segments joined by `/`; concatenating static text and values reconstructs the path.","every route tree, pattern and path","all values and depths",R+"match, paramList.values, pathParam")
p("C07","Method dispatch order","For every accepted program, method and path, the request is served by the selected pattern, with the declaration in force there that answers the method: the last one naming the method, else for HEAD the GET default, else the last All declaration (its method-named action, or its own action), else the last Any declaration, else the not-found chain. Only declarations made since the pattern was last replaced count.","every route, method string and set of declarations","all combinations of declarations",R+"handle","router_method.go: method.action")
p("C08","HEAD follows GET, exactly","For every accepted program, HEAD on a selected pattern runs the last HEAD declaration in force; without one, the last GET of the first Router level by which a GET had been declared (which exists whenever a GET is in force), so it runs what GET runs unless a later level declares GET again.","every declaration program","history of registrations",R+"configRoutes 327-330")
p("C09","Filter inheritance","A filter runs before an action iff it was added on some enclosing router level (or by the method itself) and is not exempted at that level, a deeper enclosing level, or by the method; the order is outermost first, and no filter is run twice.","every handler tree, depth, and method declaration","arbitrary nesting","router_filter.go: append, remove",R+"configRoutes")
p("C10","Filters of sibling routes never interfere","The effective filters of one declaration do not depend on its sibling declarations or their order, even though the implementation appends to shared Go slices.","every interleaving of declarations and every slice capacity","slice aliasing depends on capacities","router_filter.go: append, remove",R+"configRoutes 323, 342, 354, 438")
p("C11","Ambiguous declarations are rejected","Declaring at one position two param names that differ, two wildcard names that differ, or a wildcard not in last position panics at registration; in every accepted program all param routes at a position share one name.","every declaration program","all conflicts",R+"configRoutes 395-433")
p("C12","What a later declaration changes, exactly","A pattern is in force after further Routers calls if and only if it is newly declared or it was in force and none of the new patterns replaces its wildcard. A request served by a pattern that is neither replaced nor declared again is served identically afterwards if and only if that pattern is not hidden and still preferred in the larger program.","every declaration program and extension","histories",R+"configRoutes 411-420")
p("C13","What MethodHandler builders do to one another","A builder call yields a handler with the receiver's options followed by the new one, and changes exactly those earlier handlers that share the receiver's backing array and are longer: their option at the receiver's length becomes the new one. So when two handlers are derived from one with k options (slices doubling as in Go), the first keeps its own option iff k + 2 is a power of two; otherwise it has the second's.","every sequence of builder calls on shared values","aliasing depends on hidden slice capacity","router_method.go: methodParams.Filter, Exempt, Action")
p("C14","RouteInfo.Path is the declared pattern","RouteInfo.Path given to handlers is the concatenation of the cleaned path texts of the enclosing Router declarations of the served route, or `/` for the root.","every tree","all depths",R+"calcPath, handle")
p("C15","Action arguments are the params in order","A struct action is called with one argument per argument type recorded at registration (those of the stored action), the i-th being the i-th route param read as that type without its pointers, or the zero value if the param is missing, unreadable or the type is not convertible; the call happens if and only if no other slice type has a param and the arguments have exactly the types of the method called (so pointer arguments, and methods chosen by All whose types differ, panic).","every action signature and param list","all signatures","router_action.go: callStructFunc","app_util.go: convertStringAsType")
p("C16","Each handler runs at most once and in order","In one request each filter and the action are started at most once and in order (app filters, routing, route filters, action), whatever the handlers do: panics, writes, several Next calls.","every chain and every handler behaviour","all behaviours","context.go: run, Next, handler")
p("C17","Untouched chains run completely","If no handler writes, sets a status or panics, all filters and the action run exactly once, whether or not they call Next.","every chain","all behaviours","context.go: run, Next")
p("C18","Nothing starts after the response was written","A handler that starts is never started after the response was marked written, unless a handler calls Next explicitly (or it is the first handler of the route chain that such a Next entered).","every chain and behaviours","all behaviours","context.go: run")
p("C19","What a second Next does","When a Next of a handler has returned and the response is still unwritten, every later Next of that chain does nothing at all. When the response was written in between, the handler whose turn it was is passed over for good and the next Next starts the first handler behind it (nothing if there is none); no handler is ever repeated.","all handler programs","all behaviours","context.go: Next, run")
p("C20","What the recovery filter does with panics","With the recovery filter first: if the chain behind it returns, nothing changes; if it panics after the response was written, the response stays as it was; if it panics with a non-nil value before that, the status becomes 500 and in development mode the error page is written; if it panics with nil, the chain goes on, unprotected, behind the handler that panicked. A panic escapes exactly if that unprotected rest panics or, in development mode, if writing the error page does. The status the client gets is the one C22 gives for the calls made before the panic followed by WriteHeader(500) (and the page): 500 unless a Write or Flush had been tried before or a Before hook interferes.","every chain, panic point and mode","every crash point","recovery.go: RecoveryFilter")
p("C21","Header is sent exactly once, before any body byte","For any sequence of Write/WriteHeader/Before/Status calls, the underlying writer sees exactly one WriteHeader, before the first body byte; a finished request always sends one.","every call sequence","histories","response.go: Write","app.go: ServeHTTP")
p("C22","The status on the wire and Status()","Without hijacking, a finished exchange sends one header. Its status is the one handlers, and then the Before hooks, set last before the first Write (200 if none), provided nobody flushed before, no hook panicked and net/http takes the code as final (101, 200..999); otherwise it is 200. Status() is the last status set at all, by handlers or hooks, however late (200 if a Write came through before any was set).","every call sequence","histories","response.go: WriteHeader, Write, Status")
p("C23","Before hooks run once, in reverse order, before the header","Every hook registered before the first Write runs exactly once, last registered first, before the header is sent; hooks registered later never run.","every call sequence and hook list","histories","response.go: Before, callBefore, Write")
p("C24","Size and Written","Size() is the number of body bytes accepted by the connection; Written() never goes back to false, and is false exactly if no non-zero status was set by a handler and the first Write, if any, was stopped by a panicking hook before any status was set.","every call sequence","histories","response.go: Size, Written")
p("C25","Flush commits 200","A Flush before the header was sent commits status 200, whatever WriteHeader had set, and runs no hook; status, size and hooks stay as they are, and the exchange ends with 200 on the wire. A Flush after the header was sent, or after hijacking, changes nothing.","every call sequence","histories","response.go: Flush")
p("C26","Find answers with what is kept, else from the nearest latest provider","Find of a type and name on an injector: if no injector on the chain of parents provides it, it is an error and nothing changes; otherwise, if the injector keeps values for it (results of an earlier call made for this injector and this type and name that was not dropped since, see C27), they are the answer, without any call; otherwise a value provided last in the nearest enclosing injector is the answer, without any call; otherwise a successful answer is the result of the function provided last in the nearest enclosing injector, called just now. (So a child that has built a value keeps it when a parent provides anew.) The target gets the value that was found if it can be assigned to it, else what the value points to, nothing and no error for a nil pointer, and Find is an error if that does not fit either.","every provider history and every parent chain","histories","inject/inject.go: GetVal/findProvider, SetParent, Provide")
p("C27","A kept value stays and is not built again","As long as an injector keeps the results of a function for a type and name, no operation whatever calls a function for this type and name on this injector, Finds return the same value, and the results stay kept until this injector is provided that type and name anew, or an Invoke on it of a function whose first result is of that type and name succeeds; these two drop them.","every dependency graph and lookup history","all graphs","inject/inject.go, inject/inject_provider.go")
p("C28","Missing dependencies are reported, not executed","A lookup calls only functions all of whose parameters can be built (recursively). A lookup that does not panic reports slot m as missing exactly if m is where one gets, starting from the slot looked up, by always going to the first parameter that cannot be built, and no injector up the chain provides m.","every dependency graph","all graphs","inject/inject_provider.go")
p("C29","Dependency cycles are reported","A lookup that does not panic reports a cycle exactly if going from the slot looked up always to the first parameter that cannot be built leads into a cycle on which some provider has not been called yet; the slot named in the error is on that cycle. Before anything was looked up every cycle is thus reported.","every dependency graph","termination over all graphs","inject/inject_provider.go")
p("C30","Lookups hang exactly on cycles whose providers have all been used","A lookup that does not panic runs for ever exactly if going from the slot looked up always to the first parameter that cannot be built leads into a cycle all of whose providers have been called before (by whatever injector); in particular it ends if there is no cycle.","every history of Provide/Find with child injectors","non-termination cannot be observed by a finite test","inject/inject_provider.go")
p("C31","Invoke calls the function exactly once unless a value is kept for its result","A successful Invoke(f): if the injector keeps values for the type of f's first result, they are returned and f is not called, nor anything else; otherwise f is called exactly once, after everything it needs, and its results are returned. Either way nothing is kept for that type afterwards.","every injector state and f","histories","inject/inject.go: Invoke")
p("C32","What can be built is built","Find succeeds exactly if the slot can be built (kept, a value, or a function all of whose parameters can be built). Invoke of a function for whose result slot nothing is kept: if the nearest provider of that slot has been called before or there is none, it succeeds exactly if the parameters can be built; if it is a function not called yet, exactly if they can be built without that slot; a cycle error names a needed slot not used yet that is on a cycle or is the function's own slot.","every graph","all graphs","inject/inject_provider.go")
p("C33","Which types share a slot","Two (type, name) pairs share a provider slot exactly if, pointers aside, the types have the same import path and the same type name and the names are equal, for paths and type names without colons. (So all unnamed types share one slot per name, and so do types of one name declared in different functions of a package.)","every pair of types and names","all pairs","inject/inject_provider.go: createName")
p("C34","Re-providing takes effect on that injector only","After providing a type and name again on an injector, the next Find on it yields the new value, or calls the new function; whatever it keeps for other types and names, and whatever any other injector keeps, its children included, stays and is what Find goes on answering there.","every history","histories","inject/inject.go: Provide")
p("C35","Secure cookie round trip","DecodeSecureValue(EncodeSecureValue(raw, key, t), key) returns raw and exactly t, for every non-empty raw, key and time after the epoch.","every raw, key, time and hash function","all byte strings","sessions/utils.go: EncodeSecureValue, DecodeSecureValue")
p("C36","Only signed values decode","If DecodeSecureValue accepts a string then its signature equals the MAC under the key of the value and time it returns.","every string and key","all forgeries","sessions/utils.go: DecodeSecureValue")
p("C37","Which pairs share a signature with an issued value","A signature issued for a value and a time is accepted, with a changed text, for exactly those other (value, time) pairs whose value is not empty and whose time text has no comma, stands for that time, and follows the value to make up the same concatenation; two pairs concatenate to the same text exactly if one comes from the other by moving the border between value and time. In particular times of equally many digits never clash, and a value ending in a digit always does.","every pair of values","all pairs","sessions/utils.go")
p("C38","The time of an accepted value","An accepted value's time is the positive number its signed time text stands for, or the largest 64-bit time when that number is larger or the text merely starts with a number that does not fit 64 bits; it counts as expired exactly if that time plus the lifetime has passed.","every string","all strings","sessions/utils.go")
p("C39","Remember-me round trip","WriteRemember followed by the browser's next request gives HasRemember the same user key, and ValidRemember accepts it with the same secret and key until expiry, and rejects a changed psk.","every user key, secret, time","all strings","sessions/remember.go")
p("C40","What HasRemember accepts","HasRemember is ok exactly if the last cookie of that name is accepted under the secret and not expired, and its value has a bar with both parts around the first bar unescaping - these are then the user and the hash - or has no bar at all, in which case user and hash are empty. When not ok both are empty. (So any secure value under the same secret, such as a session cookie, passes.)","every cookie","all cookies","sessions/remember.go: HasRemember")
p("C41","Session ids are well formed","Every created session id has the configured length and only alphabet characters, for every random source; ids made at different nanoseconds of 1975-2120 differ. If the random source fails or gives too few bytes CreateSid panics: there is never a shorter id.","every random stream","all streams","sessions/utils.go, utils/rand.go")
p("C42","Number encoding is invertible","NumberDecode(NumberEncode(n,a),a)=n for every n>=0 and alphabet of >=2 distinct bytes; encodings (least significant letter first) never end with the zero letter. However a number is written (sign, leading zeros) it encodes as the number; zero, negative numbers and any text that is no decimal number encode as the empty text. Decoding any token reads a letter as its first place in the alphabet, and a foreign byte as minus one.","every n and alphabet","unbounded","utils/rand.go")
p("C43","Random strings, exactly","RandomCreateBytes(n, alphabet): a negative n panics; a failed or short read is an error; an alphabet whose length is a multiple of 256 panics for n above 0; otherwise it gives exactly n bytes, the i-th being the letter at position (i-th random byte modulo (alphabet length modulo 256)), so all from the alphabet, and from its first (length modulo 256) letters only. No alphabet means digits and letters; the hex, lower-case and default alphabets are these and have no letter twice.","every n, alphabet and random stream","all streams","utils/rand.go: RandomCreateBytes")
p("C44","Session start","Start, whatever the request, the store and the connection failures: if the request carries a cookie that is signed with the key and not expired, the session has the cookie's id, no cookie is set and nothing is changed; it holds what is stored under that id, is empty if nothing is, and Start reports an error if the cache fails or what is stored cannot be read. Otherwise the session is empty under a fresh id, a cookie for it is set, and the cache is not asked. (So the id of a session that is gone is kept, and any other value signed with the same key, such as a remember cookie, is taken as an id.)","every request and store state","histories","sessions/manager.go: Start")
p("C45","Regenerate","Regenerate on a valid cookie, for every combination of connection failures of its four round trips: if the old session cannot be read it panics and nothing changes; if there is none, it gives a new session with the given values; otherwise it succeeds, with all values under a new id and a cookie for it, exactly if writing and reading the new id are reported fine and the values can be read, and panics else. The new id holds the values as soon as the write was carried out, even when it panics; the old id stops working exactly if the write was reported fine and the removal was carried out, and goes on working otherwise. Other sessions do not change. Without a valid cookie it gives a new session with the given values and a cookie.","every store state and error","crash points","sessions/manager.go, sessions/provider.go")
p("C46","Session store is a map that survives requests","Set/Get/Del on a session behave like a map, and values present at Flush are read back by the next request with that id.","every operation history","histories","sessions/provider.go")
p("C47","What brings a destroyed session back","Once Destroy of a session, by its object or by the manager, was carried out by the server, its id is not found again, whatever anybody does and whatever fails, unless a session object of that id that is open and changed is flushed, or another session is regenerated into that id; each of the two brings it back. Destroy reports success exactly if the connection was fine and the server had the session; the object is closed and emptied either way.","every history","histories","sessions/provider.go")
p("C48","Flush, and flushing again","Flush of a session saves exactly if it is open and was changed since the last Flush; it reports an error exactly if the values cannot be marshalled or the connection fails. Whatever it reports, another Flush without a change in between does nothing and reports success; after a change, everything is saved. (So a failed Flush is not retried.)","every failure point","crash points","sessions/provider.go: Flush")
p("C49","Sessions are isolated","Operations on one session id never change what another id reads.","every interleaving","histories","sessions/provider.go")
p("C50","Every cache is a TTL map","Each cache provider (Mongo, Redis, memcached) behaves like a map with expiry for Get/Set/Touch/Delete/Has/Clean under any sequence of operations, connection failures, clean-ups and clock advances, as long as no entry is touched after its timeout.","every history on every back end","histories, time, crash points","caches/provider_mgo.go","caches/provider_redis.go","caches/provider_memcache.go")
p("C51","When garbage collection shows","On Mongo, after any history from an empty server: a clean-up (GC, or the server's expiry monitor) just before an operation changes its answer exactly if the operation is a Touch, Delete, Incr or Decr of an entry the clean-up removes, that is one whose timeout has passed (for the monitor: by a minute); the answer is then missing instead of done or failed. In a history in which no entry is touched, deleted or counted after its timeout, clean-ups at any times change no answer at all.","every GC schedule","schedules","caches/provider_mgo.go: GC")
p("C52","What makes a missing entry appear","A key for which Get answers missing, expired for instance, stays missing, whatever time passes and whatever else is done, until one of these is carried out for it: a Set; on Mongo, a Touch while the server still has the expired entry; on Redis, an Incr or Decr (other than a Decr by the least integer). Each of these does make it appear.","every history","histories","caches/provider_mgo.go: Touch")
p("C53","Touch with a negative timeout","Touch with a negative timeout, on an entry that is there: memcached keeps it for ever, Mongo for 9999 days, Redis removes it at once, answering that all is well. On one that is not there it answers missing and changes nothing, except that Mongo brings back what has expired but not been removed, for 9999 days.","every back end and history","back-end semantics","caches/provider_redis.go: Touch")
p("C54","Timeout argument","A value that was set is returned until a certain time and missing from then on, whatever was there before: for a positive timeout n that time is n seconds later, for none or zero a minute, rounded down to a millisecond on Mongo, up to one on Redis, down to a second on memcached; for a negative one never (Mongo: 9999 days). Memcached takes more than 30 days for a Unix date and what does not fit 32 bits for at once. On Mongo n over 9223372036 wraps around in nanoseconds.","every integer","all ints","caches/caches.go: getTimeoutDur")
p("C55","Key prefix isolation","Two caches on one Redis give, in every history without Clean, the answers they would give without each other exactly if neither prefix begins the other; on one memcached, exactly if no key that memcached takes belongs to both: keys of at most 250 bytes without blanks, control bytes and DEL; operations on other keys fail and change nothing. Clean on either removes everything of both.","every pair of prefixes and operations","histories","caches/provider_redis.go: Clean, key building")
p("C56","Back ends agree on timeouts","A positive timeout of n seconds (up to 9223372036) ends an entry within a millisecond before the exact time on Mongo, within one after it on Redis, within a second before it on memcached up to 30 days; on memcached beyond that, at the Unix time n, and from 2^31 at once. So Redis and memcached agree, up to that rounding, exactly if n is at most 30 days.","every timeout","all ints","caches/provider_memcache.go")
p("C57","Config lookup precedence","Find('section::key'), cut at the first '::', yields the environment variable of that name if non-empty, else the own value, else that of the first parent having a non-empty one; an empty key yields nothing.","every config stack and environment","all stacks","config/config.go")
p("C58","INI parsing is line-local, last wins","Each key belongs to the nearest preceding section; a later duplicate wins; comments and blank lines are ignored; a leading UTF-8 byte order mark makes no difference; rendering and re-parsing returns the same map. ListSection of a name gives nil exactly if no header of that name and no key of that section is in the file, and else exactly the section's keys with the values given last.","every file","all files","config/config.go")
p("C59","Loader never crashes and names the error","Loading any byte content never panics: if every line is well-formed it succeeds, else it returns the error of the first bad line (blank section name, or no separator); if reading fails it returns that error unless a line before the last was bad.","every byte string","all strings","config/config.go")
p("C60","Default value is honoured","strip.Config.Find(name, def) with a Configer gives the first that is not empty of: the environment variable of the name, its values in the config and the parents from the nearest on, and def (an empty key such as db:: has no values); without a Configer it gives the empty string whatever def is.","every config state","all states","config.go: Find")
p("C61","Bind","Bind leaves the target unchanged when there is no Configer or no value, or when the type at the end of the pointers is one it does not know; otherwise it panics exactly if that type is a slice other than []byte and []string or the target is a pointer to a pointer, and else sets it (or a new variable for a pointer) to the converted value, zero if unparsable.","every value and target type","all strings","config.go: Bind")
p("C62","Later config files win","After LoadConfigFiles, Find yields (below the environment) the value of the last file tried that loads and has a non-empty one; each standard file is tried once at its first place, in this order: default, the application's name, override; of each first in the executable's directory, then the working directory, then the given one; each plain and then with the run mode; files that do not load are reported and otherwise without effect.","every list of files","all lists","utils/helpers/config.go","config/config.go")
p("C63","Unified parameter values","The parameter values of a name are query values, then route values, then form values; scalars bind the first.","every request","all requests","params/params.go")
p("C64","How often a submitted value appears","A value appears among the bound values of a name as often as it was submitted in the query, the route and the body together; for url-encoded form bodies the query's values count twice. So each value appears exactly as often as submitted if and only if the body is not url-encoded or the query does not have the name.","every request","all requests","params/params.go")
p("C65","Integer binding","Binding a decimal string to an integer type of w bits gives the number it denotes if that fits 64 bits, reduced modulo 2^w into the type, and zero for everything else. (So 300 binds to an int8 as 44.)","every string and width","all strings","params/binder.go: IntBinder, UintBinder")
p("C66","Bool binding","A bool binds to true for exactly the strings true, on and 1, in any letter case and with any white space around, and to false for all others.","every string","all strings","params/binder.go: BoolBinder")
p("C67","Indexed slices","A bound slice has one element per index up to the largest one submitted, name[i]=v standing at index i and missing indices being zero, followed by the values and files submitted as name or name[].","every parameter set, element type and map order","all sets and orders","params/binder.go: bindSlice")
p("C68","What the order of the maps can change in a bound value","For types without embedded structs (see C192 for those), binding the same request twice panics twice or yields twice a value, and (map keys being strings) the two values are equal up to the order in which slice elements without an index follow each other, provided the request spells every index in one way; if at most one name per slice carries elements without an index they are equal. Two spellings of one index (a[0], a[00]), or of one number used as map key, make the kept value depend on the order.","every map iteration order","iteration order is random","params/binder.go")
p("C69","Worker bound","At most n tasks accepted by a worker made by NewWorker(n) are inside their function at the same time.","every program using the worker and every interleaving","schedules","utils/worker.go: RunTask, Wait, Close, run, done, close, NewWorker")
p("C70","Wait is a barrier","When Wait returns, every task accepted before Wait was called has returned; if only running tasks submit during a Wait, every task accepted before the return has.","every program using the worker and every interleaving","schedules","utils/worker.go: RunTask, Wait, Close, run, done, close, NewWorker")
p("C71","Nothing is accepted once closed","A task submitted after Close has returned, or after the goroutine of a failed task is over, is dropped and never runs.","every program using the worker and every interleaving","schedules","utils/worker.go: RunTask, Wait, Close, run, done, close, NewWorker")
p("C72","What Wait reports of failed tasks","A worker records at most one error in its life. When a failed task is over an error of some failed task has been recorded, unless Close was called; when everything is over and nobody has closed it, a failure has left exactly one. An error Wait reports is the error of a failed task. While Waits come one after the other, only the first Wait to return after the record can report it, nothing is reported before or later, and it does report it if nobody was in Wait at the time of the record. But an accepted task's failure can be missed by the Wait that waited for it, and even be lost for good, because it is recorded after the wait group is released.","every program using the worker and every interleaving","schedules","utils/worker.go: RunTask, Wait, Close, run, done, close, NewWorker")
p("C73","No channel panic","The worker never sends on a closed channel, never closes its channel twice, never makes the wait group negative.","every program using the worker and every interleaving","schedules","utils/worker.go: RunTask, Wait, Close, run, done, close, NewWorker")
p("C74","When submitting blocks for ever","When nothing can move any more, a RunTask call that has not returned means that all n slots are held by tasks that are themselves inside RunTask, Wait or Close, or are of a wrong type; with tasks that only submit, the process can end up so for every n: n tasks inside RunTask, none ever ending.","every program using the worker and every interleaving","schedules","utils/worker.go: RunTask, Wait, Close, run, done, close, NewWorker")
p("C75","Progress","If the pool has a slot, tasks terminate and neither submit, wait nor close, then no schedule goes on for ever and when nothing moves every RunTask, Wait and Close has returned and every accepted task has run.","every program using the worker and every interleaving","schedules, liveness","utils/worker.go: RunTask, Wait, Close, run, done, close, NewWorker")
p("C76","Integer conversion round trips","Converting an integer to string and back gives the same integer for each width.","every integer","all ints","app_util.go","utils/converter.go")
p("C77","Conversions are exact or an error","strip.StrTo integer conversions return the denoted number if it fits the width, and otherwise zero and an error. utils.StrTo returns the denoted number if it fits, the nearest number of the width with a range error if it does not (also for text that merely begins with more digits than the width can hold), and zero with a syntax error otherwise.","every string","all strings","app_util.go","utils/converter.go")
p("C78","ToStr prints the value","utils.ToStr prints the value if and only if it is a bool, integer, string or []byte (floats not modelled); every value of every other type, named byte slices included, prints as []byte(nil). strip.ToStr prints all of them, the empty byte slice as [].","every value","all values","utils/converter.go")
p("C79","Uint conversions","strip.StrTo.Uint and utils.Value.Uint of another type succeed exactly for decimal numbers below 2^32, utils.StrTo.Uint exactly for those below 2^64; strip's failure value is 0.","every uint","all uints","app_util.go","utils/converter_value_to.go")
p("C80","Request id round trip","DecodeReqId(NewReqId()) gives back exactly the process number and the time in nanoseconds the id was made from; decoding any other text never fails and gives values in range.","every process number, every 64-bit time, every text","all ints and strings","request-logger/reqid.go: NewReqId, DecodeReqId")
p("C81","Own request ids are accepted","A generated request id is kept when it is sent back in the X-Reqid header; a client id is kept iff it has 10 to 32 bytes, and replaced by a generated one otherwise.","every id and header","all ids","request-logger/logger.go: ReqLoggerFilter")
p("C82","Static files stay inside the root","Every path the static filter hands to the file system, for any request path and options, is the configured directory (taken from the working directory if relative) or lies below it, and only files opened so are served.","every request, directory, prefix, option and file system","all strings","static-serve/static.go: ServeFilter")
p("C83","Static prefix boundary","The filter acts on a request exactly if its method is allowed, its path is the configured prefix or continues it at a slash, and the rest has no skipped prefix; otherwise it touches neither the file system nor the response.","every request, prefix and option","all strings","static-serve/static.go: ServeFilter")
p("C84","What the client address and host are taken from","RealIp is X-Real-Ip if present; else the text of the first X-Forwarded-For entry before its first colon; else the text of the peer address before its first colon, or 127.0.0.1 if that is a lone bracket. It is the client's address exactly for addresses without a colon, so never for IPv6. RealHost is the forwarded host, else the Host, up to the first colon.","every header/address","all strings","params/real.go")
p("C85","Log level filter","After any configuration history a message of one of the eight severities is passed to the printer exactly once if its level is within the level last set on the logger and the global level, and not at all otherwise.","every history, level and message","all histories","log.go: write, writef")
p("C86","Flat mode","In flat mode every printed message (text, prefix, position and stack trace) is one line.","every history and message","all strings","log.go: print")
p("C87","Request id prefix survives","Every message of a request logger starts with its tag and the request id in brackets, whatever prefixes, parsers, colours and levels were set before; ReqId never changes.","every history and message","histories","log.go: NewReqLogger, SetPrefix")
p("C88","Result status is honoured","ResBody results are sent with their status (0 means 200; With(body) asks for 200, With(body, status) and Ret(status) for the status), the JSON content type and the encoded body, 204 without both. RawBody results are sent with theirs if and only if it is 200 or 204 or the body is encoded as JSON: text, bytes, readers and missing bodies always go out with 200.","every body, status and response state","all combos","utils/apires/raw.go: RawBody.Write","utils/apires/res.go: ResBody.Write")
p("C89","Error builders do not mutate","Whatever is derived from or done with a shared api error, it keeps sending its own status, code, message and data, and each derived error sends status and code of its origin with the new message and data.","every call history","aliasing","utils/apires/error.go: NewResError, WithData, WithMsg")
p("C90","Documented action results","Of the documented result shapes GenericOutFilter sends exactly those without a plain string: the int as status, the body as body; those with a plain string panic, an int of 0 panics, and written responses are left alone.","every result and response state","all shapes","router_action_out.go: GenericOutFilter")
p("C91","Context values","CtxFindValue finds the nearest pointer stored by CtxWithValue under the same package path, type name and extra name, and nothing else: for package-level types that is the same type (T and *T being interchangeable); unnamed types all share one slot, as do equally named types of different functions, and a value that does not fit, or a nil *T looked up as T, is a panic. MustCtxFindValue panics where nothing is found.","every context chain, type and name","all chains","utils/context.go: CtxWithValue, CtxFindValue, ctxValueToKey")
p("C92","Gzip filter is transparent","With the gzip filter the client gets the response of the same chain, status and other fields unchanged; the body decompresses to what was written exactly if something was written, a chain that writes nothing giving an empty body that is labelled gzip but is no gzip stream.","every chain behaviour and Accept-Encoding","all bodies and chunkings","gzip/gzip.go: All, Write, close")
p("C93","Which requests end, and what the response sees","A request never ends exactly if its first Write (by a handler or the final Write(nil)) comes when the Before hooks registered so far, run from the last on, come to one that itself writes; all other requests end. The calls the handlers of a finished request make on the ResponseWriter followed by one Write(nil) are exactly what the response layer sees, so C21-C25 apply to it.","every app, route and handler behaviour","liveness over all behaviours","app.go: ServeHTTP","context.go: run","response.go: Write")
p("C94","A request runs exactly its handlers","For handlers that neither write nor panic, a request runs exactly the app filters, then routing, then the filters in force for the served declaration followed by its action (or the not-found handlers), each once in this order. Whatever the handlers do and however the request ends, it starts only some of these, in this order and each at most once; and if it ends the client gets the response of the calls the handlers made and of the final empty Write.","every declaration program, app filters, method and path","composition of routing, filter inheritance and chain for all programs","app.go: ServeHTTP","router.go: handle","context.go: run")
p("C95","Apply fills the tagged fields it reaches","A successful Apply has found something for every settable field tagged inject within three levels of nested structs, and has set exactly those of these fields whose type fits what Find gives for their type and label, to that; nothing else is set. (Fields whose type does not fit and fields deeper down are skipped silently.)","every struct shape, injector and history","all shapes and histories","inject/inject.go: Apply, apply, assignValue")
p("C96","Exists is read-only","Exists calls no function and changes nothing; it reports a missing provider iff no enclosing injector provides the slot, sets the target to the nearest value provided last, and leaves it alone when the provider is a function.","every history and parent chain","histories","inject/inject.go: Exists")
p("C97","Functions get the labelled dependencies","A function called by a lookup receives, for its k-th parameter, exactly the value Find yields in that injector for the parameter's type under the label given for parameter k. The function passed to Invoke is called at most once, last, and gets for each parameter what the newest call for that slot in this Invoke returned, else what the injector keeps, else the provided value; unless the slot is that of its own result this is what Find yields afterwards.","every history, every function, every parameter and label assignment","histories and label assignments are unbounded","inject/inject.go: Find, Invoke","inject/inject_provider.go: Provider, Dep, Invoke")
p("C98","Counters","After Set(k, n) any sequence of Incr, Decr and waiting before the timeout gives the answers of this counter, and Get its number: on Mongo and Redis n plus the sum, a step that leaves int64 failing and changing nothing; on memcached counting up is modulo 2^64, counting down stops at zero, negative numbers are not counted, and the number is padded with blanks to the longest it has been. Without a count the step is one. Counting a missing key is reported on Mongo and memcached; Redis starts at zero. (Decr by the least integer: Mongo has the sign wrong, Redis refuses.)","every back end and sequence of counts","histories","caches/provider_*.go: Incr, Decr")
p("C99","Logging out","The manager's Destroy of a request with a valid cookie always has the browser drop the cookie, and reports no error. Whoever kept the cookie finds an empty session of the same id if the removal was carried out by the server, and the old one if it was not. Without a valid cookie nothing happens.","every request, store state and connection failure","crash points","sessions/manager.go: Destroy")
p("C100","Touching a session extends it","Touch makes a stored session live a full session lifetime from that moment, without changing its values or other sessions; it reports success exactly if the connection was fine and the server had the session, and otherwise changes nothing there (unless only the answer was lost).","every session, store, back end and time","time, back-end semantics","sessions/provider.go: Touch")
p("C101","List flags","SliceValue.Set appends the whole argument once per non-blank part of it, so what it should (the trimmed parts) exactly if there is no such part or the argument is one trimmed part without a comma; String joins the elements with commas, which splitting at the commas undoes if no element has one; Unique keeps the first of equal elements.","every argument and list","all strings","utils/helpers/config.go: SliceValue")
p("C102","Decode fills exactly the tagged fields","Decode panics exactly if, following embedded exported structs, it comes to an unexported embedded struct, an unexported tagged variable, a tagged struct with a tagged field one of which is unexported, or a tagged variable that has a value and a type Bind panics for. Otherwise it binds every tagged variable of the struct, of its embedded structs and of its tagged section structs to its config name and changes nothing else.","every struct shape and config","all shapes","config/config_parse.go")
p("C103","Binding panics exactly on slices longer than an int","Binding submitted parameters to a type none of whose structs embeds structs (for those see C192) panics exactly if some slice that is reached for a submitted name gets an index i and n elements without index with i + 1 + n at least 2^63 (e.g. a[9223372036854775807]=x); otherwise it returns a value, whatever the map order.","every parameter set, type and map order","all inputs","params/binder.go: Bind, bindSlice")
p("C104","A pointer is set exactly when its own name has a value","A pointer is nil if the parameter called exactly like it has no value, whatever parameters for its parts (name.x or name[i]) were submitted; otherwise it points to what its element type binds to.","every parameter set and element type","all inputs","params/binder.go: PointerBinder")
p("C105","BindValuesToStruct fills exactly the exported fields","Every exported field gets its parameter (tag up to the comma, else field name), embedded structs are filled likewise, a nil embedded pointer is allocated iff a field of it was submitted, and nothing else changes; an exported field whose parameter nobody mentions loses its value: it becomes the zero value, an empty slice or an empty map. It panics only if Bind does or for an embedded pointer to an unexported type.","every struct shape, value and parameter set","all shapes","params/params.go: BindValuesToStruct")
p("C106","A malformed form hides every parameter","If the request has a form body and the body or the query string is malformed, no parameter at all is available, not even those of the route; otherwise exactly the submitted values are.","every request","all requests","params/params.go: ParseParams, ParamsParser")
p("C107","Struct fields from dotted names","name.Field=v binds v to the settable field Field of the struct, fields that are not mentioned are zero.","every struct type, parameter set and map order","all sets and orders","params/binder.go: bindStruct")
p("C108","Maps from brackets or JSON","name[k]=v binds to exactly the entries k -> v of a map: with string keys one for each k; with bool or integer keys one for each key that some k stands for, with the value of one of those k. A JSON object under the name itself gives its members in the same way, and then the parameters name[k] are ignored.","every parameter set, element type and map order","all sets and orders","params/binder.go: bindMap")
p("C109","Which uploaded files can be read","A handler can read an uploaded file, with exactly its content, if and only if the file fits into what the files before it that were kept have left of the memory budget; every other file is deleted before the handler runs.","every upload and budget","sizes","params/params.go: ParamsParser")
p("C110","The size of a bound slice","A bound slice has exactly one element per index up to the largest one submitted plus one per value or file submitted without an index; so its size is not bounded by that of the request: one short parameter gives any size.","every parameter set","all inputs","params/binder.go: bindSlice")
p("C111","When using a worker can panic","A program using a worker can panic only through misuse of the wait group, and only if some goroutine that is not a running task was inside RunTask while another was inside Wait; for every pool size there is a program and schedule that does.","every program using the worker and every interleaving","schedules","utils/worker.go: RunTask, Wait, Close, run, done, close, NewWorker")
p("C112","All deadlocks of a worker","When nothing can move any more, then either nobody is inside RunTask or Close, and if somebody is inside Wait a task is too or is of a wrong type; or all n slots are held by tasks inside RunTask, Wait or Close or of a wrong type. In particular a Close that never returns finds all n slots taken so; and a task that calls Close can cause that.","every program using the worker and every interleaving","schedules","utils/worker.go: RunTask, Wait, Close, run, done, close, NewWorker")
p("C113","A task of a wrong type","Something submitted that is neither func() nor func() error is accepted but never starts nor ends, stays for ever, makes every Wait called later block for ever, and takes a slot away for ever: at most n minus the number of such things run at a time.","every program using the worker and every interleaving","schedules","utils/worker.go: RunTask, Wait, Close, run, done, close, NewWorker")
p("C114","Until when a worker accepts tasks","A task is dropped only if Close was called or a task has failed before; once a Close has returned or the goroutine of a failed task is over, every task submitted is dropped without an error. Having waited does not matter.","every program using the worker and every interleaving","schedules","utils/worker.go: RunTask, Wait, Close, run, done, close, NewWorker")
p("C115","Accepted tasks run once","A submitted task is accepted or dropped, not both; a dropped one never starts, an accepted one starts at most once, ends at most once and not before it started; nothing starts that was not accepted.","every program using the worker and every interleaving","schedules","utils/worker.go: RunTask, Wait, Close, run, done, close, NewWorker")
p("C116","What a log line says, exactly","After every history a log call prints nothing if its level is above the logger's or the global one, and otherwise exactly this: the severity tag of the method, the request id in brackets, the prefix last set, what the prefix parser adds, the source position if wanted (with short lines what follows the first /src/), all in the colour of the level if colours are on; a blank; the formatted message without the LineOpt; and a newline and the stack trace if wanted and the message is not itself a panic or stack report; flat mode drops a last newline and writes the others as backslash n.","every history, format and arguments","all histories","log.go: print, parseValues, getPrefix")
p("C117","Logger.Recover, for every level","Recover panics itself iff the function panicked with a value that is not nil and the level given passes the filters but has no tag (below 1, above 9) or, with colours on, no colour (9); otherwise it returns the panic value, nil if there was none or it was nil, and logs it iff there was one and the level passes.","every history, function and level","all levels","log.go: Recover")
p("C118","When two request ids are equal","Two generated request ids are equal iff they come from the same process number and the same clock reading.","every pair of times and process numbers","all pairs","request-logger/reqid.go: NewReqId")
p("C119","The X-Reqid the response leaves with","Handlers see the id on the request; if the first thing sent is sent by a Write, the response leaves with exactly the id in X-Reqid and one X-Response-Time whatever handlers did to them, as changed only by hooks that outer filters registered before; if it is sent by a Flush, it leaves with what the handlers themselves made of the header by then, without response time and with status 200.","every chain behaviour","histories","request-logger/logger.go: ReqLoggerFilter")
p("C120","The lines of one request","A request logs one REQ_BEG line iff level 7 passes and the content filter leaves something, and one REQ_END line iff moreover the chain did not panic, with the status and size the response reports when the chain returned; that is the status sent if statuses are set before the body, not by hooks and without Flush; a status set after the body began or before a Flush is logged but 200 is sent.","every request and chain behaviour","histories","request-logger/logger.go: ReqLoggerFilter")
p("C121","The client address in the request log","The begin line has X-Real-Ip without surrounding blanks; without it the first comma-separated entry of X-Forwarded-For up to its first colon, without blanks; without both, the peer address up to its last colon. So a forwarded address is logged as it is iff it has no colon, and never an IPv6 one.","every header and peer address","all strings","request-logger/logger.go: realIp")
p("C122","Directory redirects and the host","For a rooted request path, the redirect that adds a slash to a directory path stays on the host, except exactly when the path names a host itself: two slashes followed by a non-empty segment not ending in @ (or one url.Parse refuses); then the client is sent there (open redirect). In the Location all bytes but letters, digits and -_.~$&+,/:;=@ are percent-encoded. With a proper prefix it never happens.","every request and option","all strings","static-serve/static.go: ServeFilter")
p("C123","Served files are closed","Every file the static filter opens is closed exactly once and after its use, except exactly the TryFilesThen file of a request answered with it, which is never closed.","every request, option and file system","all paths through the code","static-serve/static.go: ServeFilter")
p("C124","What the static filter serves","Each request gets at most one answer: the file at the resolved path, a redirect for a directory without final slash, its index.html, the fallback if nothing is there, or 404; a file that can be opened but whose Stat fails counts as not there.","every request, option and file system","all file systems","static-serve/static.go: ServeFilter")
p("C125","The skip list is matched against the path as sent","For an allowed request under the prefix, the file its path resolves to is tried exactly if the path as sent, behind the prefix, begins with none of the skipped prefixes; so a resolved path below a skipped prefix is left alone, and an unresolved one such as /./private/key is served.","every request and option","all strings","static-serve/static.go: ServeFilter")
p("C126","Fallback instead of 404","With TryFilesThen naming something that exists, on a disk that does not change during the request, a handled request gets a 404 exactly if it names, with a final slash, a directory without index.html.","every request and file system","all file systems","static-serve/static.go: ServeFilter")
p("C127","Content type follows the file","The name that decides the content type resolves to the path the served file was opened at, except exactly for the fallback, which is served under the name asked for.","every request and option","all strings","static-serve/static.go: ServeFilter")
p("C128","Encoding failures","If a result body cannot be encoded the client never gets part of it: it gets an error object, under the status asked for (not 500), for ResBody and RawBody alike, and the failure is logged, or panics if there is no logger.","every body and status","all bodies","utils/apires/res.go: writeJsonBody")
p("C129","Results can be reused","Sending a result object does not change what sending it again does.","every object and response","histories","utils/apires/res.go: ResBody.Write","utils/apires/raw.go: RawBody.Write")
p("C130","Reader results are closed","A closable reader is closed exactly once by RawBody unless the status is 204, and by GenericOutFilter unless the response already had a status, never in these cases; ResBody never closes.","every result","all paths","utils/apires/raw.go: RawBody.Write","router_action_out.go: GenericOutFilter")
p("C131","Derived errors equal their origin","An error derived by WithData or WithMsg is EqualAny to its origin at any later time if and only if the origin's status was not 0 or, since, both or neither of the two have been sent.","every call history","histories","utils/apires/error.go: EqualAny")
p("C132","Compressed responses are labelled","A compressed response has exactly Content-Encoding: gzip and Vary: Accept-Encoding, and no Content-Length of the uncompressed body.","every chain behaviour","histories","gzip/gzip.go: All, Write")
p("C133","Who gets compressed responses","The filter compresses if and only if the word gzip occurs anywhere in Accept-Encoding; so a client that refuses by gzip;q=0 gets it nevertheless.","every Accept-Encoding","all strings","gzip/gzip.go: All")
p("C134","Outer filters under gzip","What outer filters write after the gzip filter has returned (a recovery page, a generic result) reaches the client if gzip is not accepted; otherwise it is dropped if the chain wrote anything, and ends in a stream that does not decompress if the chain wrote nothing.","every chain behaviour","histories","gzip/gzip.go: All, close","recovery.go","router_action_out.go")
p("C135","RealURL is the URL behind proxies","RealURL returns an error iff the original URI (X-Original-URI, else the request's) cannot be parsed; otherwise the URL with that URI's path, query and opaque part, the scheme of X-Forwarded-Proto, else of the request, else http, the host of RealHost, and everything else as in the request.","every header combination and request URL","all strings","params/real.go: RealURL")
p("C136","A Wait inside a task never returns","When a task calls Wait on the worker that runs it, that Wait never returns and the task never ends, in no schedule and whatever else the program does.","every program using the worker and every interleaving","schedules","utils/worker.go: RunTask, Wait, run, done")
p("C137","What the panic page shows of the stack","Read as HTML, the stack part of the development panic page is the stack line by line, except that a line starting with / loses every blank-parenthesis pair after its first one; so it is not always the stack itself.","every stack text","all strings","recovery.go: styleStack")
p("C138","Markup on the panic page","Whatever file names and source lines the stack contains, its part of the page has no tags but the filter's own five. The panic value is not escaped: it can put any markup on the page; if it prints without a < the whole page has only the filter's own tags.","every panic value and stack","all strings","recovery.go: panicHtml, RecoveryFilter, styleStack")
p("C139","Stack writes every frame by itself","Stack writes for each frame from the given one on its file, line and address (hexadecimal, no leading zeros) and, exactly if the file can be read, the function and the line of that file without surrounding blanks (??? if it has no such line), whatever frames came before; FileSource gives the same line and an error exactly if the file cannot be read.","every list of frames and every file system","all stacks","app_util.go: Stack, FileSource, source")
p("C140","Function names in stacks","The function shown is the name without the package path (up to the last /) and without the package (up to the first dot of the rest), centre dots shown as dots, or ??? if the address belongs to no function.","every function name","all strings","app_util.go: function")
p("C141","The panic page shows the stack","If no file name contains a blank-parenthesis pair or a line break, the text of the stack part of the page is exactly what Stack returned, whatever the source lines contain; the rest of the page is fixed markup around the printed panic value (in title and heading), its type and its Go syntax, with one style sheet for every panic.","every list of frames and every file system","all stacks","recovery.go: styleStack","app_util.go: Stack")
p("C142","A session and the map it was made with","A session made with a map (and a dummy store) shares it: until Clean or Destroy the contents and that map are the same thing, whoever changes it; from then on they have nothing to do with each other. Maps got from Values, and sessions that were read, share nothing.","every program using a store and its maps","histories, aliasing","sessions/provider.go: create, newSessStore, sessData","sessions/store_dummy.go")
p("C143","The dummy store behaves like a session","Used in the same way, a dummy store and a session give the same answers, except that the dummy store never reports an error.","every program using a store and its maps, every behaviour of the cache","histories","sessions/store_dummy.go","sessions/provider.go: sessData")
p("C144","What Flush saves","After any program Flush has the provider save the contents if and only if the session was not destroyed and was changed through it since the last Flush (or made with a map and not flushed yet); otherwise it does nothing and reports success. So changes made through the shared map alone are seen by the session but not saved.","every program using a session and its maps","histories","sessions/provider.go: Flush, Set, Delete, Clean, Destroy")
p("C145","Effective settings","After New and LoadConfigFiles, RunPath, RunMode, HttpAddr and HttpPort are the environment variable of that name if it is not empty, else the value of the last config file loaded that has one, else the default; the files read depend on RUN_MODE of the environment (else prod), not on a run_mode in the files. Run listens on HttpAddr:HttpPort.","every environment, directory and set of files","all combinations","config.go: newConfig","app.go: ImportConfig, Run","utils/helpers/config.go: LoadConfigFiles")
p("C146","The classic filters","LoadClassicFilters panics, adding nothing, exactly if an option is neither a LoggerOption nor a HookFunc. On a fresh application it gives recovery, the filters the hooks add (each hook called once, in order), the request log with the last LoggerOption given (else the default of the run mode), the generic output. On an application with filters these stay first, recovery and the generic output are added only where they are missing, and the request log is always added: loading them again adds a second request log behind the generic output.","every option list and hook","all option lists","utils/helpers/filters.go: LoadClassicFilters")
p("C147","When sessions are collected","Once GC was called the provider is collected for ever, each time the interval after the last collection ended; an interval under a minute counts as an hour; without an interval there are two collections at once and then one an hour. A manager without a secret key panics.","every interval and every duration","infinite runs","sessions/manager.go: GC, NewSessionManager")
p("C148","Hijack","After a Hijack that worked nothing that handlers and hooks do through the response writer reaches the connection and Size stays; before-hooks still run, once, at the first Write if there was none before, and not otherwise; a Hijack that fails changes nothing.","every sequence of calls and every hook","all sequences, all hooks","response.go: Hijack, Write, WriteHeader, Flush")
p("C149","The body on the wire","On a connection that takes everything the body is what the Writes were given, in order, without the bytes of the first Write if that one panicked, and nothing if the final status is 101, 204 or 304.","every sequence of calls without Hijack, and every hook","all sequences, all hooks","response.go: Write, WriteHeader, Before")
p("C150","Conversions of any value","ValueTo(v): asked for a signed integer type, a v of any integer type gives its number, or the nearest the type has with a range error; asked for an unsigned type a v of that very type is itself, of others a negative one is a syntax error and the rest as above, where Uint takes only what uint32 has; strings of any type and []byte are read as StrTo reads them; all else (nil, booleans, lists, named byte slices) is a syntax error and zero. Bool takes bools, the string on, the words of ParseBool, and the integers 1 and 0. Must variants drop the error. MustSliceString and MustBytes take exactly those types.","every value of every type, every asked type","all values","utils/converter_value_to.go: Value")
p("C151","ToInt64","ToInt64 takes exactly the integers of all integer types; a uint64 that is no int64 comes out 2^64 smaller, without an error.","every value","all values","utils/converter.go: ToInt64")
p("C152","Floats and times from parameters","Binding a float takes the first submitted value: the number it reads as, rounded to the type's width; no value, an empty one or one that is no number give zero. Binding a time takes the first submitted value: the first of the configured formats that reads it decides, as of the zone in the text if the format contains 07 or MST and as local time otherwise, empty formats being skipped; if none reads it and it is a 64-bit integer it is a number of unix seconds, otherwise the zero time. A parameter nobody submitted gives the zero value of its type.","every set of parameters, name, list of formats, and reader of floats and times","all texts and all configurations","params/binder.go: FloatBinder, TimeBinder, Bind")
p("C153","The default time formats","With the formats the package starts with, a time parameter is read exactly in these forms: a date; a date, blanks and hour:minute:second with an optional fraction; RFC 3339; and a date, blanks, an hour and the text :0. Each text has at most one meaning, calendar dates only are accepted, and everything else is unix seconds or the zero time. In particular a date with hour and minute but no seconds, which one format was meant for, is never recognised: it becomes the zero time.","every submitted text and every request","all texts","params/binder.go: DEFAULT_DATE_FORMAT, DEFAULT_DATETIME_FORMAT, DEFAULT_DATETIME_FORMAT_SECOND, TimeFormats, TimeBinder")
p("C154","BindJsonBody","BindJsonBody of an unread body decodes all of it into the destination, with json.Number if asked; an empty body changes nothing and is no error; a decoding error is reported together with at most the first 512 bytes of the body; a read error is returned and changes nothing. The body is used up by the first one who reads it: every BindJsonBody after another one, or after a form was parsed, changes nothing and reports no error.","every body, destination, decoder and sequence of uses of one request","all bodies and histories","params/params.go: Params.BindJsonBody, ParseParams")
p("C155","Which bodies are parameters","The body is read as a form if, and only if, the media type - what stands before the first semicolon of Content-Type, without white space around it, in either case - is application/x-www-form-urlencoded or multipart/form-data; for every other request the parameters are the query's and the route's only.","every Content-Type header, query, route and body","all headers","params/params.go: ParseParams")
p("C156","The memory limit for uploads","While all requests see one setting max_memory, every request, however requests run together, is parsed with that limit if it is positive and with 32 MB otherwise; the first request's setting is kept: a setting changed later is never seen.","every interleaving of any number of requests; every sequence of settings","all schedules and histories","params/params.go: ParamsParser, ParseParams, DefaultMaxMemory")
p("C157","Uploaded files reach the handler","No temporary file stays behind after the parameters of a request were parsed; but handlers can read exactly the uploads that were kept in memory - each one that fits in the limit beside those kept before it - and every other upload is already deleted when the handler gets it. All uploads can be read if, and only if, their sizes together are within the limit.","every list of uploads, limit and state of the temporary directory","all sizes and orders of uploads","params/params.go: ParamsParser, ParseParams")
p("C158","What Router accepts","Router panics exactly for a path that is empty or a single slash once the white space around it is removed; any other path is declared without that white space, and nothing else of it is changed.","every path and handler list","every string","router.go: Router")
p("C159","Which controllers can be declared","A declaration with Get, Post, ..., All or Any panics exactly unless it gets a function, without a (non-empty) Action; or a struct or pointers to one, whose pointer type has a method for each Action option and, when there is none, one named like the HTTP method (Any for Any; All needs none); or, with All only, a pointer to a function type that has no method All, which is accepted although it can never answer. nil always panics.","every type of controller, method, list of options and filters in force","all types and option lists","router_action.go: makeRouterController","router_util.go: calcRouterArgs","router.go: calcRouters")
p("C160","Which filters are the same","Filter and Exempt panic exactly when an argument is neither a function nor an inject.Provide. A FilterFunc or func() inject.Provider is called at each request to get the handler to invoke (a nil one is skipped); any other filter is itself invoked. Exempt takes away exactly the filters that were given as the same function with the same type, or as the same interface value: an inject.Provide given to both as a slice is not exempted, nor is a function given with another type.","every list of arguments of Filter and Exempt","all argument lists and identities of functions","router_filter.go: makeFilters, append, remove","context.go: handler, run")
p("C161","Every request has its own controller","In every schedule of concurrent requests, when the method of a struct controller is about to run, each inject field of its own struct, down to three structs deep by value, holds what was found for this very request (or what was registered, if that was nil or not assignable), and every other field holds what was registered; a method that only uses its own struct does and sees exactly what it would alone. Registered structs that no request reaches through a pointer never change. If the lookup for any field that Apply reaches fails, the method never runs and the request panics; otherwise it never panics there and the method does run.","every memory, set of concurrent requests with any injected values and methods, and schedule","all interleavings of requests","router_action.go: callStructFunc","inject/inject.go: apply")
p("C162","Fields injected behind pointers are shared by all requests","An inject field that Apply reaches through a pointer (or interface) field of the registered struct is shared: whatever was found for a request, there is a schedule in which its method reads in that field what was found for another request.","every memory and pair of requests whose controller has such a field","the schedule must be chosen","router_action.go: callStructFunc","inject/inject.go: apply")
p("C163","Lookups of concurrent requests","Requests with injectors of their own, whose parent is the application's injector, share only the counters of the application's providers. Whatever other requests look up and in whatever order all accesses to the counters are made (fewer than 2^32 of them), a request gets the answers it gets alone, keeps the same values and calls the same functions with the same arguments, after a number of accesses of its own that the others do not influence, provided that alone it is told of no cycle; the injectors that are not its own stay as they are. A cycle is not always reported: once other requests, which bring part of it themselves, got the rest made, the lookup of a request that does not never ends.","every program of Find, Invoke, Apply, Exists, Provide and SetParent calls, every other request, every schedule and all counters at the start","all interleavings of all requests","inject/inject_provider.go: invoke", "inject/inject.go: Find, Invoke, Apply, get", "context.go: newContext")
p("C164","The counters of providers wrap","The counter of a provider has 32 bits and counts every use by every request. A request for a function that needs the same provided value twice is served after any number of earlier lookups of the value, except that after one less than a multiple of 2^32 of them it is told of a cycle that does not exist.","every number of earlier lookups","it takes 2^32 requests","inject/inject_provider.go: providerInfo.done, invoke")
p("C165","What a filter provides is what later handlers get","Functions may call the injector back: filters and handlers provide, find, apply and invoke inside an Invoke. In every history: whatever is found, as an argument, by Find or for a field, is what the injector keeps for the slot at that moment, else the value of the nearest provider; the arguments of a call were found in the order of the parameters since its preparation began; results are kept only when a function for the slot was called. So a value provided, or a result kept, is what every function invoked afterwards on the injector gets for the slot, however deeply nested, unless something is provided to the slot or kept for it (or dropped) in between. A value provided while a function for the same slot is running is lost when that returns. For functions that do not call back all this is what the other injector properties say.","every program, every behaviour of the functions, every history and every depth of nesting","functions that call back to any depth","inject/inject.go: ProvideAs, Find, Invoke, Apply, get", "inject/inject_provider.go: invoke", "context.go: run, Next")
p("C166","Making a slot with functions that call back","A lookup of a slot that is kept calls no function and changes nothing. But a function may be called twice for a slot, the inner result being replaced by the outer one, when making one of its arguments looks the slot up; and a function that looks up its own slot never ends, no cycle being reported.","every history for the first, witnesses for the others","functions that call back to any depth","inject/inject_provider.go: invoke", "inject/inject.go: Find")
p("C167","What the Contexts of a request answer","Whatever the handlers do: a value looked up in a Context comes from what ReplaceContext was last given for that Context; the Context of a route answers like that of the application until it is replaced, and replacing it never shows in the Context of the application. Looking the request's Context up as a value (utils.CtxFindValue) gives the Context of the application, in a route's handlers too. Lookups return if each replacement adds values to what GetContext gave (or to the request's own context); a Context replaced by one made from the Context itself never answers a key that was not added, and the lookup never returns.","every request, all filters and handlers, every value context","replacements and lookups mix freely over both chains","context.go: ReplaceContext, GetContext, newContext, newNestContext","app.go: ServeHTTP")
p("C168","Handlers that hold several Contexts","Handlers may call Next on the Context they were given, on one looked up later and on the one kept in the request. Still each handler starts at most once, the application's before the route's, in order; each is given the Context of its own chain; once the router runs, no Next starts a filter of the application; and only a lookup that never returns or a blocked write keeps a request from ending. A lookup of the Context gives the route's from the start of the router on, to filters of the application too, and Next on it goes on in the route's chain, past the handler that wrote or panicked.","every request, all filters and handlers","Next calls nest to any depth on either Context","context.go: Next, run, newNestContext","router.go: handle")
p("C169","What a cache gives back for each value","Set followed by Get within the entry's life gives back: true or false for booleans, the decimal digits of numbers, strings and byte slices as they are, and the text []byte(nil) for any value of another type; a byte slice of a named type comes back as itself from MongoDB but as the text []byte(nil) from Redis and memcached; MongoDB refuses unsigned numbers from 2^63 on with an error that changes nothing, the others print them. These are the only values for which the caches differ.","every back end, key it takes, value (floats aside), timeout that does not overflow, waiting time and earlier contents","all values and back ends","caches/provider_mgo.go: Set","caches/provider_redis.go: Set","caches/provider_memcache.go: Set","utils/converter.go: ToStr")
p("C170","Caches and lost connections","GC of a Redis or memcached cache, and of a MongoDB cache with AutoExpire, succeeds and changes nothing whatever the connection does. Every other method of every cache returns an error when the connection is lost, and the entries are as before if it was lost before the server ran the command, as after the command otherwise.","every back end, moment of the failure, method, arguments and earlier contents","all failure points","caches/provider_mgo.go: GC","caches/provider_redis.go: GC","caches/provider_memcache.go: GC")
p("C171","A session is one register for concurrent requests","For requests that use one session at the same time, in any order of their steps and with any faults of the cache: the answer of every Start, Set, Delete, Clean, Get, Flush and Destroy is that of a register which holds what the last carried out Flush of a changed and not closed session wrote, whole, until its timeout or a carried out Destroy, while every request works on its own copy. After Start a request sees what it read then and its own changes, whatever the others do.","every schedule of every number of requests, every operation, every fault of a cache call, every back end that can store the id and timeout, every value","all schedules and faults","sessions/manager.go: SessionManager.Start","sessions/provider.go: cacheProvider.Read","sessions/provider.go: cacheSessionStore.Flush","sessions/provider.go: cacheSessionStore.Destroy")
p("C172","Updates of concurrent requests","Requests that use a session one after the other lose no update: each sees what those before it set and flushed. Of two requests whose uses overlap and that set different keys, the one that flushes last wins as a whole: the change of the other is gone, although its Flush succeeded.","all keys and values, every earlier content of the session, all moments before the timeout","all interleavings of two requests","sessions/provider.go: cacheSessionStore.Flush","sessions/manager.go: SessionManager.Start")
p("C173","GetLogger finds the request's logger","From when the request logger filter starts, helpers.GetLogger of the Context it was given, of the route's Context if it is a filter of the app, and of the context of the *http.Request that handlers are given, returns the logger the filter made, as long as the other handlers make what they put behind a Context, and the requests they provide, from what was there by adding values of other types or names. GetLogger returns what WithLogger was given, and the package's own logger where there is none.","every set of filters and handlers, which hold, replace and look up any Contexts, every place of the filter, every earlier and later event","all handlers and histories","request-logger/logger.go: setLoggerInContext","utils/helpers/log.go: GetLogger","utils/helpers/log.go: WithLogger")
p("C174","Values behind the Context and the request logger","After the request logger filter the Context it was given answers, for every key but the logger's, what the context of the request it was given answers, whatever stood behind the Context before. So a value that an earlier filter put behind the Context only, with ReplaceContext, is lost for the later handlers; one that is also in the request it provided is kept. As a filter of a route it hides the values of the app's Context in the same way.","every set of filters and handlers, every key, every place of the filter, every earlier and later event","all handlers and histories","request-logger/logger.go: setLoggerInContext","context.go: ReplaceContext")
p("C175","Routing looks at every declared node at most once","Finding the route of a request, whatever its path, looks at each node of the route tree (static child, parameter expression applied, wildcard taken) at most once, only at nodes that some declared pattern passes through and never deeper than the path: so at most as many looks as the declared patterns have segments, however long the path and however often branches fail and are backtracked.","every declaration program and every path","cost bound over all programs and paths; tests cannot exclude a path that makes backtracking explode","router.go: route.match","router.go: routeRoot.handle")
p("C176","Applications keep their own filters","With several applications, each runs the filters it was given with Filter, once each and in order; ReplaceFilters(old,new) makes old run the filters new has. They stay each application's own if new gets no further filters and gives them to no one else. Otherwise they do not: the two share the memory behind their filters, and when there is room in it, a filter added to old is replaced by the next one added to new, so that old runs a filter it was never given.","every sequence of New, Filter and ReplaceFilters on any number of applications, any growth of slices","depends on hidden capacities and on the order of calls on two applications","app_util.go: ReplaceFilters","app.go: Filter","router_filter.go: append")
p("C177","Errors report their status","GetHttpCode of a ResError gives for ever the status it was created with, or that its original had when it was derived (WithData, WithMsg); a status 0 is reported as 0 until the error is sent and as 200 afterwards. Error() is the JSON text of what it sends as body. Other errors report a code exactly if they have HttpCode. A nil *ResError in an error value is a ResError with empty text, but asking for its status panics.","every history of creating, deriving and sending shared errors","histories of shared objects","utils/apires/error.go: GetHttpCode, HttpCode, IsResError, Error","utils/apires/res.go: Write")
p("C178","Assertions decide nil","Assert.Nil and Assert.NotNil never panic and on every value exactly one of them passes: Nil on nil itself and on nil channels, functions, maps, pointers and slices, and on nothing else (a nil unsafe.Pointer counts as not nil). NoError passes on the nil error only, not on an error value holding a nil pointer. True and False are opposite.","every value of every kind","all kinds of values","assert.go: Nil, NotNil, NoError, True, False")
p("C179","Regenerating a session in use","While Regenerate makes its four round trips other requests may use the session, in any order of their steps and with any failures. They see one register that Regenerate empties at its third round trip; the session Regenerate gives has the new id and exactly the values the old id held at its first round trip. Once the removal was carried out the old id holds nothing as long as nobody flushes. So a change that is flushed, and reported saved, between the two is in neither session afterwards, and a request that had the session before and flushes later brings the old id back with all its values.","every schedule of one Regenerate and any number of other requests of the session, every combination of failures, all caches","schedules","sessions/provider.go: sessProvide.Regenerate, sessData.Flush; sessions/manager.go: Regenerate")
p("C180","What the cookie lines say","For every cookie name that is a token, configured domain, lifetime and session id: the Set-Cookie line Start and Regenerate send is understood by a browser as that name with the signed value, path /, HttpOnly, Secure exactly if configured, Max-Age exactly if the lifetime is positive (then it is that number) and never Expires, and the configured domain without its leading dot in lower case, or no domain if the text is no domain name. The remember line has no domain, no Max-Age for lifetime 0 and Max-Age 0 for a negative one. Destroy and DestroyRemember send lines for the same name, domain and path with Max-Age 0. With a name that is no token no line at all is sent, nothing is ever read under that name, and no call reports it.","all names, domains, lifetimes, ids, secrets and times","inputs","sessions/manager.go: WriteSessionCookie, Destroy; sessions/remember.go: WriteRemember, DestroyRemember")
p("C181","The cookie within its own request","After Start or Regenerate gave a session, reading the session id of the same request again gives that session's id and creation time until the session lifetime is over, whatever Cookie lines the request had, even an older cookie of the same name. The other cookies of the request stay as they were if it has at most one Cookie line; of several Cookie lines only the first is left, so a remember cookie on a second line is no longer found in the rest of that request.","all Cookie lines, configurations, stores, failures and times","inputs and states","sessions/manager.go: Start, Regenerate, WriteSessionCookie, ReadSidFromRequest")
p("C182","The session cookie comes back","In every browser, whatever it holds, storing the answer of Start or Regenerate puts in exactly the session cookie in place of one of the same name, domain and path, if the answering host belongs to the configured domain, and changes nothing otherwise. As long as the browser holds it, every request it goes with (host or domain, https if secure, within Max-Age) makes the server read that session id and creation time, until the session lifetime is over, unless another cookie of that name with path / goes along. Answers without a cookie of that name, domain and path leave it. The line of Destroy takes exactly that cookie away; Destroy sends it exactly if the request carries a valid session id.","every history of answers of any servers, all requests and times","histories","sessions/manager.go: Start, Regenerate, Destroy, WriteSessionCookie, ReadSidFromRequest; sessions/utils.go: getCookie")
p("C183","Remember-me through the browser","A browser that got the answer of WriteRemember and had no other cookie of that name makes HasRemember report the user on a request to the same host, over https if so configured, exactly until RememberExpire seconds after it was written; closing the browser makes no difference. With RememberExpire 0 the browser keeps the cookie but the server refuses it from the next moment on; with a negative one the browser does not keep it. Subdomains never have it, even where the session cookie is shared with them.","every history of the browser, all users, salts, lifetimes and times","histories","sessions/remember.go: WriteRemember, HasRemember")
p("C184","Which of several cookies counts","When a browser holds several cookies of the session's name that go with a request, the server takes the value of the one with the shortest path, and of those with equally short paths the one created last; there is none exactly if no such cookie with a readable value goes with the request. (A value is readable exactly if it has only printable ASCII without quote, semicolon and backslash, a pair of quotes around it being taken off; blanks around a cookie and around its name do not count.) So a cookie that another host of the domain sets for the whole domain takes the place of a valid session cookie of the host, for good: the cookie of each new session that Start sets does not count either.","every browser history, all names, hosts, paths and times","histories","sessions/utils.go: getCookie; sessions/manager.go: ReadSidFromRequest, Start; sessions/remember.go: HasRemember")
p("C185","After Destroy in the same request","Destroy leaves the request's cookie where it is. A Start later in the same request takes up the destroyed id with no values and its old creation time and sets no cookie; since the browser drops its cookie, what is put into that session is lost to it. A Regenerate in its place leaves the browser with the new id.","all requests, stores, times and browsers","histories","sessions/manager.go: Destroy, Start, Regenerate")
p("C186","Injectors whose parents go round in a circle","For every history, injector and slot exactly one of three holds: the injector or the nearest of its parents has a provider of the slot; the parents come to an end and none has one; or asking on from parent to parent leads into a circle of injectors none of which has one. Exists runs for ever exactly in the third case, and Find does in that case, neither changing anything; so a circle of parents does not show as long as every slot asked for is provided in it.","every history of SetParent, Provide, Find, Invoke, Apply and Exists, all slots","histories and termination","inject/inject.go: SetParent, get, Find, Exists")
p("C187","Which configured domains get into the cookie","The session cookie's line names a domain exactly when the one configured is a host name (at most 255 bytes; labels of 1 to 63 letters, digits and hyphens, no hyphen at a label's ends; a dot in front or behind is allowed; a letter somewhere) or a dotted IPv4 address without needless zeros, and then names it in small letters and without the dot in front. Any other configured domain, such as one with a port or an underscore, is left out silently, so that the cookie is the host's alone.","every configured domain, key, id and time","all texts","sessions/manager.go: WriteSessionCookie; sessions/config.go: CookieConfig")
p("C188","The URL RealURL gives, as a text","For requests whose target begins with a slash, and an X-Original-URI header that does too or is absent: RealURL fails exactly if the path in that header has a broken percent code; otherwise its text is the scheme (X-Forwarded-Proto, else http), the host without its port, and a target that stands for the same path and query as the URI asked for. Without the header the target is byte for byte the client's exactly if its path has only bytes that need no percent code. With the header its bytes are kept exactly if its path is written like the request's own where that stands for the same path, and like net/url writes it otherwise, so that an encoded slash becomes a slash; a lone question mark is the request's own. The text of the host stands for the host and is the host byte for byte exactly if it has only bytes net/url keeps in hosts.","every request target, header, host and scheme","all texts","params/real.go: RealURL, RealURI, RealProto, RealHost")
p("C189","Where Run listens","With a configured port that has no colon and no bracket, Run listens at the configured host and port exactly if the host has no colon and no bracket, or is a text without brackets put in brackets (then at that text); for every other host, such as an IPv6 address as it is usually written, it listens nowhere and returns an error at once.","every configured host and port","all texts","app.go: Run; config.go: Config")
p("C190","StrTo.Strings","Strings() cuts the text at commas and Strings(d) at d (not empty), going from the left and cutting each time at the first occurrence in what is left, and returns the pieces without the white space around them, the empty ones included; so there is always at least one, the pieces joined with the delimiter are the text, and joining parts without white space around them and without the (one-byte) delimiter and taking Strings gives the parts back. With an empty delimiter the pieces of a UTF-8 text are its characters, a white space character giving an empty piece and the empty text no piece; those of any bytes have one to four bytes each and are the text.","every text and delimiter","all strings","app_util.go: StrTo.Strings")
p("C191","ToStr with a base","For an integer of any type the first argument of ToStr is the base, 10 without one: ToStr panics exactly if it is not among 2 to 36, and otherwise gives the one text that writes the integer in that base, with digits 0-9a-z, a minus sign in front of the digits of a negative one and no needless zeros; so two integers never have the same text in a base, and in base 10 the decimal conversions read it back. For a float the arguments are the precision and the size, and ToStr panics exactly if a size is given that is neither 32 nor 64. For other values the arguments make no difference.","every value and list of arguments","arithmetic on all values","utils/converter.go: ToStr, argInt.Get")
p("C192","Promoted fields of bound structs","A submitted name of a field that is promoted from an embedded struct binds that field, by Go's rule for selecting promoted fields, as if it were the struct's own, and nothing else, in every order of the names, unless an embedded struct around the field is submitted too; then the order, which is random, decides which of the two values is kept. A name promoted through an embedded pointer makes Bind panic, in every order, unless the pointer itself is submitted and Bind gives one that is not nil, or an embedded struct around it is; then the order may decide between a value and a panic. Without such names Bind does not panic here.","every struct type with embedded structs and pointers to any depth, set of submitted names, values of the fields and map order","all types, sets and orders; the panic needs a name the form does not have","params/binder.go: bindStruct","params/params.go: Params.Bind")
if __name__=="__main__":
    with open('/verif/properties.jsonl','w') as f:
        for q in P: f.write(json.dumps(q)+"\n")
    print(len(P))
