# Formal model of txstatsd in Coq: design

Source of truth: `/repo` (python 2.6/2.7 code, read as text). Model and proofs: `/verif/rocq/theories`.
Properties: `properties.jsonl`. Claims: `MANIFEST.json` (written by `tools/manifest.py`).
Assumptions of every theorem: `ASSUMPTIONS.md` (written by `tools/assumptions.py`).
Wrong programs tried against the theorems: `seeded/LOG.jsonl` (written by `tools/seeded.py`).

Theorems about the properties are in the files `Props_*.v`, named `Cnn_...`, each followed by
`Print Assumptions` and by an `Example` that meets its hypotheses. A property of which the intended version is
false has a theorem `..._refuted` with a witness next to the strongest true version.

## 1. Trusted base

* Coq 8.16.1's kernel (with `vm_compute`, used in examples and in a few closed boolean goals).
* **No axiom is declared in this development.** There is no `Axiom`, `Parameter`, `Admitted`, section-less
  `Variable`, functor or module type, and no kernel check is switched off.
* `Print Assumptions` gives "Closed under the global context" for every theorem but two. The two are
  `C56_decaying_reservoir` and `C56_random_zero`, which are about real logarithms and use three axioms of the
  standard library's real numbers: `ClassicalDedekindReals.sig_forall_dec`, `ClassicalDedekindReals.sig_not_dec`,
  `FunctionalExtensionality.functional_extensionality_dep`.
* A list of the axioms in all loaded files (`coqchk -o`) also has axioms that the loaded libraries declare and no
  theorem here depends on: `Classical_Prop.classic`, the opaque real-number signature
  `Rdefinitions.RbaseSymbolsImpl.*`/`RinvImpl.*`, primitive integers/floats of the standard library, and
  the `Under_rel` interface of ssreflect.
* Libraries used: Coq's standard library and std++ (finite maps, lists). Binary64 is the executable
  specification `SpecFloat` of the standard library, not the primitive floats.
* That the model is the code: by reading. Every definition cites file and lines and says where it simplifies.
  Section 3 lists what is assumed of the world outside the repository, section 4 what is left out.

## 2. Conventions

* **Byte strings** are `list ascii` (python 2 `str`), literals are written `B "text"`.
* **Exceptions** are values: a python method is `M S A = S -> S * res A`, `res A = Ok a | Exn e`; the state
  changes made before a raise are kept, as in python. `exn` has the exception classes the code can meet.
* **Numbers**: the model is generic in `Num`, the operations a python float offers. Theorems that need no
  arithmetic law hold for *every* `Num`, hence for IEEE doubles. Theorems that need laws ask for them by class
  (`NumLaw`, `NumExact`, ...) or are about one of the instances: `XQ` (rationals with infinities and NaN, IEEE
  rules for these; no rounding, no overflow, no -0.0), `B64` (binary64), `RN` (real numbers, for logarithms and
  exponentials only). `B64` is used for the theorems about rounding, to refute what only holds exactly, and for the
  conservation of counters (C101), which C12, C95 and C100 state in exact arithmetic.
* **Clock, random numbers, iteration order of dictionaries** are an `env`, universally quantified. Each call of
  the time function consumes one reading, and each dictionary iteration may have its own order.
* **Generators** (`flush`) are trees of atomic actions and emitted items (`Gen.v`), so that other code can run
  between two items. A dictionary or deque that changes its size while it is iterated raises `RuntimeError` as in
  CPython (checked at each step, also the last).
* **Schedules** are lists of events; theorems quantify over all lists. Unless a theorem says so, no fairness
  is assumed: a reactor call may be delayed for ever.
* **Specifications** (`*Spec.v`, and the definitions at the head of some Props files) are relations on texts and
  histories that do not mention the model's functions: `line_of`, `float_text`, `reads`, `typed_line`, `routes`,
  `describes`, `arrivals`, `story`, `documented`, ...

## 3. What is assumed of the surroundings

| surroundings | representation |
|---|---|
| reactor `callLater(0, f)` | a list of pending calls; theorems allow them to run in any order where that is enough, in FIFO order where stated |
| `callFromThread` | a FIFO queue; `write` from other threads is split into its accesses to shared attributes |
| `LineReceiver` | delimiter CR LF; a line or unfinished line longer than the limit closes the connection; whether a true result of `lineReceived` closes it is a boolean (`closes`), see C87 |
| `Cooperator` / `coiterate` | a flush advances by one emitted item at a time, in any interleaving |
| `Deferred` | fires at most once, a second time raises `AlreadyCalledError`; chains of callbacks stop at an unfired one |
| `LoopingCall`, `Service` | running flags; the call of a running loop may happen at any time |
| getopt, ConfigParser, `usage.Options` | modelled from their sources (`Ini.v`: python 2.7's RawConfigParser on texts, getopt on words); elsewhere (C74-C100) represented by their results: option/value pairs, sections with items |
| carbon's client | `sendDatapoint` may raise at any call; its counters are inputs |
| python's `re` | an `engine`: compile, match, substitute, arbitrary |
| `fnmatch` | modelled (`Glob.v`: python 2.7's translation, on posix) |
| `float()`, `int()` of byte strings | modelled (grammar in LineSpec.v); value of a literal by `nlit` of the arithmetic |
| `str()` of floats, md5 of the ring, `SBoxHash` tables, `/proc`, psutil | parameters or inputs |
| sockets | each `send`/`write` returns or raises as the environment decides |

## 4. What is modelled, file by file

| file | modelled in | not modelled |
|---|---|---|
| server/processor.py | Processor.v, Metrics.v, Gen.v | text of log messages |
| server/configurableprocessor.py, loggingprocessor.py | Configurable.v | log file handling |
| server/router.py | Router.v, Links.v, Relay.v | delays of reconnecting, ports of services, log lines |
| server/protocol.py | Server.v | addresses beyond a name |
| server/httpinfo.py | Service.v (status), Http.v (pages), Json.v (their texts: json.dumps of python 2.7) | HTTP itself; the digits of repr() of a float |
| service.py | Service.v, Daemon.v, Own.v, Assembly.v, Entire.v, Plugins.v, Ini.v | twisted plugin discovery, usage text, dump of the configuration |
| client.py | Plain.v, Hashing.v, Daemon.v (InternalClient), Cluster.v | name resolution of the blocking client is an input |
| protocol.py | Client.v, ClientThreads.v | port numbers |
| hashing.py | Hashing.v | md5 is an arbitrary function to 32-bit words |
| process.py | Process.v, Psutil.v | psutil's values are inputs |
| report.py | Report.v, Own.v, Slow.v (with a clock and functions that return unfired Deferreds) | the Deferred of `LoopingCall.start`, which nobody uses |
| metrics/*.py (client halves) | ClientMetrics.v | unicode objects, None and tuples as values |
| metrics/*.py (server halves) | Metrics.v, Stats.v, SliConfig.v | |
| stats/*.py | Stats.v | |
| itxstatsd.py, imetrics.py, version.py, tests | | interfaces without behaviour; tests |

## 5. How each property is modelled and proved

| properties | model | specification and method |
|---|---|---|
| C01 | `normalize_key`, three passes | relation on runs of characters; induction on the text |
| C02-C04 | `process` with exceptions | grammar of lines; case analysis, exact condition for raising |
| C05-C09, C84 | fold of `process` over lines | values defined on the list of lines alone; induction on the history |
| C10, C11, C14-C17, C20-C24 | undisturbed flush in direct style | datapoints listed by FlushSpec.v; induction on the iteration order |
| C12, C13, C21 | flushes and lines interleaved (Sched.v) | invariant over all schedules, generator trees with a ranking (`okG`) |
| C18, C19 | meters | induction on the history of marks and reports |
| C25-C30, C85 | configurable, logging processor | invariants over schedules; simulation of the logging processor by its parent |
| C31 | service construction, dump mode | refutations by concrete runs, transparency by simulation |
| C32-C35, C37-C39 | router | relational semantics `routes` of the configuration text; refinement both ways |
| C36 | fnmatch | declarative meaning of patterns; well-founded induction |
| C40-C42, C97 | TCP framing, LineReceiver | lines of a stream for every cutting into chunks |
| C43-C47 | UDP client | refinement to a bounded queue with two switches |
| C48 | threads | micro-steps, invariant over all interleavings |
| C49-C53 | hash ring | sortedness, uniqueness of the clockwise successor, order-insensitivity |
| C54-C61, C86 | ewma, reservoirs, histogram | closed forms over rationals/reals, multisets, counting of random outcomes |
| C62-C67 | distinct counter, SLI | bit lemmas, monotonicity, histories, configuration grammar |
| C65, C68-C72 | client API | meaning of a history of calls; round trip through the server's grammar |
| C73, C87, C88 | servers | `arrivals`: what the network delivered; accounting invariant |
| C74, C75 | options | documented table and precedence, relation between inputs and value |
| C76-C78 | carbon statistics, sending, status | histories of sends with refusals |
| C79-C81, C89, C90, C102 | process.py | grammar of /proc texts, telescoping sums; numbers in names by a relation of texts and integers (Decimal.v) |
| C82, C83, C91, C92 | report.py | histories of calls, failures, stops |
| C93, C94 | blocking client, metric pages | histories |
| C95 | the assembled daemon | simulation of every execution by a schedule of its processor, then C12 |
| C98 | the daemon with its own reports | every history is a daemon history with the lines of the reports inserted (simulation), then C95's and C99's; invariant on the client's cache of gauges |
| C99 | the daemon with the configurable processor | simulation by the generic schedules of CSched.v, then C25-C30 |
| C100 | createService | a declarative, functional description of the service of a command line (AssemblySpec.v), shown to be what is built; then C95, C105 and C99 for the whole (EntireRules.v), and a simulation between any two processors in step through router, servers, daemon and own statistics (DaemonSim.v) for dump mode |
| C101 | C12, C95 and C100 in binary64 | the counters of a schedule as a multiset of sums of consecutive blocks of amounts (no arithmetic law needed), then exactness of SpecFloat's addition on multiples of 2^u up to 2^53 (WholeFacts.v) |
| C103 | clients, an unreliable network, several daemons (Cluster.v) | every execution splits into one daemon history per node; datagrams are conserved as a multiset; then C95 per node and a sum over the nodes. Other nodes: the balance of C12 in the monoid of booleans |
| C104 | the plugins' configure loop (Plugins.v), the rules of the file, SLI metrics under every schedule | configurations hold exactly the installed lines (any history of services in the process); a balance over all schedules for each reported series (SysRun.v, SliSched.v); then C95/C100 for the service |
| C105 | the daemon of C95 with any rules (Metric*.v, Props_Rules.v) | the daemon simulates a processor that is given metrics; the flush invariant is generalised from the carbon-safe alphabet to any set of characters (InvG, QnameG) |
| C106 | report.py with twisted's LoopingCall, a clock and late results (Slow.v) | an invariant per task (SlowFacts.v, SlowProps.v); the untimed service of C82 is simulated when functions return at once (SlowMore.v) |
| C107 | json.dumps with its defaults (Json.v) on the dictionaries of the pages | a relational grammar of JSON and UTF-8 (JsonSpec.v), unambiguous (JsonFacts.v); the decoder is UTF-8 (JsonDump.v); what is written stands for the value (JsonDump2.v); what contains NaN or Infinity is no JSON text (JsonProps.v) |
| C108 | RawConfigParser.read and items on texts (Ini.v) | a grammar of lines and files and what they amount to (IniSpec.v), unambiguous; reader = grammar in both directions (IniFacts.v, IniRead.v), exact line numbers of refusals (IniBad.v), written files are read back (IniWrite.v) |
| C109 | getopt, the dispatch of usage.Options, parseOptions and postOptions on words and texts (Ini.v) | a relation between words and options (WordSpec.v), equal to getopt's result; then C74's options of the file's reading (WordFacts.v) |
| C110 | a daemon whose redirects are moved by what can happen to them (Relay.v), and a daemon behind it (Daemon.v) | what a line sends, also when a rule raises, as a relation (RelaySpec.v); the history of each redirect extracted from the daemon's (RelayFacts.v), then C43's client and C41's connection (RelayTcp.v); amounts per counter over both daemons (RelayTier.v); over TCP what each connection delivers is a beginning of what it carried, and its lines a beginning of the texts (RelayStream.v) |
| C111 | the words and texts of Ini.v, the service of Assembly.v, the daemon of Own.v | readings of words and text as relations (C108, C109); any two readings give the same options; then C100 |
| C112 | schedules of Sched.v, the daemon of Daemon.v, the service of Own.v | an invariant along every schedule: the durations received are batches ++ stored, and what every suspended flush still has to yield is known (TimerSched.v); then C95's simulation with the percentile of each flush (DaemonFacts.v, TimerDaemon.v) |
| C113 | the same definitions with the doubles of B64.v | rounding of a product to 53 bits as an inequality between integers, for every product (Trim64.v); the 99 thresholds by computation; then C112 for any arithmetic whose statistics are the order statistics (TimerDaemon.v, TimerDouble.v) |
| C114 | an application: the API of ClientMetrics.v over the client of Client.v (App.v); the daemon of Daemon.v | the client's history extracted from the application's, then C43 (AppFacts.v); accounts of texts as permutations, amounts per counter as in C110, durations by C112 |
| C115 | schedules of Sched.v, the daemon of Daemon.v, the service of Own.v | an invariant along every schedule: the meter has gone through one history of marks and reports, and everything sent or still to be yielded is what those reports gave plus datapoints of others (MeterSched.v); the closed form of such a history in exact arithmetic, then C95's simulation (MeterDaemon.v) |
| C116 | schedules of Sched.v, the daemon of Daemon.v, the service of Own.v | an invariant: everything stored, and everything a suspended flush will yield, has its source among the lines received (Provenance.v); C95's simulation (ProvDaemon.v) |
| C117 | schedules of Sched.v, the daemon of Daemon.v, the service of Own.v | an invariant along the schedule: the counter is the empty one after the additions so far, readings of the clock only go up, a suspended flush holds what is left of a report (DistinctSched.v); C95's simulation, and C63 for the growth of the estimate (DistinctDaemon.v) |
| C118 | one flush among the events of Sched.v, followed by position (FlushSched.v) | a generator resumed in the states of a trace: a loop over a dictionary that comes to its end took every key once, because names are only added and the size is checked at every step; deque likewise; the parts of the flush in turn. That it ends (FlushEnds.v): the generator tree is well-founded under "what is left after a step", whatever the states in which it is resumed |
| C119 | one numbered flush of the daemon of C95 (Daemon.v, DaemonFlush.v) | every event of the daemon is a list of events of its processor; the flush with a given number is the one followed in C118, its calls of sendDatapoint are what that flush sends; then C118 |
| C96 | redirects, `ready` | invariant per redirect over every history |

## 6. What was found (each is a theorem)

* A line such as `a:1|c|@0` raises out of `process` (C04). With a flush interval below one second every flush with a
  counter raises ZeroDivisionError after zeroing one of them (C11). A metric name that arrives during a flush aborts
  the flush with RuntimeError (C13); the accounting of what is lost then is C12.
* Percentile thresholds that select no element raise (C16). `mean`, `lower`, `upper` can be out of order in
  doubles (C15). A meter's rate can be negative in service although its clock never goes back, because the flush
  uses the truncated time (C19).
* One NaN or infinity sent to a configurable counter makes every later flush raise (C26).
* Different metrics can end up in one Graphite series (C24); plugin metrics are shared across plugin types (C84).
* `set_metric_type` is lost through a redirect (C38); a paused TCP redirect never recovers since resuming raises
  (C41); a field with CR LF injects a line (C42).
* A connect callback that writes overtakes queued data (C43); the connect callback is called twice for literal
  addresses, and raises in the router's redirects (C47, C96); writes of other threads can be stranded or lost (C48).
* Preference lists can miss nodes (C52). The running variance is wrong after a value of -1, its sentinel (C57).
  `HistogramMetricReporter.report` always raises (C61).
* The distinct client's messages are not understood by the server (C65); an empty distinct window counts 1 (C64).
* The SLI condition name `metric` reaches the factory's own method and installs an object that is no condition (C67).
* Under Twisted's reading of results, a TCP connection is served only up to its first metric line (C87); several
  lines in one datagram are one line (C88); lines ended by LF alone are never heard over TCP (C97).
* A value given with a short option loses to the configuration file (C74); without names there is one destination
  however many hosts are given (C75); one refusal of carbon loses the rest of a flush (C77); a flush that overruns
  its interval goes unnoticed by the status page (C78).
* A new key stops a difference reporter for good (C80); a line of spaces breaks the meminfo parser (C81); a failing
  bare task is never called again (C82); the inspector can report a delay shorter than the age of the oldest
  unanswered probe (C91).
* The page of a timer fails when all its values are equal; the compliant processor has no pages (C94).
* In statsd-compliant mode (the default) the daemon's own gauges are never forgotten: every flush sends every own value
  ever reported again (C98_resent, C98_grows).  In configurable mode the listing of metric names fails from the first
  own statistic on (C98_listing), and one counter set to nan or inf makes all later flushes fail (C99_bad_counter).
* A report named twice splits its differences (C102_shared_refuted); a psutil with more than two CPU times, or a new
  network device, ends a report for good (C102_cpu_dead, C102_new_device).
* Sharding hashes the name as written, the daemons normalise it: two spellings of one counter, or a backend added, make
  two daemons report the same series (C103_split_refuted, C103_grown_refuted).
* SLI rules add up over the services created in one process, also those before a bad line (C104_own_rules_only_refuted);
  a counter may be named like a series of an SLI metric (C104_own_series_refuted).
* A rewrite rule can send names to carbon that are not carbon-safe; names are cleaned before the rules, not after
  (C105_names_refuted).
* A ReportingService stopped and started while a scheduled function is at work holds two delayed
  calls of it; one of them survives stopService (C106_restart_refuted).
- An infinite duration makes the page of a timer fail; once the sample has forgotten it the page is answered, with
  `Infinity`, which is no JSON (C107_infinite_refuted). A name with a byte that is not UTF-8, which a rewrite rule can
  make, makes list_metrics fail for ever (C107_listing_refuted).
* A value in the configuration file, a routing rule for instance, is cut at a semicolon after a space
  (C108_value_kept_refuted); `rem = 5` is a comment (C108_rem_refuted). `--conf` is refused as ambiguous although it
  begins only `--config` (C109_abbreviation_refuted).
* Dump mode on a statsd-compliant service (the default) replaces the names and values sent by those of the configurable
  processor without a prefix: `stats.a` becomes `a.count` (C100_dump_compliant, C100_dump_refuted).
* With percentiles such as 30, of 45 durations 31 are set aside although 31.5 would go up to 32: the threshold is below
  the quotient in doubles (C113_half_refuted). With 90, the only one the service uses, this does not happen (C113_set_aside).
* A flush interval under 1000 ms flushes without pause, and each flush fails once there is a counter (C100_short_interval).

## 7. Testing the theorems

Each entry of `seeded/LOG.jsonl` is a wrong program: one definition of the model edited in a scratch copy as a
realistic bug would change the code, the copy rebuilt, and the theorems that fail listed. Edits that nothing
noticed led to new or tighter theorems (field `tightened`, and `seeded/tightened.json`).
