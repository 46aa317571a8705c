{"id": "C01", "title": "Metric names are normalised to the Graphite alphabet", "statement": "For every byte string used as a metric name, the normalised name equals: every maximal run of whitespace replaced by '_', every maximal run of '/' replaced by '-', every remaining byte outside [A-Za-z0-9_.-] removed. Hence the result only contains [A-Za-z0-9_.-], normalising twice is the same as once, and a name already in the alphabet is left alone.", "quantifier": "every byte string", "why_tests_cant": "infinitely many names; a test only samples characters and run lengths", "anchors": ["txstatsd/server/processor.py: normalize_key, SPACES, SLASHES, NON_ALNUM"]}
{"id": "C02", "title": "Exactly the well-formed lines are dispatched", "statement": "A received line is handed on for processing iff, after stripping outer whitespace, it is NAME:DATA where DATA is two or three '|'-separated fields; then the type is the second field, the key is the normalised text before the first ':' and the fields concatenated with '|' give back DATA. Every other line is logged once as a bad line and nothing else happens.", "quantifier": "every byte string received", "why_tests_cant": "the set of malformed lines is infinite", "anchors": ["txstatsd/server/processor.py: BaseMessageProcessor.process"]}
{"id": "C03", "title": "Malformed or unknown input never changes aggregated data", "statement": "A line that is not well-formed, or whose type is unknown, or whose counter or timer value is not a number, or (counter) whose third field does not start with @ and a digit or dot, leaves every counter, timer, gauge, meter and plugin metric exactly as it was and is logged as a bad line.", "quantifier": "every line and every processor state", "why_tests_cant": "needs all states and all malformed lines", "anchors": ["txstatsd/server/processor.py: process, process_message, process_counter_metric, process_timer_metric, fail"]}
{"id": "C04", "title": "When processing a line raises an exception", "statement": "Processing a line in the StatsD-compliant processor returns normally except exactly when: a gauge or meter value is not a number (UnboundLocalError after logging), a counter sample rate is made of digits and dots but is not a number (ValueError) or is zero (ZeroDivisionError), or a plugin metric rejects its fields. In particular the intended guarantee 'a bad line is only logged' is false for gauges, meters and sample rates.", "quantifier": "every line, every state, both directions", "why_tests_cant": "an exact characterisation quantifies over all inputs", "anchors": ["txstatsd/server/processor.py: process_gauge_metric, process_meter_metric, compose_counter_metric"]}
{"id": "C05", "title": "Counter value is the rate-corrected sum of what was received", "statement": "After any sequence of received lines, the pending value of each counter equals the sum, over the accepted counter lines for that name since it was last flushed, of value divided by sample rate (1 when absent); names never mentioned have no counter.", "quantifier": "every sequence of lines, every name", "why_tests_cant": "all histories", "anchors": ["txstatsd/server/processor.py: process_counter_metric, compose_counter_metric"]}
{"id": "C06", "title": "Timer values are recorded completely and in order", "statement": "After any sequence of received lines the recorded durations of each timer are exactly the numeric durations received for that name since the last flush, in arrival order.", "quantifier": "every sequence of lines, every name", "why_tests_cant": "all histories", "anchors": ["txstatsd/server/processor.py: process_timer_metric, compose_timer_metric"]}
{"id": "C07", "title": "Messages do not interfere across names and types", "statement": "Processing a line of one type and name leaves every metric of a different type, and every metric of the same type with a different name, unchanged (all plugin types count as one type here, see C84).", "quantifier": "every state, every line, whether or not it raises", "why_tests_cant": "all pairs of names and states", "anchors": ["txstatsd/server/processor.py: process_message, compose_*"]}
{"id": "C08", "title": "Counter and meter totals do not depend on arrival order", "statement": "Reordering a batch of received lines changes no counter value and no meter value (exact arithmetic).", "quantifier": "every list of lines and every permutation of it", "why_tests_cant": "factorially many orders", "anchors": ["txstatsd/server/processor.py: compose_counter_metric, compose_meter_metric"]}
{"id": "C09", "title": "Receive statistics count dispatched messages per type", "statement": "The receive.TYPE.count figure equals the number of lines of that type whose processing completed without exception since the last completed flush, including lines rejected as malformed by the counter or timer parser; unknown types are not counted.", "quantifier": "every sequence of lines", "why_tests_cant": "all histories", "anchors": ["txstatsd/server/processor.py: process_message, by_type, flush_metrics_summary"]}
{"id": "C10", "title": "A flush reports every counter once and zeroes it", "statement": "With an interval of at least 1000 ms an undisturbed flush emits, for each known counter name exactly once and for no other name, stats.NAME = count / (interval div 1000) and stats_counts.NAME = count, with the integer part of the current time, and leaves every counter at zero without forgetting its name.", "quantifier": "every state, every interval, every dictionary iteration order", "why_tests_cant": "all states and orders", "anchors": ["txstatsd/server/processor.py: flush, flush_counter_metrics"]}
{"id": "C11", "title": "A flush interval below one second destroys a counter", "statement": "With 0 <= interval < 1000 ms and at least one known counter, flush raises ZeroDivisionError before emitting anything; the first visited counter has already been zeroed, so its count is lost, and all other metrics stay unreported.", "quantifier": "every state with a counter, every interval below 1000", "why_tests_cant": "all states", "anchors": ["txstatsd/server/processor.py: flush (integer division), flush_counter_metrics"]}
{"id": "C12", "title": "Counts are conserved across any interleaving of receiving and flushing", "statement": "For every schedule in which received lines and the steps of any number of overlapping flushes are interleaved, and even if flushes abort with an exception, for each counter name: total emitted under stats_counts.NAME plus what is waiting in unfinished flushes plus the pending counter value equals the total accepted. (interval >= 1000 ms, exact arithmetic)", "quantifier": "every schedule of receive / start flush / resume flush / abandon steps", "why_tests_cant": "unboundedly many interleavings", "anchors": ["txstatsd/server/processor.py: flush, flush_counter_metrics", "txstatsd/service.py: StatsDService.flushProcessor"]}
{"id": "C13", "title": "A new metric name arriving during a flush aborts it", "statement": "If between two steps of a flush a new counter name is received while the counters are being iterated, the next step raises RuntimeError and the flush ends without emitting the remaining counters, timers, gauges, meters, plugins or summary; conversely a flush whose interleaved lines introduce no new metric name, gauge sample or type never raises.", "quantifier": "every schedule", "why_tests_cant": "needs a precise interleaving", "anchors": ["txstatsd/server/processor.py: flush_counter_metrics (dict iteration), flush", "txstatsd/service.py: flushProcessor"]}
{"id": "C14", "title": "Flushed timer statistics are the right order statistics", "statement": "For each timer with n>0 recorded durations a flush emits lower = smallest, upper = largest, count = n, upper_P = the largest of the k smallest durations and mean = the average of the k smallest, where k = n - round(n*(100-P)/100) (k=1 when n=1); the recorded durations are then forgotten, and timers without durations emit nothing.", "quantifier": "every list of durations, every percentage for which 0<k<=n", "why_tests_cant": "all lists", "anchors": ["txstatsd/server/processor.py: flush_timer_metrics"]}
{"id": "C15", "title": "Timer statistics are ordered", "statement": "For each flushed timer lower <= mean <= upper_P <= upper in exact arithmetic. In IEEE double arithmetic mean <= upper is false (three equal durations 0.1).", "quantifier": "every non-empty list of durations", "why_tests_cant": "all lists; rounding counterexamples are rare", "anchors": ["txstatsd/server/processor.py: flush_timer_metrics"]}
{"id": "C16", "title": "The default percentile never fails", "statement": "With percent=90 (the value the service uses), and with any percent from 26 to 100, flushing timers never raises; with percent 25 or lower and suitable sample counts it raises IndexError.", "quantifier": "every number of samples, every integer percent", "why_tests_cant": "all sizes", "anchors": ["txstatsd/server/processor.py: flush_timer_metrics"]}
{"id": "C17", "title": "Gauges in the compliant processor are re-sent forever", "statement": "Every flush emits every gauge sample ever received, in arrival order, so per name the last emitted value is the last received one; gauge storage is never released and grows by one per accepted gauge line.", "quantifier": "every history of lines and flushes", "why_tests_cant": "all histories; growth is unbounded", "anchors": ["txstatsd/server/processor.py: compose_gauge_metric, flush_gauge_metrics"]}
{"id": "C18", "title": "Meters conserve their total", "statement": "Across any history of marks and reports, the reported count is the sum of all values marked before that report, the reported rate times the elapsed time is the sum marked since the previous emitting report, and a report at the same timestamp as the previous one emits nothing and loses nothing.", "quantifier": "every history of marks and reports", "why_tests_cant": "all histories", "anchors": ["txstatsd/metrics/metermetric.py: MeterMetricReporter"]}
{"id": "C19", "title": "Meter rate sign", "statement": "If every marked value is non-negative and timestamps do not run backwards, emitted rates are non-negative; but because the first poll time keeps fractional seconds while flush truncates the time, a meter created and flushed within the same second reports a negative rate.", "quantifier": "every history", "why_tests_cant": "depends on sub-second timing", "anchors": ["txstatsd/metrics/metermetric.py: MeterMetricReporter.report", "txstatsd/server/processor.py: flush, compose_meter_metric"]}
{"id": "C20", "title": "Flush summary figures are correct", "statement": "numStats equals the number of metric groups emitted before the summary, and each flush.KIND.count equals the number emitted for that kind; the five kinds are each reported exactly once.", "quantifier": "every state and iteration order", "why_tests_cant": "all states", "anchors": ["txstatsd/server/processor.py: flush, flush_metrics_summary"]}
{"id": "C21", "title": "Receive statistics restart after a flush", "statement": "After a completed undisturbed flush there are no receive statistics left, and the next flush reports only later messages; but messages of an already-reported type that arrive during the summary part of the flush are erased uncounted.", "quantifier": "every state; every schedule", "why_tests_cant": "all schedules", "anchors": ["txstatsd/server/processor.py: flush_metrics_summary"]}
{"id": "C22", "title": "The list of metric names is exact", "statement": "get_metric_names returns each name for which at least one value was recorded (or a plugin metric created), with no duplicates and nothing else.", "quantifier": "every history", "why_tests_cant": "all histories", "anchors": ["txstatsd/server/processor.py: get_metric_names"]}
{"id": "C23", "title": "Emitted names can be parsed by Graphite", "statement": "If received lines are processed without routing rewrites, every counter, timer, gauge and meter name ever emitted by the compliant processor consists of characters from [A-Za-z0-9_.-] only.", "quantifier": "every history of lines, flushes and clock readings", "why_tests_cant": "all inputs", "anchors": ["txstatsd/server/processor.py: normalize_key, flush_*"]}
{"id": "C24", "title": "Different metrics can collide on one emitted name", "statement": "Counters, timers and gauges of different names never share an emitted series name, unless a counter name starts with 'timers.' or 'gauge.' (or similar): then a counter and a timer statistic are emitted under the same series.", "quantifier": "every pair of names", "why_tests_cant": "all pairs", "anchors": ["txstatsd/server/processor.py: stats_prefix, timer_prefix, gauge_prefix"]}
{"id": "C25", "title": "Configurable counters report the last value", "statement": "In the configurable processor each flush emits for each counter name exactly once PREFIX.NAME.count = the most recently received value truncated towards zero; earlier values are superseded and sample rates are ignored.", "quantifier": "every history, every prefix", "why_tests_cant": "all histories", "anchors": ["txstatsd/server/configurableprocessor.py: process_counter_metric, compose_counter_metric, flush_counter_metrics", "txstatsd/metrics/countermetric.py: CounterMetricReporter"]}
{"id": "C26", "title": "One NaN or infinity disables configurable flushing", "statement": "If the last value received for some counter is NaN or infinite, every flush of the configurable processor raises (ValueError or OverflowError) before emitting any timer, gauge, meter, plugin or summary data, until a finite value is received for that name.", "quantifier": "every state and order", "why_tests_cant": "all states", "anchors": ["txstatsd/server/configurableprocessor.py: flush_counter_metrics", "txstatsd/metrics/countermetric.py: report"]}
{"id": "C27", "title": "Configurable gauges report the last value", "statement": "Each flush emits for each gauge name exactly once PREFIX.NAME.value = the most recently received value.", "quantifier": "every history", "why_tests_cant": "all histories", "anchors": ["txstatsd/server/configurableprocessor.py: compose_gauge_metric, flush_gauge_metrics", "txstatsd/metrics/gaugemetric.py"]}
{"id": "C28", "title": "Configurable timers report exact aggregate statistics", "statement": "For each timer a flush emits min, max, mean, standard deviation input (sample variance), count and rate such that min/max/mean/variance are those of all non-negative durations since the previous flush, count is the number of durations ever received and rate is the number since the previous flush divided by the elapsed time; all values are 0 when nothing was received.", "quantifier": "every history of durations and flushes", "why_tests_cant": "all histories", "anchors": ["txstatsd/metrics/timermetric.py: TimerMetricReporter", "txstatsd/metrics/histogrammetric.py"]}
{"id": "C29", "title": "Message prefix rules", "statement": "Every name the configurable processor emits, in every interleaving of lines and flushes, is KEY+SUFFIX when the prefix is empty and PREFIX.KEY+SUFFIX otherwise (for service-level metrics a prefix that already ends in a dot gets no second one), or the internal statistics prefix followed by a summary name; the internal prefix is the given one, or PREFIX.statsd., or statsd. when both are empty.", "quantifier": "every prefix, every name", "why_tests_cant": "all strings", "anchors": ["txstatsd/server/configurableprocessor.py: __init__, get_message_prefix", "txstatsd/metrics/*: prefix handling"]}
{"id": "C30", "title": "Logging mode is transparent", "statement": "The logging processor passes on exactly the datapoints of its parent in the same order, logging one Out line per datapoint, and processing a line has exactly the parent's effect plus one In line per well-formed message.", "quantifier": "every state, every line", "why_tests_cant": "all states", "anchors": ["txstatsd/server/loggingprocessor.py: LoggingMessageProcessor"]}
{"id": "C31", "title": "Dump mode changes counter semantics", "statement": "With statsd-compliance off, switching dump-mode on changes nothing that is sent, in any schedule. With statsd-compliance on, switching dump-mode on replaces accumulating counters by last-value counters and changes their names: the statement 'dump mode does not change what is sent' is false. A second dump-mode service cannot be created in one process.", "quantifier": "every schedule (compliance off); exists a history (compliance on)", "why_tests_cant": "configuration interaction", "anchors": ["txstatsd/service.py: createService", "txstatsd/server/loggingprocessor.py"]}
{"id": "C32", "title": "Routing rules are applied in order to every surviving metric", "statement": "For every rule list and message, the metrics finally handed to the processor are those obtained by applying the rules one after another, each rule replacing every matching metric by its target's results in order and keeping non-matching metrics in place.", "quantifier": "every rule list, every message", "why_tests_cant": "all rule lists", "anchors": ["txstatsd/server/router.py: Router.process_message"]}
{"id": "C33", "title": "A router without rules is transparent", "statement": "A router with an empty configuration (or whose conditions match nothing) has on every line exactly the effect on aggregated data that the processor alone would have.", "quantifier": "every line, every processor state", "why_tests_cant": "all lines and states", "anchors": ["txstatsd/server/router.py: Router.process_message, rebuild_message"]}
{"id": "C34", "title": "Dropped messages have no effect", "statement": "If a drop rule is reached by every surviving metric, the processor is not called, no later rule is evaluated and no later redirect sends anything.", "quantifier": "every rule list, every message", "why_tests_cant": "all rule lists", "anchors": ["txstatsd/server/router.py: build_target_drop, process_message"]}
{"id": "C35", "title": "Conditions mean what the documentation says", "statement": "any matches everything, metric_type matches iff the type is listed, path_like matches iff the key matches the glob, and not C matches iff C does not.", "quantifier": "every condition text and metric", "why_tests_cant": "all condition texts", "anchors": ["txstatsd/server/router.py: build_condition_*"]}
{"id": "C36", "title": "Glob matching agrees with its declarative meaning", "statement": "path_like and SLI head patterns match exactly the strings described by the pattern: * any sequence, ? any single byte, [..]/[!..] byte classes, everything else literally; patterns built from literals, * and ? are always accepted.", "quantifier": "every pattern and string", "why_tests_cant": "all pairs", "anchors": ["txstatsd/server/router.py: build_condition_path_like", "twisted/plugins/sli_plugin.py: build_metric"]}
{"id": "C37", "title": "Rule configuration is accepted or rejected as a whole", "statement": "Building rules succeeds iff every non-empty line has exactly one '=>', a known condition and target with the right number of arguments; then there is one rule per non-empty line in order, otherwise an exception is raised.", "quantifier": "every configuration text", "why_tests_cant": "all texts", "anchors": ["txstatsd/server/router.py: build_rules, build_condition"]}
{"id": "C38", "title": "set_metric_type does not survive a redirect", "statement": "After set_metric_type T, a later redirect or log line carries the original type field: the redirected text equals KEY:FIELDS with the fields as received, so re-parsing it gives the old type (except when T equals it).", "quantifier": "every message and type", "why_tests_cant": "all messages", "anchors": ["txstatsd/server/router.py: build_target_set_metric_type, rebuild_message, build_target_redirect_udp"]}
{"id": "C39", "title": "Redirects forward one copy and pass the metric on", "statement": "A redirect target sends exactly one message per matching metric, equal to KEY:FIELDS, and leaves the metric for later rules; without a service, the first matching message raises TypeError instead.", "quantifier": "every rule list and message", "why_tests_cant": "all messages", "anchors": ["txstatsd/server/router.py: build_target_redirect_udp, build_target_redirect_tcp"]}
{"id": "C40", "title": "TCP redirect frames each message", "statement": "While not paused, every message written over a TCP redirect appears on the wire completed to end in exactly one CRLF (nothing is added to one that ends in CRLF, only LF to one that ends in CR), so that the receiving line protocol recovers every message that contains no CRLF and does not end in CR unchanged and in order, however the stream is chunked; what a router forwards never ends in CR.", "quantifier": "every sequence of messages, every chunking", "why_tests_cant": "all sequences and chunkings", "anchors": ["txstatsd/server/router.py: TCPRedirectProtocol.write", "txstatsd/server/protocol.py: StatsDTCPServerProtocol"]}
{"id": "C41", "title": "A paused TCP redirect counts drops and never recovers", "statement": "While paused every message is dropped and counted; resuming always raises before un-pausing, so once paused a connection stays paused and drops everything for ever: 'after resume, messages flow again' is false.", "quantifier": "every history after a pause", "why_tests_cant": "all histories", "anchors": ["txstatsd/server/router.py: pauseProducing, resumeProducing, write"]}
{"id": "C42", "title": "A field containing CRLF injects a line through a TCP redirect", "statement": "The receiver of a TCP redirect gets exactly the lines sent iff no forwarded field contains CRLF; a datagram whose field contains CRLF followed by a line makes the receiver process that extra line.", "quantifier": "every message", "why_tests_cant": "adversarial inputs", "anchors": ["txstatsd/server/router.py: TCPRedirectProtocol.write, rebuild_message"]}
{"id": "C43", "title": "The UDP client delivers writes in order, once, and up to its queue limit", "statement": "Under every order of host resolution, connection, disconnection, writes and reactor turns, the sequence of datagrams handed to the transport, followed by those scheduled, followed by those queued, is exactly the sequence of accepted writes; a write is discarded only when 1000 writes are already waiting (connect callback neither raising nor writing).", "quantifier": "every schedule of operations", "why_tests_cant": "unbounded schedules", "anchors": ["txstatsd/protocol.py: TwistedStatsDClient, DataQueue, TransportGateway"]}
{"id": "C44", "title": "Nothing is sent before resolution and connection", "statement": "No datagram is handed to a transport before both the host has been resolved and a transport connected, and every datagram goes to the resolved address.", "quantifier": "every schedule", "why_tests_cant": "unbounded schedules", "anchors": ["txstatsd/protocol.py: TwistedStatsDClient.write, host_resolved, connect"]}
{"id": "C45", "title": "The offline queue is bounded", "statement": "The number of queued writes never exceeds the limit, and the queued writes are the earliest ones.", "quantifier": "every schedule, every limit", "why_tests_cant": "unbounded schedules", "anchors": ["txstatsd/protocol.py: DataQueue"]}
{"id": "C46", "title": "Write callbacks", "statement": "Each accepted write's callback is called exactly once with the transport's result, or with None when the transport reports an error; if the callback itself raises one of the caught errors it is called a second time with None.", "quantifier": "every schedule and transport behaviour", "why_tests_cant": "error paths", "anchors": ["txstatsd/protocol.py: TransportGateway._write"]}
{"id": "C47", "title": "Connect notification is duplicated for literal addresses", "statement": "Creating a client for a literal IP address calls the connect callback twice; for a host name it is called exactly once, after resolution.", "quantifier": "every host", "why_tests_cant": "both creation paths", "anchors": ["txstatsd/protocol.py: TwistedStatsDClient.create, __init__, host_resolved"]}
{"id": "C48", "title": "Writing from another thread can strand a message", "statement": "Under thread interleavings of write and host resolution, no message is duplicated, but a write that decided to queue just before resolution completes stays queued until the next connection: 'every write issued before resolution is sent once connected' is false.", "quantifier": "every interleaving of client threads and reactor", "why_tests_cant": "schedule dependent", "anchors": ["txstatsd/protocol.py: write, _flush_items, DataQueue"]}
{"id": "C49", "title": "The hash ring is sorted and complete", "statement": "After any sequence of node additions and removals the ring is sorted and contains exactly the replica entries of the nodes added (with multiplicity) and not since removed.", "quantifier": "every sequence of additions and removals, every hash function", "why_tests_cant": "all histories", "anchors": ["txstatsd/hashing.py: add_node, remove_node"]}
{"id": "C50", "title": "A key maps to the clockwise successor", "statement": "get_node returns the node of the smallest ring position not below the key's position, wrapping to the smallest position; it is always a current node, and the result depends only on the set of nodes, not on insertion order.", "quantifier": "every ring, key and insertion order", "why_tests_cant": "all keys and orders", "anchors": ["txstatsd/hashing.py: get_node"]}
{"id": "C51", "title": "Adding a node only moves keys to it; removing only moves its keys", "statement": "After adding a node every key maps to its previous node or to the new node; after removing a node every key that mapped elsewhere keeps its node.", "quantifier": "every ring, node, key and hash function", "why_tests_cant": "all keys", "anchors": ["txstatsd/hashing.py: add_node, remove_node, get_node"]}
{"id": "C52", "title": "Preference lists", "statement": "get_nodes returns distinct current nodes in clockwise order starting with get_node, and returns all of them provided the last ring entry's node also occurs elsewhere; with one entry on the ring it returns the empty list, and on an empty ring it raises.", "quantifier": "every ring and key", "why_tests_cant": "edge of the ring", "anchors": ["txstatsd/hashing.py: get_nodes"]}
{"id": "C53", "title": "The sharding client sends each metric to one stable backend", "statement": "ConsistentHashingClient writes each datum unchanged to exactly one backend, chosen only by the text before the first ':', so all samples of a metric reach the same backend while membership is unchanged; data without ':' raises and nothing is sent.", "quantifier": "every datum and ring", "why_tests_cant": "all data", "anchors": ["txstatsd/client.py: ConsistentHashingClient"]}
{"id": "C54", "title": "The moving average", "statement": "After any sequence of updates and ticks the rate is the exponentially weighted average of the per-interval rates, lies between the smallest and the largest of them, equals the first one after the first tick, and updates between ticks add up.", "quantifier": "every sequence of updates and ticks, every alpha in [0,1]", "why_tests_cant": "all histories", "anchors": ["txstatsd/stats/ewma.py: Ewma"]}
{"id": "C55", "title": "The uniform reservoir", "statement": "After any updates the reservoir holds min(seen, capacity) values, each a distinct occurrence of a seen value; until capacity is exceeded it is exactly the seen values in order; for every random source.", "quantifier": "every update sequence and random source", "why_tests_cant": "all random outcomes", "anchors": ["txstatsd/stats/uniformsample.py: UniformSample"]}
{"id": "C56", "title": "The decaying reservoir keeps the highest priorities", "statement": "For every update sequence, clock and random source, the decaying reservoir is sorted, holds min(seen, capacity) values, and these are the ones of highest priority relative to a common landmark; rescaling never changes which values are kept.", "quantifier": "every update sequence, clock and random source", "why_tests_cant": "all random outcomes and rescale points", "anchors": ["txstatsd/stats/exponentiallydecayingsample.py"]}
{"id": "C57", "title": "Running variance is exact for timers", "statement": "For every sequence of non-negative values the histogram's variance equals the sample variance and mean equals the arithmetic mean (exact arithmetic); for sequences whose running mean hits -1 it is wrong.", "quantifier": "every sequence", "why_tests_cant": "the failing input is a single exact value", "anchors": ["txstatsd/metrics/histogrammetric.py: update_variance, get_variance"]}
{"id": "C58", "title": "Minimum and maximum", "statement": "max()/min() return the largest/smallest value recorded since the last clear, 0.0 when none.", "quantifier": "every sequence including negative values", "why_tests_cant": "all sequences", "anchors": ["txstatsd/metrics/histogrammetric.py: set_max, set_min"]}
{"id": "C59", "title": "Percentiles", "statement": "Percentiles lie between the smallest and largest sampled value, are non-decreasing in the requested fraction, and equal the linear interpolation at p*(n+1).", "quantifier": "every sample and fraction", "why_tests_cant": "all samples", "anchors": ["txstatsd/metrics/histogrammetric.py: percentiles"]}
{"id": "C60", "title": "The histogram partitions the sample", "statement": "When the sample has two different values, the bin counts add up to the sample size and there are ceil(1+log2 n) bins; when all values are equal, asking for the histogram raises ZeroDivisionError.", "quantifier": "every sample", "why_tests_cant": "all samples", "anchors": ["txstatsd/metrics/histogrammetric.py: histogram", "txstatsd/server/httpinfo.py: TimerResource"]}
{"id": "C61", "title": "HistogramMetricReporter.report always fails", "statement": "Calling report on a histogram reporter raises in every state.", "quantifier": "every state", "why_tests_cant": "all states", "anchors": ["txstatsd/metrics/histogrammetric.py: report"]}
{"id": "C62", "title": "Distinct counter buckets", "statement": "zeros(n) is the number of trailing zero bits (0 for n=0), hash values are 32-bit, so adding an item never fails and touches exactly one bucket per hash.", "quantifier": "every item and hash table", "why_tests_cant": "all items", "anchors": ["txstatsd/metrics/distinctmetric.py: zeros, SBoxHash, add"]}
{"id": "C63", "title": "Distinct estimates ignore repetition and order", "statement": "The estimate depends only on the set of items seen in the window: repeating items or permuting simultaneous ones does not change it, adding items never decreases it, and longer windows never estimate less.", "quantifier": "every history of items and times", "why_tests_cant": "all histories", "anchors": ["txstatsd/metrics/distinctmetric.py: SlidingDistinctCounter.add, distinct"]}
{"id": "C64", "title": "An empty distinct window is reported as 1", "statement": "With no item in the window the estimate is 1, not 0; the estimate is never below 1.", "quantifier": "every counter size and state", "why_tests_cant": "all states", "anchors": ["txstatsd/metrics/distinctmetric.py: distinct"]}
{"id": "C65", "title": "The client's distinct messages are not understood by the server", "statement": "Every line produced by Metrics.distinct has type d, which the server with the stock plugins rejects as a bad line.", "quantifier": "every name and item", "why_tests_cant": "cross-module", "anchors": ["txstatsd/metrics/distinctmetric.py: DistinctMetric.mark", "twisted/plugins/distinct_plugin.py: metric_type"]}
{"id": "C66", "title": "SLI counts", "statement": "Between flushes count is the number of processed samples, error the number of error samples and count_C the number of numeric samples satisfying condition C; error <= count and each count_C <= count - error; flush reports them and restarts from zero.", "quantifier": "every history", "why_tests_cant": "all histories", "anchors": ["txstatsd/metrics/slimetric.py: SLIMetricReporter"]}
{"id": "C67", "title": "SLI rule configuration", "statement": "A rule line HEAD => LABEL IF COND ARGS installs the condition for exactly the metrics whose path matches HEAD; later rules for the same head and label replace earlier ones; a line not of this form raises TypeError.", "quantifier": "every rule text and metric path", "why_tests_cant": "all texts", "anchors": ["twisted/plugins/sli_plugin.py: configure, build_metric"]}
{"id": "C68", "title": "Client and server agree on integer counters", "statement": "Incrementing by any integer through the client API and delivering the line to the compliant server adds exactly that integer to the counter of the normalised qualified name; decrement subtracts it; sampled increments add value/rate.", "quantifier": "every name without ':' , every integer", "why_tests_cant": "all integers", "anchors": ["txstatsd/metrics/metrics.py: increment, decrement", "txstatsd/metrics/metric.py: send", "txstatsd/server/processor.py"]}
{"id": "C69", "title": "Qualified names", "statement": "The qualified name is namespace.name, just name when the namespace is empty or absent, just the namespace when the name is absent.", "quantifier": "every namespace and name", "why_tests_cant": "all strings", "anchors": ["txstatsd/metrics/metrics.py: fully_qualify_name"]}
{"id": "C70", "title": "A metric name is bound to the kind and rate of its first use", "statement": "A later call on the same name uses the sample rate (and for report the type) of the first call; calling gauge or meter on a name first used with increment or timing raises AttributeError.", "quantifier": "every history of calls", "why_tests_cant": "call histories", "anchors": ["txstatsd/metrics/metrics.py: Metrics", "txstatsd/metrics/extendedmetrics.py"]}
{"id": "C71", "title": "Extended counters send running totals", "statement": "After any sequence of increments, decrements and clears on a counter metric, each message sent carries the running total since the last clear.", "quantifier": "every history", "why_tests_cant": "all histories", "anchors": ["txstatsd/metrics/countermetric.py: CounterMetric"]}
{"id": "C72", "title": "Sampling suppresses or labels", "statement": "With sample_rate >= 1 every sample is sent unlabelled; with a smaller rate it is sent, labelled with |@rate, iff the random draw does not exceed the rate. The operators on the values given to the client are those of arithmetic on integers and floats (timing is sent in milliseconds; strings do not add and are repeated a thousand times).", "quantifier": "every rate, draw and payload", "why_tests_cant": "all draws", "anchors": ["txstatsd/metrics/metric.py: send"]}
{"id": "C73", "title": "Monitoring pings are answered and not processed", "statement": "A datagram (or TCP line) equal to the monitor message produces exactly one response and is not processed; any other is processed exactly once and in arrival order.", "quantifier": "every sequence of datagrams", "why_tests_cant": "all sequences", "anchors": ["txstatsd/server/protocol.py"]}
{"id": "C74", "title": "Configuration precedence", "statement": "A long command-line option takes precedence over the configuration file, which takes precedence over the default; a value given with a short option is overwritten by the configuration file.", "quantifier": "every option, command line and configuration", "why_tests_cant": "all combinations", "anchors": ["txstatsd/service.py: OptionsGlue"]}
{"id": "C75", "title": "Carbon destinations", "statement": "The service connects to the pairs formed position by position from the host, port and name lists, defaulting each empty list to one element; a destination beyond the shortest list is silently dropped.", "quantifier": "every configuration", "why_tests_cant": "all list lengths", "anchors": ["txstatsd/service.py: createService, StatsDOptions"]}
{"id": "C76", "title": "Carbon client statistics are reported and reset", "statement": "report_client_manager_stats returns exactly the destination statistics with ':' replaced by '_' and resets every statistic to zero keeping all keys.", "quantifier": "every statistics dictionary", "why_tests_cant": "all dictionaries", "anchors": ["txstatsd/service.py: report_client_manager_stats"]}
{"id": "C77", "title": "Every flushed datapoint is sent once and in order", "statement": "A flush of the service sends to carbon exactly the datapoints yielded by the processor, in order, each with its timestamp and value, in any interleaving of flushes and messages; if sending one datapoint raises, the rest of that flush is never sent.", "quantifier": "every state, every schedule", "why_tests_cant": "all states", "anchors": ["txstatsd/service.py: flushProcessor"]}
{"id": "C78", "title": "Health status", "statement": "The status page reports ERROR iff 0.7*flush_interval < processing time + flush time; because the interval is in milliseconds and the times in seconds, with the default interval the page stays OK until processing takes more than 42000 seconds.", "quantifier": "every duration and interval", "why_tests_cant": "all durations", "anchors": ["txstatsd/server/httpinfo.py: Status", "txstatsd/service.py: flush_interval"]}
{"id": "C79", "title": "Counter differences telescope", "statement": "report_counters returns nothing the first time, then for each key the difference to the previous reading, so that over any run the differences add up to last minus first.", "quantifier": "every sequence of readings with stable keys", "why_tests_cant": "all sequences", "anchors": ["txstatsd/process.py: report_counters"]}
{"id": "C80", "title": "A new key kills a difference reporter for good", "statement": "If a reading contains a key absent from the previous reading, or the reading fails, report raises, and every later call raises StopIteration.", "quantifier": "every sequence of readings", "why_tests_cant": "history dependent", "anchors": ["txstatsd/process.py: report_counters"]}
{"id": "C81", "title": "/proc parsers", "statement": "parse_meminfo returns exactly the recognised keys with kB/mB scaled to bytes, parse_loadavg the first three numbers and parse_netdev four counters per device line, for every well-formed file.", "quantifier": "every well-formed file content", "why_tests_cant": "all contents", "anchors": ["txstatsd/process.py: parse_meminfo, parse_loadavg, parse_netdev"]}
{"id": "C82", "title": "Reporting tasks", "statement": "While the service runs each scheduled function is running as a task, none runs after stop, and each result item is reported once under INSTANCE.NAME; an exception in the function is logged and does not stop later runs.", "quantifier": "every history of schedule/start/stop/tick", "why_tests_cant": "all histories", "anchors": ["txstatsd/report.py: ReportingService"]}
{"id": "C83", "title": "The reactor inspector never fails its own assertion", "statement": "For every schedule of the reactor answering inspector probes, a received answer is never newer than the current probe, the assertion never fails, exactly one delay is reported per probe, and probes are numbered consecutively.", "quantifier": "every schedule", "why_tests_cant": "thread schedules", "anchors": ["txstatsd/report.py: ReactorInspector.run"]}
{"id": "C84", "title": "Plugin metrics are shared by name across plugin types", "statement": "A line of a plugin type whose name already has a plugin metric is handed to that existing metric, whatever plugin type created it: the metric keeps the class of its first use. So lines of two plugin types with the same name do interfere, and a distinct-count line can raise because the name is an SLI metric.", "quantifier": "every state, plugin set, line", "why_tests_cant": "needs every state and every mix of plugin types", "anchors": ["txstatsd/server/processor.py:process_plugin_metric"]}
{"id": "C85", "title": "Metric names of the configurable processor", "statement": "get_metric_names of the configurable processor raises ValueError unless every gauge name is exactly two bytes long, and then returns the second byte of each gauge name in place of the name.", "quantifier": "every state of the configurable processor", "why_tests_cant": "depends on the set of gauge names received", "anchors": ["txstatsd/server/processor.py:get_metric_names", "txstatsd/server/configurableprocessor.py:ConfigurableMessageProcessor"]}
{"id": "C86", "title": "The uniform reservoir is unbiased", "statement": "When n different values have been offered to a uniform reservoir of capacity k <= n, every one of them is in the sample in exactly the fraction k/n of the possible outcomes of the draws (the remainders of the random integers modulo the running count).", "quantifier": "every number of values, capacity and value", "why_tests_cant": "a statement about all random outcomes at once; sampling can only estimate it", "anchors": ["txstatsd/stats/uniformsample.py: UniformSample.update"]}
{"id": "C87", "title": "A TCP connection is served only up to its first metric line", "statement": "StatsDTCPServerProtocol.lineReceived returns the object made by callLater. If the line receiver and reactor treat a true result as a request to drop the connection (as Twisted does), then of the lines of a TCP connection only the leading pings and the first other line are handled, and everything after it is lost.", "quantifier": "every connection, every content, every chunking", "why_tests_cant": "the unit tests call lineReceived directly; the loss depends on every chunking of every stream", "anchors": ["txstatsd/server/protocol.py: StatsDTCPServerProtocol.lineReceived"]}
{"id": "C88", "title": "A datagram is one line", "statement": "A datagram holding two or more well-formed lines separated by newlines (the batch format of other StatsD servers) is never split: none of its lines is recorded, and the whole datagram is reported as one bad line.", "quantifier": "every list of at least two well-formed lines, every state, every set of plugins", "why_tests_cant": "The three-field form lets two lines be parsed as one, so whether any combination is accepted depends on all contents of both lines.", "anchors": ["txstatsd/server/processor.py:BaseMessageProcessor.process", "txstatsd/server/processor.py:process_message", "txstatsd/server/protocol.py:StatsDServerProtocol.datagramReceived"]}
{"id": "C89", "title": "Connection statistics", "statement": "report_process_net_stats returns, for each status, the number of stream connections in that status (compared without letter case) and has no entry for a status no stream connection has.", "quantifier": "every list of connections", "why_tests_cant": "The count must be right for every mix of types and spellings of the statuses; a test tries one list.", "anchors": ["txstatsd/process.py:ProcessReport.get_net_stats"]}
{"id": "C90", "title": "Per-CPU statistics do not collide", "statement": "report_system_stats(percpu=True) has exactly one entry per CPU and mode, named PREFIX.cpu.NNN.MODE, and entries of different CPUs or modes never share a name, also with more than 999 CPUs.", "quantifier": "every number of CPUs and every set of modes", "why_tests_cant": "The number of CPUs is unbounded and the zero padding stops at three digits.", "anchors": ["txstatsd/process.py:report_system_stats"]}
{"id": "C91", "title": "Delay reported for an unresponsive reactor", "statement": "The delay the reactor inspector reports for an unresponsive reactor is not the age of the oldest unanswered probe: after a late answer the clock restarts although later probes are still unanswered, so the delay is understated.", "quantifier": "exists a schedule", "why_tests_cant": "It needs a particular interleaving of answers and wake-ups.", "anchors": ["txstatsd/report.py:ReactorInspector.run"]}
{"id": "C92", "title": "Stopping the inspector is final", "statement": "After ReactorInspectorService.stopService at most the report of the probe being waited for follows; startService does not start the inspection again.", "quantifier": "every history of start, stop, answers and wake-ups", "why_tests_cant": "The stop may happen at any point of the loop of another thread.", "anchors": ["txstatsd/report.py:ReactorInspector.start", "txstatsd/report.py:ReactorInspectorService"]}
{"id": "C93", "title": "The blocking UDP client", "statement": "UdpStatsDClient(host, port) whose host resolves: after any history of connect, disconnect and write calls, write makes exactly one sendto with its data to the address resolved at construction on the socket of the last successful connect, returns its result, and gives None when the socket fails; before connect, after disconnect, or when host or port is None nothing is sent and nothing raised. Construction raises exactly when the address does not resolve.", "quantifier": "every history of calls and every behaviour of getaddrinfo, socket and sendto", "why_tests_cant": "Histories interleave calls and failures arbitrarily.", "anchors": ["txstatsd/client.py:UdpStatsDClient"]}
{"id": "C94", "title": "Metric pages of the HTTP interface", "statement": "With the configurable processor, GET metrics/NAME has a page exactly when a duration NAME was received; it shows the largest and smallest duration received since the last completed flush and a histogram whose bins count exactly the sampled durations of that time. It fails (division by zero) when all sampled durations are equal, and with the compliant processor there is no page for any metric.", "quantifier": "every schedule of lines and flushes, every name", "why_tests_cant": "The contents depend on the whole history of durations and flushes.", "anchors": ["txstatsd/server/httpinfo.py:Metrics.getChild", "txstatsd/server/httpinfo.py:TimerResource", "txstatsd/metrics/timermetric.py:TimerMetricReporter.getResource", "txstatsd/metrics/histogrammetric.py:HistogramMetricReporter.histogram"]}
{"id": "C95", "title": "End-to-end conservation of counts through the assembled daemon", "statement": "For a daemon assembled by createService (UDP and TCP servers, router, StatsD-compliant processor, its own internal statistics, flushing to carbon): for every counter name, the values passed to carbon's sendDatapoint under stats_counts.NAME, plus what suspended or refused flushes still hold, plus what is stored, plus what the lines scheduled but not yet processed contribute, equals the sum of value/rate over all well-formed counter lines that arrived (when the routing rules match none of them; for rules that make at most one metric of each line, the sum is over what the rules make). Once the daemon is idle, one further flush that carbon accepts makes the total sent equal the total that arrived. Pings are answered in order, and every name sent consists of carbon-safe characters except user-chosen SLI labels.", "quantifier": "all sequences and interleavings of datagrams, TCP chunks, reactor turns (in any order), daemon-written lines, flush starts and steps, redirect connection changes and carbon refusals; all configurations and metric names", "why_tests_cant": "the accounting must hold over every interleaving of network, reactor, flush and failure events", "anchors": ["txstatsd/service.py:createService", "txstatsd/service.py:StatsDService.flushProcessor", "txstatsd/server/protocol.py", "txstatsd/server/router.py:Router.process_message", "txstatsd/server/processor.py:MessageProcessor", "txstatsd/client.py:InternalClient"]}
{"id": "C96", "title": "When the routing redirects are ready", "statement": "A routing configuration creates one redirect per redirecting rule, of the rule's kind, host and port. Router.ready has its result only when every TCP redirect has had a connection and the host of every UDP redirect is a literal address or has been resolved, and does have it once that is so and the scheduled callbacks have run. Reconnections of a TCP redirect never call its callback a second time. A UDP redirect announces itself at every resolution, and for a literal address also at creation; every announcement after the first raises AlreadyCalledError in the resolver's callback (so always once for literal addresses).", "quantifier": "every routing configuration and every history of connections, resolutions, writes, disconnections and reactor turns", "why_tests_cant": "the order in which redirects come up, reconnect and are resolved is unbounded", "anchors": ["txstatsd/server/router.py:Router.ready", "txstatsd/server/router.py:TCPRedirectClientFactory.buildProtocol", "txstatsd/server/router.py:Router.build_target_redirect_udp", "txstatsd/protocol.py:TwistedStatsDClient.create"]}
{"id": "C97", "title": "Over-long and unterminated lines on TCP", "statement": "On a TCP connection, the lines that precede the first line longer than the limit are served however the stream is cut into chunks; the over-long line closes the connection and nothing after it is served. A stream without CR LF (for instance one whose lines end in LF only) delivers nothing, ever.", "quantifier": "every byte stream and every way of cutting it into chunks", "why_tests_cant": "chunk boundaries can fall anywhere, including inside the delimiter", "anchors": ["txstatsd/server/protocol.py:StatsDTCPServerProtocol"]}
{"id": "C98", "title": "The daemon's own statistics, end to end", "statement": "The daemon's own gauges (carbon client, process and reactor statistics, reactor delay) reach the same router as everything else. A report writes its values one after the other up to the first that fails (an exception from the router, or a text that is not ASCII); that failure, or the failure of the reporting function itself, is logged and stops no later report. If the names are clean, the values are numbers and no routing rule matches them, everything reported is received. In statsd-compliant mode every successful flush then sends again every own value ever reported, so flushes grow for as long as the daemon runs; in configurable mode a flush sends each own name once, with the last value, and the HTTP listing of metric names raises ValueError from the first own statistic on.", "quantifier": "every history of network input, reports (with any names, values and failures), reactor turns, flushes and carbon failures, any routing rules", "why_tests_cant": "growth over an unbounded history, and reports interleaved with flushes and lines in every order", "anchors": ["txstatsd/report.py:ReportingService", "txstatsd/client.py:InternalClient", "txstatsd/service.py:createService", "txstatsd/metrics/metrics.py:Metrics.gauge", "txstatsd/server/processor.py:MessageProcessor.flush_gauge_metrics", "txstatsd/server/processor.py:MessageProcessor.get_metric_names"]}
{"id": "C99", "title": "The daemon with the configurable processor, end to end", "statement": "With statsd-compliance off and no routing rule matching: after any history of datagrams, TCP chunks, own lines, flushes, flush steps and carbon failures, each flush sends for every counter its last value (as an integer) and for every gauge its last value, under the message prefix, where 'last' is in the order in which the reactor handed the lines over; a counter whose last value is nan or infinite makes every later flush fail after some counters; every name sent is under the message prefix or the internal prefix.", "quantifier": "every history and interleaving, every configuration of prefixes and plugins", "why_tests_cant": "interleavings of input, reactor turns and overlapping flushes are unbounded", "anchors": ["txstatsd/service.py:createService", "txstatsd/server/configurableprocessor.py:ConfigurableMessageProcessor", "txstatsd/server/router.py:Router.process_message", "txstatsd/server/protocol.py:StatsDServerProtocol.datagramReceived"]}
{"id": "C100", "title": "From the command line to the running service", "statement": "Every accepted command line (with its configuration file) gives exactly one service: ports, processor and prefixes, routing, monitor messages, destinations, the statistics reported and their periods are determined by the options as documented; creation fails only if a plugin refuses its configuration, dump mode is asked for a second time in the process, or the routing rules are refused. The names of the report option are matched ignoring case, except reactor; unknown names are ignored; a name given twice is reported twice. The service starts unless the flush interval is negative; an interval under 1000 ms means flushing without pause, and in statsd-compliant mode every flush fails once there is a counter. A service with the default processor conserves the counters, with any routing rules: what was sent, held and stored is what the metrics made of the arrived lines by the rules count for. Without compliance, the names sent are under the configured prefix and every complete flush sends the last value of every counter and gauge. Dump mode on such a service changes nothing but its log, which holds what was sent; on a statsd-compliant service it silently replaces the compliant names and values by those of the configurable processor with an empty prefix.", "quantifier": "every command line, configuration file, and history of the resulting service", "why_tests_cant": "unbounded combinations of options, and unbounded histories of the service they give", "anchors": ["txstatsd/service.py:createService", "txstatsd/service.py:StatsDOptions", "txstatsd/process.py:PROCESS_STATS", "txstatsd/report.py:ReportingService.startService"]}
{"id": "C101", "title": "Counting in doubles", "statement": "Counts are kept in IEEE doubles. Whatever the rounding, the values sent for a counter, those held by suspended or refused flushes and the stored one are the running sums of consecutive blocks of the accepted amounts, in their order of arrival: each amount is counted once. If the amounts of a counter are whole numbers (or whole multiples of one power of two) whose magnitudes sum to at most 2^53, nothing is lost to rounding at all: what was sent, plus what flushes hold, plus what is stored, plus what is still scheduled, is exactly the sum of what arrived, for the processor, for the daemon and for the service of any command line. Beyond 2^53 that is false.", "quantifier": "every history of lines, flushes, flush steps, refusals and network input; every set of amounts", "why_tests_cant": "rounding depends on the whole history of a counter and on the points where flushes cut it", "anchors": ["txstatsd/server/processor.py:MessageProcessor.process_counter_metric", "txstatsd/server/processor.py:MessageProcessor.flush_counter_metrics", "txstatsd/service.py:createService"]}
{"id": "C102", "title": "Statistics of the process and the system", "statement": "The memory and CPU report has exactly the documented names with psutil's values (what it calls vsize is the first component of psutil's pair, rss the second), or the first failure in a fixed order of asking. CPU times are reported as differences between consecutive readings, the first report being empty; if psutil gives anything but two CPU times, the first report fails with ValueError and every later one with StopIteration, for good. Without IO counters every IO report is empty. A network device that appears ends the network report for good. A report named twice shares one difference generator: every difference goes to one of the two only; together they make up last minus first, and neither of them need report what happened since its own last report.", "quantifier": "every process object, every sequence of readings, texts of /proc/net/dev and callers", "why_tests_cant": "unbounded sequences of readings and interleavings of callers", "anchors": ["txstatsd/process.py:ProcessReport.get_memory_and_cpu", "txstatsd/process.py:ProcessReport.get_cpu_counters", "txstatsd/process.py:ProcessReport.get_io_counters", "txstatsd/process.py:report_counters", "txstatsd/process.py:report_file_stats", "txstatsd/process.py:SYSTEM_STATS"]}
{"id": "C103", "title": "A sharded cluster loses nothing of its own", "statement": "Clients shard their metrics over several daemons through consistent hashing rings they build by adding and removing backends; the network may lose, duplicate, delay and reorder datagrams; each daemon schedules, flushes and is refused by carbon as it likes, and may die and be restarted at any point. Per counter, summed over all daemons: what was sent, is held by flushes, stored or scheduled, plus what the daemons that died had sent and what died with them, plus what is on its way or was lost, equals what the clients wrote, plus the network's copies, plus the daemons' own lines. If every datum of a counter spells the name the same way and goes through the same ring, one daemon has the whole and no other ever sends, holds or stores the counter. Two spellings with the same normalised name, or a backend added between two writes, split a counter: two daemons then report the same Graphite series. A counter no line mentions is never reported.", "quantifier": "every number of clients and daemons, every hash function, ring, history of writes, losses, copies, arrivals, flushes, refusals and crash points", "why_tests_cant": "interleavings of several daemons with an unreliable network are unbounded", "anchors": ["txstatsd/client.py:ConsistentHashingClient.write", "txstatsd/client.py:UdpStatsDClient.write", "txstatsd/hashing.py:ConsistentHashRing.get_node", "txstatsd/server/protocol.py:StatsDServerProtocol.datagramReceived", "txstatsd/server/processor.py:MessageProcessor.flush_counter_metrics"]}
{"id": "C104", "title": "SLI metrics from the rules in the file to carbon", "statement": "A service's plugins accept their configuration exactly if every line of the SLI rules in its file is a rule. The rules in force are those of all services created in the process so far, a text being taken up to its first bad line; a later line replaces an earlier one for the same pattern and label. For every name with SLI samples, whatever the schedule of lines, flushes, refusals by carbon and the daemon's own statistics: the counts handed to carbon, together with those held by unfinished or refused flushes, are exactly the counts (all, errors, and per label those meeting a rule that applies to the metric's path) of a part of the samples that arrived; the rest is in the metric or scheduled. None is counted twice. A counter can however have the same name as one of the series.", "quantifier": "every file, command line, history of services in the process, arithmetic, schedule, set of refusals", "why_tests_cant": "interleavings of arrivals with suspended flushes, and texts of rules, are unbounded", "anchors": ["twisted/plugins/sli_plugin.py:SLIMetricFactory.configure", "twisted/plugins/sli_plugin.py:SLIMetricFactory.build_metric", "twisted/plugins/distinct_plugin.py:DistinctMetricFactory.configure", "txstatsd/service.py:createService", "txstatsd/metrics/slimetric.py:SLIMetricReporter", "txstatsd/server/processor.py:MessageProcessor.flush_plugins"]}
{"id": "C105", "title": "The daemon with any routing rules: nothing lost, nothing invented", "statement": "With any accepted routing configuration (rules that drop, rename to anything, duplicate, change types or redirect, several metrics per line), whatever arrives by UDP and TCP and however handling, flushes, refusals by carbon and redirects interleave: every line that arrived is handled or scheduled, the rules turn each handled line into a definite list of metrics (one that raises keeps those after it from the processor), and per counter name what was sent, plus what suspended and refused flushes hold, plus what is stored, equals what these metrics count for. The names sent to carbon use only the carbon-safe characters and those the rules put in; rules can make names that are not carbon-safe.", "quantifier": "every configuration, regular-expression engine, exact arithmetic, byte stream, schedule and set of refusals", "why_tests_cant": "rules, arrivals and interleavings are unbounded", "anchors": ["txstatsd/server/router.py:Router.process_message", "txstatsd/server/router.py:Router.build_target_rewrite", "txstatsd/server/router.py:Router.build_target_set_metric_type", "txstatsd/service.py:createService", "txstatsd/server/processor.py:MessageProcessor.flush"]}
{"id": "C106", "title": "Functions of a reporting service that take time: one at a time, on the interval grid, none after stop", "statement": "A function scheduled with a ReportingService may return a Deferred that fires later. If the service is not started again while a function of a stopped task is still at work, then at every moment a running task has either exactly one delayed call or its function at work; its calls are due at start + k * interval, each due only after the one before was made, so at most one per interval; a call is put off to the first such time after now, skipping those that passed while the function was at work; and once stopService has returned no function is called until startService. In every history each call comes to an end at most once and the reports and the log are those of the calls that came to an end, in that order. For functions that return at once this is the service of C82. A service stopped and started while a function is at work holds two delayed calls of it, and one of them survives stopService.", "quantifier": "every history of schedule, start, stop, passing time, delayed calls and late results; every interval, outcome and report function", "why_tests_cant": "interleavings of late results with start, stop and the clock are unbounded", "anchors": ["txstatsd/report.py:ReportingService.schedule", "txstatsd/report.py:ReportingService.wrapped", "txstatsd/report.py:ReportingService.startService", "txstatsd/report.py:ReportingService.stopService"]}
{"id": "C107", "title": "The HTTP pages are JSON texts with one meaning", "statement": "GET list_metrics on a StatsD-compliant server answers a JSON text whose only meaning is an object with the member names, listing each recorded name once. GET status answers 500 exactly when process time plus flush time exceed 0.7 times the flush interval (as the code compares them), else 200, with a JSON object of flush_time, process_time, flush_interval and status (ERROR or OK), in some order. GET metrics/NAME of a timer answers an object of histogram, max_value and min_value. A page with a number that is NaN or infinite is no JSON text; a list of names with one that is not UTF-8 (only routing rules make such names) fails.", "quantifier": "every history of lines and flushes; every byte string, list of names and numbers; every order of dictionaries", "why_tests_cant": "all strings, all numbers, all histories and orders", "anchors": ["txstatsd/server/httpinfo.py: Status.render_GET, ListMetrics.render_GET, TimerResource.render_GET", "txstatsd/server/processor.py: get_metric_names"]}
{"id": "C108", "title": "The text of the configuration file", "statement": "A configuration file is read as the sections its text says: lines that are blank, begin with # or ; or with the word rem are ignored; a line beginning with a name in brackets starts a section; option: value or option = value at the start of a line sets the option, in lower case, to the value without a comment after a space and semicolon and without outer spaces; lines beginning with a space continue the value, joined by newlines; a later setting replaces an earlier one, a repeated section continues it, and settings of DEFAULT count in every section. A text has at most one such reading. A text without one is refused, naming the first line if it is no header, else all the lines that are neither header, setting nor continuation, in order. A file whose names and values are plain is read back as written.", "quantifier": "every text (byte string); every list of plain sections, options and values", "why_tests_cant": "all texts, of any length and number of lines", "anchors": ["txstatsd/service.py: OptionsGlue.postOptions, OptionsGlue.configure", "txstatsd.conf-example"]}
{"id": "C109", "title": "The words of the command line and the texts of files give the options", "statement": "The words of a command line are read as options with values: --name=value, --name value, -cvalue, -c value, where name may be the beginning of a single long option unless it is config or one of the carbon-cache ones; -- or the first word that does not begin with a dash ends them. The command line is accepted exactly when the words read leave nothing over, none asks for help or version, the file asked for (if it exists) has a text with a reading, and its options are those of C74. An unreadable file text, and a request for help or version, end as such exactly in the stated cases.", "quantifier": "every list of words and every assignment of texts to paths", "why_tests_cant": "all command lines and all file texts", "anchors": ["txstatsd/service.py: OptionsGlue.parseOptions, OptionsGlue.postOptions, StatsDOptions"]}
{"id": "C110", "title": "A daemon that redirects, and two tiers of daemons", "statement": "For each line a daemon with routing rules handles, whether or not a rule raises, one definite sequence of texts goes to each redirect. What a UDP redirect has sent, scheduled and queued is those texts for the lines handled, in order, possibly with some missing if there were more than 1000; if it is resolved and started before the first line and not stopped, nothing is missing and nothing waits. A TCP redirect carries, each with its CRLF, all texts handled while connected and not paused, and none of those handled while unconnected, or after a pause until it connects again. Per counter: what a second daemon behind a UDP redirect sent, holds, stores and has scheduled, plus what was lost, is held and was dropped, equals what was forwarded plus copies, other senders' lines and its own; with a first rule redirecting everything, what was forwarded is what arrived at the first daemon or was its own, less what it has not handled yet. Behind a TCP redirect, of each of whose connections it reads some beginning in any chunks: what it sent, holds, stores and has scheduled, plus what was under way when a connection ended and what was dropped for want of an open connection, equals what was forwarded plus what it received otherwise and its own, provided no text contains CRLF.", "quantifier": "every rule configuration, line, history of both daemons, of the redirects and of the network", "why_tests_cant": "all interleavings of lines, resolution, connection, pauses, losses and copies, without bound", "anchors": ["txstatsd/server/router.py: Router.process_message, Router.build_target_redirect_udp, Router.build_target_redirect_tcp, TCPRedirectClientFactory, TCPRedirectProtocol", "txstatsd/protocol.py: TwistedStatsDClient, StatsDClientProtocol, TransportGateway, DataQueue", "txstatsd/server/protocol.py: StatsDServerProtocol"]}
{"id": "C111", "title": "From the words of the command line and the text of the file to carbon", "statement": "An accepted command line gives, unless a plugin, a second dump mode or a routing rule is refused, one service: the one that its words and, where they name a configuration file, the text of that file describe, and they describe no other. For the compliant service with any routing rules, per counter, what was sent to carbon plus what flushes hold plus what is stored is the sum of what the lines handled were worth; handled and scheduled lines are those received plus those about the service itself. For the configurable service every name sent is under the prefix that the words or the file give.", "quantifier": "every command line, file text, machine name, set of plugins and history of events", "why_tests_cant": "all command lines and files, and unbounded histories of the service they give", "anchors": ["txstatsd/service.py: OptionsGlue.parseOptions, OptionsGlue.postOptions, OptionsGlue.configure, StatsDOptions, createService", "txstatsd/server/router.py: Router", "txstatsd/server/processor.py: MessageProcessor", "txstatsd/server/configurableprocessor.py: ConfigurableMessageProcessor"]}
{"id": "C112", "title": "Every duration of a timer is reported once", "statement": "Lines arrive and any number of flushes are begun, advance, fail and are abandoned in any order. The durations received for a timer, in order of arrival, are the batches that flushes have taken, one after the other, followed by what is still stored. Everything sent or held by an unfinished flush consists of one group of five datapoints per batch, with the count, lower, mean, upper and upper percentile of exactly these durations, and of datapoints that are not the timer's. So the counts sent, those held and the number of durations stored add up to the number of durations received. The same holds for the daemon behind its network inputs and for the service that a command line describes, with the lines still scheduled. For percentiles up to 25 a batch can be lost.", "quantifier": "every schedule of lines and flushes, timer name, percentile from 26 to 100, exact durations; with every arithmetic and percentile except for batches lost when their statistics cannot be computed", "why_tests_cant": "all interleavings of lines with suspended flushes and all histories", "anchors": ["txstatsd/server/processor.py: MessageProcessor.compose_timer_metric, MessageProcessor.process_timer_metric, MessageProcessor.flush_timer_metrics, MessageProcessor.flush, flush_timer", "txstatsd/service.py: createService"]}
{"id": "C113", "title": "Timer statistics in doubles", "statement": "In binary64 arithmetic, of up to 2^40 durations of a timer the number set aside for a percentile from 1 to 100 is a whole number at most a half away from count*(100-percent)/100; for the 43 percentiles for which (100-percent)/100.0 is not below the quotient, 90 among them, a half goes up. So for these, from 26 on, the five figures sent are the order statistics of the durations, and every duration received is in exactly one batch reported, held by an unfinished flush or stored, under every interleaving of lines and flushes, and for the service that a command line describes. For every percentile from 26 on no batch is lost. With percentile 30 and 45 durations a half goes down.", "quantifier": "every list of doubles other than NaN, percentile, schedule of lines and flushes, command line and history of the service", "why_tests_cant": "the rounding of every count up to 2^40, and all interleavings", "anchors": ["txstatsd/server/processor.py: MessageProcessor.flush_timer_metrics, MessageProcessor.process_timer_metric, MessageProcessor.compose_timer_metric", "txstatsd/service.py: createService"]}
{"id": "C114", "title": "From the calls of applications to carbon", "statement": "Any number of applications make calls of the client API while their clients are resolved, connected, disconnected and served by the reactor in any order; the network loses, copies, delays and reorders datagrams; a daemon receives, flushes and sends. Every text the calls wrote was passed to a transport, is held by the client, or was dropped, in the order of the calls, and none is dropped if the client's queue had room at each call. Per counter, what the daemon sent, holds, stores and has scheduled, plus what was lost, is held by the clients and was dropped, is what the calls wrote, plus copies, plus lines of other senders and of the daemon; for integer increments and decrements what the calls wrote is their sum. Every integer duration is in exactly one batch whose statistics the daemon reports, or stored, scheduled, lost, held or dropped.", "quantifier": "every number of applications, history of calls and of the client's network, loss, copying and reordering, history of the daemon", "why_tests_cant": "unbounded histories of several programs and a network", "anchors": ["txstatsd/metrics/metrics.py: Metrics", "txstatsd/metrics/metric.py: Metric.send, Metric.write", "txstatsd/server/protocol.py: StatsDServerProtocol.datagramReceived", "txstatsd/protocol.py: TwistedStatsDClient, DataQueue, TransportGateway", "txstatsd/server/processor.py: MessageProcessor"]}
{"id": "C115", "title": "Every mark of a meter is reported once", "statement": "Lines arrive and any number of flushes are begun, resumed, fail and are abandoned in any order. The marks received for a meter, in order, are those covered by the reports made followed by those not yet reported, whose sum is stored; each report is two datapoints, the count of everything marked so far and the rate of what was marked since the report before, divided by the time since (since the creation of the meter for the first), and the time has changed from one report to the next. Everything else sent or held by an unfinished flush is not the meter's, except that the rate of a counter whose name begins with 'meter.' may bear the meter's name. The same holds for the daemon with its network, TCP streams, carbon failures and routing rules, and for the service of a command line.", "quantifier": "every history of lines, interleaving of flushes, clock, arithmetic (closed form in exact arithmetic)", "why_tests_cant": "unbounded histories and interleavings", "anchors": ["txstatsd/metrics/metermetric.py: MeterMetricReporter.mark, report", "txstatsd/server/processor.py: MessageProcessor.process_meter_metric, flush_meter_metrics, flush", "txstatsd/service.py: createService"]}
{"id": "C116", "title": "Every datapoint sent comes from a line received", "statement": "Under every interleaving of receiving and flushing, each datapoint sent, or still held by an unfinished flush, is the rate or count of a counter for which a counter line was received, a statistic of a timer for which a duration was received, the value of a gauge received for that very name, the count or rate of a meter for which a mark was received, a figure of a plugin metric for which a line of that plugin's type was received, the daemon's numStats or flush figures, or the receive figures of a type of which a line was received. The same for the daemon (lines over UDP and TCP, its own lines, what routing rules make of them) and for the service of a command line.", "quantifier": "every history of lines, interleaving of flushes, arithmetic, plugins, network, rules", "why_tests_cant": "unbounded histories and interleavings", "anchors": ["txstatsd/server/processor.py: MessageProcessor.process, flush, flush_counter_metrics, flush_timer_metrics, flush_gauge_metrics, flush_meter_metrics, flush_plugin_metrics, flush_metrics_summary", "txstatsd/service.py: createService"]}
{"id": "C117", "title": "Every distinct estimate sent is that of the items received up to some moment", "statement": "Lines arrive and any number of flushes are begun, resumed, fail and are abandoned in any order. The items a distinct-count metric holds are exactly those of its lines, in order, each at a reading of the clock of its own. Each report is four datapoints (all time, a day, an hour, a minute), the estimates for exactly the items that came before the clock was read for the report; everything else sent or held by an unfinished flush is not the metric's, except that the rate of a counter whose name begins with 'pdistinct.' may bear its name. With a clock that does not go back, a later report counts no fewer items in all, and as many if no item is new. The same story holds for the daemon with its network, carbon failures and routing rules, and for the service of a command line.", "quantifier": "every history of lines, interleaving of flushes, clock, hash tables, arithmetic", "why_tests_cant": "unbounded histories and interleavings, random hash tables", "anchors": ["txstatsd/metrics/distinctmetric.py: SlidingDistinctCounter.add, distinct, DistinctMetricReporter.process, flush", "txstatsd/server/processor.py: MessageProcessor.process_plugin_metric, flush_plugin_metrics, flush", "txstatsd/service.py: createService"]}
{"id": "C118", "title": "A flush that comes to its end has reported everything once", "statement": "Lines arrive and any number of flushes are begun, resumed, fail and are abandoned in any order. Whatever happens between two steps of a flush, if it comes to its end it has sent, in this order: the two datapoints of every counter, once each, with the count stored at the moment the counter was reached; the five datapoints of every timer that had durations when it was reached; every gauge value received up to one moment, in order of arrival; the report of every meter; the report of every plugin metric; and the summary, whose numbers are the numbers of what was sent. No name was added to a kind of metric, and no gauge received, while that kind was being reported. So every counter and gauge received before the flush began is among what it sent. A gauge received while gauges are being sent breaks the flush. No flush goes on for ever: one that is resumed again and again comes to its end, is broken or is abandoned, whatever arrives meanwhile; and it comes to its end if no new metric appears while it is unfinished and it is not abandoned.", "quantifier": "every history of lines, interleaving of flushes, unending schedule, arithmetic", "why_tests_cant": "unbounded histories and interleavings", "anchors": ["txstatsd/server/processor.py: MessageProcessor.flush, flush_counter_metrics, flush_timer_metrics, flush_gauge_metrics, flush_meter_metrics, flush_plugin_metrics, flush_metrics_summary", "txstatsd/service.py: StatsDService.flushProcessor"]}
{"id": "C119", "title": "A flush of the daemon that ends without an exception has given carbon everything once", "statement": "The assembled daemon, with any routing rules, receives datagrams and chunks of connections, runs scheduled lines, writes its own statistics, and flushes may overlap, fail and be refused by carbon. Take any flush its flush task begins. If it has ended without an exception then the datapoints of this flush given to the carbon client are, in order: both datapoints of every counter once, with the count stored when it was reached; those of every timer with durations; every gauge value received up to one moment; the report of every meter and of every plugin metric; and the summary with the numbers of what was sent. So every counter and gauge of the lines the router had been given before the flush was begun, if no rule matches them, has been given to carbon. If carbon refuses a datapoint this fails. And no flush of the daemon goes on for ever: one that is resumed again and again ends, whatever processor the daemon has.", "quantifier": "every history of the daemon, set of rules, carbon, arithmetic", "why_tests_cant": "unbounded histories and interleavings of network, reactor and overlapping flushes", "anchors": ["txstatsd/service.py: StatsDService.flushProcessor, createService", "txstatsd/server/processor.py: MessageProcessor.flush", "txstatsd/server/router.py: Router.process"]}
