{
 "C04": {
  "note": "Exact characterisation of when processing raises; the intended guarantee that bad lines are only logged is refuted."
 },
 "C07": {
  "note": "All plugin types count as one type; that they do interfere is C84."
 },
 "C08": {
  "note": "For every arithmetic whose addition is commutative and associative (instance: exact rationals with infinities and NaN)."
 },
 "C87": {
  "note": "Conditional on the behaviour of Twisted's LineReceiver and reactor, which are not in the repository; the model takes it as a boolean parameter and the theorem is about the value true."
 },
 "C32": {
  "note": "For every regular expression engine (python's re is a parameter with its interface only)."
 },
 "C38": {
  "note": "The set type is lost through a redirect: proved in general and by a concrete instance."
 },
 "C42": {
  "note": "Exact condition, and a concrete injection."
 },
 "C31": {
  "note": "With statsd-compliance off dump mode is transparent; with it on, names and counter values change; a second dump-mode service in one process fails with AssertionError."
 },
 "C74": {
  "note": "getopt and ConfigParser are represented by their results (the list of option/value pairs, the list of sections); usage errors, defaults, coercion and precedence are the code's."
 },
 "C78": {
  "note": "Sums are exact (rationals with infinities), rounding of floats is not modelled here."
 },
 "C94": {
  "note": "Exact rationals for the contents; that the page can always be shown is refuted (equal durations), as is that timers of the compliant processor have pages."
 },
 "C104": {
  "note": "For the statsd-compliant processor. Rules that install something other than a condition (C67_only_conditions_refuted) are excluded by hypothesis. Sums count the whole numbers sent under the name."
 },
 "C105": {
  "note": "For the statsd-compliant processor; the daemon's statistics lines are among the events (own). Metrics of plugin types may raise, so what is handed after one is not determined. C105_names_refuted: a rewrite can introduce unsafe characters."
 },
 "C106": {
  "note": "Times are integers in any unit. LoopingCall is twisted's, modelled from its source. C106_restart_refuted: start while a function of a stopped task is at work."
 },
 "C107": {
  "note": "repr of a finite number is any text that is a JSON number. C107_infinite_refuted, C107_listing_refuted: pages that are no JSON, or fail."
 },
 "C108": {
  "note": "RawConfigParser of python 2.7's standard library, modelled from its source (Ini.v). C108_value_kept_refuted: a value is cut at a semicolon after a space. C108_rem_refuted: 'rem = 5' is a comment."
 },
 "C109": {
  "note": "getopt and twisted's usage.Options modelled from their sources (Ini.v). The values themselves are C74. C109_abbreviation_refuted: --conf is refused although it begins only one name, because twisted lists the option twice."
 },
 "C110": {
  "note": "The two-tier equations are for exact arithmetic and a second daemon without rules. Over UDP the network does any split into received, lost and copies; over TCP each connection delivers some beginning of what it carried, in any chunks, and texts with CRLF are excluded (C42 shows why)."
 },
 "C112": {
  "note": "C112_batches, C112_counts, C112_daemon, C112_routed and C112_service are for exact arithmetic and durations other than NaN (doubles are C113); C112_daemon for rules that match none of the lines, C112_routed for rules whose results can be written as lines. C112_any is for every arithmetic. C112_percentile_refuted: with percentile 25 two durations can be lost."
 },
 "C113": {
  "note": "The mean of a single duration is that duration, as in the code; the mean of several is the rounded quotient of the rounded sum (C15_ordered_in_doubles_refuted shows it can exceed the largest). C113_half_refuted: percentile 30, 45 durations."
 },
 "C114": {
  "note": "Applications use Metrics over TwistedStatsDClient; a connect callback that writes or raises is excluded (C43-C45 treat it). The integer theorems are for Metrics, unsampled, under names without ':' or leading whitespace. Copies are any lines: extra."
 },
 "C115": {
  "note": "The closed forms (C115_rounds, C115_count, C115_daemon, C115_service) are for exact arithmetic; C115_any, for every arithmetic, gives the history of marks and reports. C115_daemon is for rules whose results can be written as lines, C115_service for a service without rules. A flush that is abandoned keeps the rest of the report it has begun: this is part of what flushes hold. C115_clash_refuted: a counter named meter.q.count sends its rate under the name of the count of the meter q."
 },
 "C116": {
  "note": "For every arithmetic. The values of counters, timers and meters are C12, C112 and C115. C116_daemon is for rules that match none of the lines, C116_routed for rules whose results can be written as lines, C116_service for a service without rules. A name can have two sources (C116_case: a counter gauge.g.value and a gauge g), so C116_gauge excludes that counter."
 },
 "C117": {
  "note": "For every arithmetic; C117_grows for any in which <= is transitive (exact numbers, doubles) and a clock that does not go back. Needs the distinct plugin to be loaded and no line of type sli with the metric's name: the first type a name is used with decides (C117_first_type_refuted)."
 },
 "C118": {
  "note": "For every arithmetic; needs a flush interval of at least a second (C11). C118_timers: with exact numbers, none of them NaN, what is sent for a timer are the order statistics of C14. The receive part of the summary is left open (overlapping flushes clear it). C118_ends holds for every unending schedule that resumes the flush again and again; C118_calm_completes is for exact numbers, a finite clock and percentiles 26 to 100."
 },
 "C119": {
  "note": "For every arithmetic, every rule set whose results can be written as lines (the hypothesis on delivers, as in C105), intervals of at least a second. C119_none_left_out: lines no rule matches. C119_refused_refuted: with a refused datapoint the flush ends early. C119_ends holds for any processor and any flush of it."
 }
}