(** txstatsd/server/processor.py *)
From Verif Require Import Base Num Env Stats Glob Metrics Gen.

(** ** normalize_key, processor.py:32-46 *)

(** [re.sub] of a maximal run of characters satisfying [p] by [r]
    (SPACES = \s+ , SLASHES = /+) *)
Fixpoint sub_runs (p : ascii -> bool) (r : str) (in_run : bool) (s : str) : str :=
  match s with
  | [] => []
  | c :: s' => if p c then (if in_run then sub_runs p r true s' else r ++ sub_runs p r true s')
               else c :: sub_runs p r false s'
  end.
(** NON_ALNUM = [^a-zA-Z_\-0-9\.] *)
Definition key_char (c : ascii) : bool :=
  is_lower c || is_upper c || is_digit c || eqc c "_" || eqc c "-" || eqc c ".".
Definition is_slash (c : ascii) : bool := eqc c "/".
Definition normalize_key (key : str) : str :=
  let key := sub_runs is_space (B "_") false key in
  let key := sub_runs is_slash (B "-") false key in
  filter key_char key.

(** RATE.match(s), processor.py:35: group(1), or None *)
Definition rate_char (c : ascii) : bool := is_digit c || eqc c ".".
Definition rate_match (s : str) : option str :=
  match s with
  | c :: s' => if eqc c "@" then
                 match fst (span rate_char s') with [] => None | g => Some g end
               else None
  | [] => None
  end.

(** ** BaseMessageProcessor.process, processor.py:51-67 *)
Definition base_process {S} (fail : str -> M S unit)
  (process_message : str -> str -> str -> list str -> M S unit) (message : str) : M S unit :=
  if negb (has ":" message) then fail message
  else match split1 ":" (strip message) with
       | None => raise ValueError                  (* unpacking; unreachable *)
       | Some (key, data) =>
           if negb (has "|" data) then fail message
           else
             let fields := split_on "|" data in
             if (length fields <? 2)%nat || (3 <? length fields)%nat then fail message
             else match fields !! 1%nat with
                  | None => raise IndexError       (* unreachable *)
                  | Some metric_type =>
                      process_message message metric_type (normalize_key key) fields
                  end
       end.

(** rebuild_message, processor.py:69-70 *)
Definition rebuild_message (key : str) (fields : list str) : str :=
  key ++ B ":" ++ join (B "|") fields.

Section processor.
Context `{NN : Num}.

(** an entry written by the logging processor (loggingprocessor.py:43,51); the
    formatting of the numbers in the text is not modelled *)
Inductive logent := LIn (message : str) | LOut (d : dp).

(** ** State of a MessageProcessor, processor.py:86-110.  The containers for
    timers, counters and gauges are parameters because the configurable
    processor stores reporter objects in them.  [p_bad] is the list of messages
    passed to [fail] (newest first), [p_info] what the logging processor wrote. *)
Record pst (TM CM GM : Type) := PST {
  p_timer : gmap str TM;
  p_counter : gmap str CM;
  p_gauge : GM;
  p_meter : gmap str meter;
  p_plug : gmap str plug;
  p_ptime : gmap str num;
  p_btype : gmap str Z;
  p_lfd : num;
  p_lpd : num;
  p_w : world;
  p_bad : list str;
  p_info : list logent }.

Arguments PST {TM CM GM}.
Arguments p_timer {TM CM GM}. Arguments p_counter {TM CM GM}. Arguments p_gauge {TM CM GM}.
Arguments p_meter {TM CM GM}. Arguments p_plug {TM CM GM}. Arguments p_ptime {TM CM GM}.
Arguments p_btype {TM CM GM}. Arguments p_lfd {TM CM GM}. Arguments p_lpd {TM CM GM}.
Arguments p_w {TM CM GM}. Arguments p_bad {TM CM GM}. Arguments p_info {TM CM GM}.

Section generic.
Context {TM CM GM : Type}.
Notation st := (pst TM CM GM).
Definition set_timer (v : gmap str TM) (s : pst TM CM GM) : pst TM CM GM :=
  PST v (p_counter s) (p_gauge s) (p_meter s) (p_plug s) (p_ptime s) (p_btype s) (p_lfd s) (p_lpd s) (p_w s) (p_bad s) (p_info s).
Definition set_counter (v : gmap str CM) (s : pst TM CM GM) : pst TM CM GM :=
  PST (p_timer s) v (p_gauge s) (p_meter s) (p_plug s) (p_ptime s) (p_btype s) (p_lfd s) (p_lpd s) (p_w s) (p_bad s) (p_info s).
Definition set_gauge (v : GM) (s : pst TM CM GM) : pst TM CM GM :=
  PST (p_timer s) (p_counter s) v (p_meter s) (p_plug s) (p_ptime s) (p_btype s) (p_lfd s) (p_lpd s) (p_w s) (p_bad s) (p_info s).
Definition set_meter (v : gmap str meter) (s : pst TM CM GM) : pst TM CM GM :=
  PST (p_timer s) (p_counter s) (p_gauge s) v (p_plug s) (p_ptime s) (p_btype s) (p_lfd s) (p_lpd s) (p_w s) (p_bad s) (p_info s).
Definition set_plug (v : gmap str plug) (s : pst TM CM GM) : pst TM CM GM :=
  PST (p_timer s) (p_counter s) (p_gauge s) (p_meter s) v (p_ptime s) (p_btype s) (p_lfd s) (p_lpd s) (p_w s) (p_bad s) (p_info s).
Definition set_ptime (v : gmap str num) (s : pst TM CM GM) : pst TM CM GM :=
  PST (p_timer s) (p_counter s) (p_gauge s) (p_meter s) (p_plug s) v (p_btype s) (p_lfd s) (p_lpd s) (p_w s) (p_bad s) (p_info s).
Definition set_btype (v : gmap str Z) (s : pst TM CM GM) : pst TM CM GM :=
  PST (p_timer s) (p_counter s) (p_gauge s) (p_meter s) (p_plug s) (p_ptime s) v (p_lfd s) (p_lpd s) (p_w s) (p_bad s) (p_info s).
Definition set_lfd (v : num) (s : pst TM CM GM) : pst TM CM GM :=
  PST (p_timer s) (p_counter s) (p_gauge s) (p_meter s) (p_plug s) (p_ptime s) (p_btype s) v (p_lpd s) (p_w s) (p_bad s) (p_info s).
Definition set_lpd (v : num) (s : pst TM CM GM) : pst TM CM GM :=
  PST (p_timer s) (p_counter s) (p_gauge s) (p_meter s) (p_plug s) (p_ptime s) (p_btype s) (p_lfd s) v (p_w s) (p_bad s) (p_info s).
Definition set_w (v : world) (s : pst TM CM GM) : pst TM CM GM :=
  PST (p_timer s) (p_counter s) (p_gauge s) (p_meter s) (p_plug s) (p_ptime s) (p_btype s) (p_lfd s) (p_lpd s) v (p_bad s) (p_info s).
Definition set_bad (v : list str) (s : pst TM CM GM) : pst TM CM GM :=
  PST (p_timer s) (p_counter s) (p_gauge s) (p_meter s) (p_plug s) (p_ptime s) (p_btype s) (p_lfd s) (p_lpd s) (p_w s) v (p_info s).
Definition set_info (v : list logent) (s : pst TM CM GM) : pst TM CM GM :=
  PST (p_timer s) (p_counter s) (p_gauge s) (p_meter s) (p_plug s) (p_ptime s) (p_btype s) (p_lfd s) (p_lpd s) (p_w s) (p_bad s) v.

Definition empty_state (g : GM) : st :=
  PST ∅ ∅ g ∅ ∅ ∅ ∅ n0 n0 world0 [] [].

(** self.time_function() *)
Definition time_ (E : env) : M st num :=
  fun s => let '(t, w) := now E (p_w s) in (set_w w s, Ok t).

(** fail, processor.py:72-74: log and discard *)
Definition fail (message : str) : M st unit := mod_ (fun s => set_bad (message :: p_bad s) s).

(** ** The methods a subclass overrides. *)
Record cls := Cls {
  c_prefix : str -> str;                                     (* get_message_prefix *)
  c_internal : str;                                          (* internal_metrics_prefix *)
  c_plugins : gmap str factory;                              (* self.plugins *)
  c_compose_timer : str -> num -> M st unit;
  c_process_counter : str -> list str -> str -> M st unit;
  c_compose_gauge : str -> num -> M st unit;
  c_compose_meter : str -> num -> M st unit;
  c_flush_counter : Z -> Z -> (Z -> gen st) -> gen st;       (* interval, timestamp *)
  c_flush_timer : Z -> Z -> (Z -> gen st) -> gen st;         (* percent, timestamp *)
  c_flush_gauge : Z -> (Z -> gen st) -> gen st;
  c_flush_meter : Z -> (Z -> gen st) -> gen st }.

Context (E : env) (C : cls).

(** self.plugins built from the plugin list, processor.py:108-110 *)
Definition plugin_table (plugins : list factory) : gmap str factory :=
  fold_left (fun m f => <[factory_type f := f]> m) plugins ∅.

(** process_plugin_metric, processor.py:148-155.  The metric is looked up by
    key only, whatever its type. *)
Definition process_plugin_metric (metric_type key : str) (items : list str) : M st unit :=
  let! s := get_ in
  (match p_plug s !! key with
   | Some _ => ret tt
   | None =>
       match c_plugins C !! metric_type with
       | None => raise KeyError
       | Some f =>
           fun s1 =>
             let '(r, w) := build_metric E f (c_prefix C (factory_name f)) key (p_w s1) in
             match r with
             | Exn e => (set_w w s1, Exn e)
             | Ok p => (set_plug (<[key := p]> (p_plug s1)) (set_w w s1), Ok tt)
             end
       end
   end) ;!
  fun s1 =>
    match p_plug s1 !! key with
    | None => (s1, Exn KeyError)
    | Some p => let '(p', r, w) := plug_process E p items (p_w s1) in
                (set_plug (<[key := p']> (p_plug s1)) (set_w w s1), r)
    end.

(** process_timer_metric, processor.py:157-163 *)
Definition process_timer_metric (key duration message : str) : M st unit :=
  match float_of duration with
  | None => fail message
  | Some d => c_compose_timer C key d
  end.

(** process_gauge_metric / process_meter_metric, processor.py:189-199, 205-215:
    after logging a non-number the unbound local [value] is used *)
Definition process_gauge_metric (key composite message : str) : M st unit :=
  if negb (length (split_on ":" composite) =? 1)%nat then fail message
  else match float_of composite with
       | None => fail message ;! raise UnboundLocalError
       | Some v => c_compose_gauge C key v
       end.
Definition process_meter_metric (key composite message : str) : M st unit :=
  if negb (length (split_on ":" composite) =? 1)%nat then fail message
  else match float_of composite with
       | None => fail message ;! raise UnboundLocalError
       | Some v => c_compose_meter C key v
       end.

(** process_message, processor.py:122-143 *)
Definition finish_message (metric_type : str) (start : num) : M st unit :=
  mod_ (fun s => match p_ptime s !! metric_type with
                 | Some _ => s
                 | None => set_ptime (<[metric_type := n0]> (p_ptime s)) s
                 end) ;!
  let! t := time_ E in
  mod_ (fun s =>
    let old := match p_ptime s !! metric_type with Some x => x | None => n0 end in
    let n := match p_btype s !! metric_type with Some x => x | None => 0 end in
    set_btype (<[metric_type := n + 1]> (p_btype s))
      (set_ptime (<[metric_type := nadd old (nsub t start)]> (p_ptime s)) s)).

Definition process_message (message metric_type key : str) (fields : list str) : M st unit :=
  let! start := time_ E in
  match fields with
  | [] => raise IndexError                           (* unreachable from process *)
  | f0 :: _ =>
      if str_eqb metric_type (B "c") then
        c_process_counter C key fields message ;! finish_message metric_type start
      else if str_eqb metric_type (B "ms") then
        process_timer_metric key f0 message ;! finish_message metric_type start
      else if str_eqb metric_type (B "g") then
        process_gauge_metric key f0 message ;! finish_message metric_type start
      else if str_eqb metric_type (B "m") then
        process_meter_metric key f0 message ;! finish_message metric_type start
      else match c_plugins C !! metric_type with
           | Some _ => process_plugin_metric metric_type key fields ;! finish_message metric_type start
           | None => fail message
           end
  end.

(** process, processor.py:51-67 *)
Definition process (message : str) : M st unit := base_process fail process_message message.

(** ** flush, processor.py:224-287 *)

(** [for k, v in d.iteritems()]: the keys in iteration order, and the size check.
    A key that has disappeared while the size is the same (possible only for
    process_timings with overlapping flushes) is skipped. *)
Definition gdict {V} (d : st -> gmap str V)
  (visit : str -> V -> st -> st * res (option (list dp * (st -> st * res unit))))
  (k : Z -> gen st) : gen st :=
  GAct (fun s =>
    let '(ks, w) := dict_keys E (d s) (p_w s) in
    let size0 := size (d s) in
    (set_w w s,
     giter ks (fun s' => size (d s') =? size0)%nat
       (fun key s' => match d s' !! key with
                      | Some v => visit key v s'
                      | None => (s', Ok None)
                      end) 0 k)).

(** flush_plugin_metrics, processor.py:338-341 *)
Definition flush_plugins (ts : Z) (k : Z -> gen st) : gen st :=
  gdict p_plug (fun key p s =>
    let '(p', r, w) := plug_flush E p ts (p_w s) in
    let s' := set_plug (<[key := p']> (p_plug s)) (set_w w s) in
    match r with
    | Exn e => (s', Exn e)
    | Ok ms => (s', Ok (Some (ms, no_post)))
    end) k.

Definition thousand : num := nofZ 1000.

(** flush_metrics_summary, processor.py:343-372 *)
Definition summary_kind (ts : Z) (name : str) (events : Z) (duration : num) (s : st)
  : st * res (option (list dp * (st -> st * res unit))) :=
  (s, Ok (Some ([DP (c_internal C ++ B "flush." ++ name ++ B ".count") (VI events) ts;
                 DP (c_internal C ++ B "flush." ++ name ++ B ".duration") (VF (nmul duration thousand)) ts],
                fun s2 => (set_lfd (nadd (p_lfd s2) duration) s2, Ok tt)))).
Definition summary_type (ts : Z) (mtype : str) (duration : num) (s : st)
  : st * res (option (list dp * (st -> st * res unit))) :=
  match p_btype s !! mtype with
  | None => (s, Exn KeyError)
  | Some n =>
      (s, Ok (Some ([DP (c_internal C ++ B "receive." ++ mtype ++ B ".count") (VI n) ts;
                     DP (c_internal C ++ B "receive." ++ mtype ++ B ".duration") (VF (nmul duration thousand)) ts],
                    fun s2 =>
                      (* log.msg reads self.by_type[metric_type] again *)
                      match p_btype s2 !! mtype with
                      | None => (s2, Exn KeyError)
                      | Some _ => (set_lpd (nadd (p_lpd s2) duration) s2, Ok tt)
                      end)))
  end.
Definition flush_summary (num_stats : Z) (per_metric : list (str * (Z * num))) (ts : Z) : gen st :=
  GEmit [DP (c_internal C ++ B "numStats") (VI num_stats) ts]
  (GAct (fun s =>
     let pm : gmap str (Z * num) := list_to_map per_metric in
     let '(names, w) := dict_keys E pm (p_w s) in
     (set_lfd n0 (set_w w s),
      giter names (fun _ => true)
        (fun name s' => match pm !! name with
                        | Some (ev, du) => summary_kind ts name ev du s'
                        | None => (s', Ok None)
                        end) 0
        (fun _ => GAct (fun s1 =>
           (set_lpd n0 s1,
            gdict p_ptime (summary_type ts)
              (fun _ => GAct (fun s2 => (set_btype ∅ (set_ptime ∅ s2), GRet))))))))).

(** start = time(); <loop>; duration = time() - start *)
Definition timed (loop : (Z -> gen st) -> gen st) (k : Z -> num -> gen st) : gen st :=
  GAct (fun s =>
    let '(start, w) := now E (p_w s) in
    (set_w w s,
     loop (fun events =>
       GAct (fun s1 =>
         let '(stop, w1) := now E (p_w s1) in
         (set_w w1 s1, k events (nsub stop start)))))).

Definition flush (interval_ms percent : Z) : gen st :=
  GAct (fun s =>
    let interval := interval_ms / 1000 in               (* int / int floors in python 2 *)
    let '(t, w) := now E (p_w s) in
    (set_w w s,
     match ntrunc t with
     | Exn e => GRaise e
     | Ok ts =>
         timed (c_flush_counter C interval ts) (fun nc dc =>
         timed (c_flush_timer C percent ts) (fun nt dt =>
         timed (c_flush_gauge C ts) (fun ng dg =>
         timed (c_flush_meter C ts) (fun nm dm =>
         timed (flush_plugins ts) (fun np dpl =>
           flush_summary (nc + nt + ng + nm + np)
             [(B "counter", (nc, dc)); (B "timer", (nt, dt)); (B "gauge", (ng, dg));
              (B "meter", (nm, dm)); (B "plugin", (np, dpl))] ts)))))
     end)).

End generic.

(** ** MessageProcessor: the StatsD-compliant methods *)

(** timers are lists of durations, counters numbers, gauges a deque of pairs *)
Definition mst := pst (list num) num (list (num * str)).

Section compliant.
Context (E : env).

(** compose_timer_metric, processor.py:165-168 *)
Definition mp_compose_timer (key : str) (d : num) : M mst unit :=
  mod_ (fun s => let old := match p_timer s !! key with Some l => l | None => [] end in
                 set_timer (<[key := old ++ [d]]> (p_timer s)) s).

(** process_counter_metric + compose_counter_metric, processor.py:170-187 *)
Definition mp_compose_counter (key : str) (value : num) (rate : option str) : M mst unit :=
  mod_ (fun s => match p_counter s !! key with
                 | Some _ => s
                 | None => set_counter (<[key := n0]> (p_counter s)) s
                 end) ;!
  let! r := lift_ (match rate with
                   | None => Ok n1
                   | Some t => match float_of t with Some x => Ok x | None => Exn ValueError end
                   end) in
  let! inv := lift_ (pydiv n1 r) in
  mod_ (fun s => let old := match p_counter s !! key with Some x => x | None => n0 end in
                 set_counter (<[key := nadd old (nmul value inv)]> (p_counter s)) s).
Definition mp_process_counter (key : str) (composite : list str) (message : str) : M mst unit :=
  match composite with
  | [] => raise IndexError                          (* unreachable *)
  | f0 :: _ =>
      match float_of f0 with
      | None => fail message
      | Some value =>
          match composite with
          | [_; _; f2] => match rate_match f2 with
                          | None => fail message
                          | Some g => mp_compose_counter key value (Some g)
                          end
          | _ => mp_compose_counter key value None
          end
      end
  end.

(** compose_gauge_metric, processor.py:201-203 *)
Definition mp_compose_gauge (key : str) (v : num) : M mst unit :=
  mod_ (fun s => set_gauge (p_gauge s ++ [(v, key)]) s).

(** compose_meter_metric, processor.py:217-222 and configurableprocessor.py:89-94 *)
Definition compose_meter {TM CM GM} (prefix : str) (key : str) (v : num) : M (pst TM CM GM) unit :=
  (fun s => match p_meter s !! key with
            | Some _ => (s, Ok tt)
            | None => let '(m, w) := meter_new E key prefix (p_w s) in
                      (set_meter (<[key := m]> (p_meter s)) (set_w w s), Ok tt)
            end) ;!
  mod_ (fun s => match p_meter s !! key with
                 | Some m => set_meter (<[key := meter_mark m v]> (p_meter s)) s
                 | None => s                         (* unreachable *)
                 end).

Definition stats_prefix : str := B "stats.".
Definition count_prefix : str := B "stats_counts.".
Definition timer_prefix : str := B "stats.timers.".
Definition gauge_prefix : str := B "stats.gauge.".

(** flush_counter_metrics, processor.py:289-295: zeroed before the division *)
Definition mp_flush_counter (interval ts : Z) (k : Z -> gen mst) : gen mst :=
  gdict E p_counter (fun key count s =>
    let s' := set_counter (<[key := n0]> (p_counter s)) s in
    if interval =? 0 then (s', Exn ZeroDivisionError)
    else (s', Ok (Some ([DP (stats_prefix ++ key) (VF (ndiv count (nofZ interval))) ts;
                         DP (count_prefix ++ key) (VF count) ts], no_post)))) k.

(** int(round(threshold_value * count)) for count > 1, processor.py:298,313:
    threshold_value = (100 - percent) / 100.0 *)
Definition trimmed (percent : Z) (count : Z) : res Z :=
  ntrunc (nround 0 (nmul (ndiv (nofZ (100 - percent)) (nofZ 100)) (nofZ count))).

(** python slice [l[:i]] *)
Definition slice_to {A} (i : Z) (l : list A) : list A :=
  if i <? 0 then take (Z.to_nat (Z.of_nat (length l) + i)) l else take (Z.to_nat i) l.

(** processor.py:300-324 for a non-empty list of durations *)
Definition timer_stats (percent : Z) (durations : list num) : res (num * num * num * num * Z) :=
  (* mean, upper, threshold_upper, lower, count *)
  let timers := nsort durations in
  let count := Z.of_nat (length timers) in
  match timers !! 0%nat, last timers with
  | Some lower, Some upper =>
      if count >? 1 then
        match trimmed percent count with
        | Exn e => Exn e
        | Ok t =>
            let index := count - t in
            let timers := slice_to index timers in
            match last timers with
            | None => Exn IndexError
            | Some threshold_upper =>
                match pydiv (nsum timers) (nofZ index) with
                | Exn e => Exn e
                | Ok mean => Ok (mean, upper, threshold_upper, lower, count)
                end
            end
        end
      else Ok (lower, upper, upper, lower, count)
  | _, _ => Exn IndexError
  end.

(** flush_timer_metrics, processor.py:297-324; sorted() orders the items by name *)
Definition mp_flush_timer (percent ts : Z) (k : Z -> gen mst) : gen mst :=
  gdict E p_timer (fun key durations s =>
    match durations with
    | [] => (s, Ok None)
    | _ =>
        let s' := set_timer (<[key := []]> (p_timer s)) s in
        match timer_stats percent durations with
        | Exn e => (s', Exn e)
        | Ok (mean, upper, tupper, lower, count) =>
            let item (suffix : str) (v : pval) := DP (timer_prefix ++ key ++ suffix) v ts in
            (s', Ok (Some ([item (B ".count") (VI count); item (B ".lower") (VF lower);
                            item (B ".mean") (VF mean); item (B ".upper") (VF upper);
                            item (B ".upper_" ++ show_Z percent) (VF tupper)], no_post)))
        end
    end) k.

(** flush_gauge_metrics, processor.py:326-331: a deque; appending to it during
    the iteration makes the iterator raise RuntimeError *)
Definition mp_flush_gauge (ts : Z) (k : Z -> gen mst) : gen mst :=
  GAct (fun s =>
    let entries := p_gauge s in
    (s, giter entries (fun s' => length (p_gauge s') =? length entries)%nat
          (fun '(v, key) s' =>
             (s', Ok (Some ([DP (gauge_prefix ++ key ++ B ".value") (VF v) ts], no_post)))) 0 k)).

(** flush_meter_metrics, processor.py:333-336 (not overridden) *)
Definition flush_meter {TM CM GM} (ts : Z) (k : Z -> gen (pst TM CM GM)) : gen (pst TM CM GM) :=
  gdict E p_meter (fun key m s =>
    let '(m', r) := meter_report m ts in
    let s' := set_meter (<[key := m']> (p_meter s)) s in
    match r with
    | Exn e => (s', Exn e)
    | Ok ms => (s', Ok (Some (ms, no_post)))
    end) k.

Definition mp_cls (plugins : list factory) : cls :=
  Cls (fun kind => B "stats." ++ kind)                          (* processor.py:145-146 *)
      (B "statsd.")                                             (* processor.py:90 *)
      (plugin_table plugins)
      mp_compose_timer mp_process_counter mp_compose_gauge
      (compose_meter (B "stats.meter"))
      mp_flush_counter mp_flush_timer mp_flush_gauge flush_meter.

Definition mp_init : mst := empty_state [].

(** get_metric_names, processor.py:112-120, as a set *)
Definition mp_metric_names (s : mst) : gset str :=
  dom (p_timer s) ∪ dom (p_counter s) ∪ list_to_set (map snd (p_gauge s))
  ∪ dom (p_meter s) ∪ dom (p_plug s).

End compliant.
End processor.

Arguments PST {NN TM CM GM}.
Arguments p_timer {NN TM CM GM}.
Arguments p_counter {NN TM CM GM}.
Arguments p_gauge {NN TM CM GM}.
Arguments p_meter {NN TM CM GM}.
Arguments p_plug {NN TM CM GM}.
Arguments p_ptime {NN TM CM GM}.
Arguments p_btype {NN TM CM GM}.
Arguments p_lfd {NN TM CM GM}.
Arguments p_lpd {NN TM CM GM}.
Arguments p_w {NN TM CM GM}.
Arguments p_bad {NN TM CM GM}.
Arguments p_info {NN TM CM GM}.
Arguments Cls {NN TM CM GM}.
Arguments c_prefix {NN TM CM GM}.
Arguments c_internal {NN TM CM GM}.
Arguments c_plugins {NN TM CM GM}.
Arguments c_compose_timer {NN TM CM GM}.
Arguments c_process_counter {NN TM CM GM}.
Arguments c_compose_gauge {NN TM CM GM}.
Arguments c_compose_meter {NN TM CM GM}.
Arguments c_flush_counter {NN TM CM GM}.
Arguments c_flush_timer {NN TM CM GM}.
Arguments c_flush_gauge {NN TM CM GM}.
Arguments c_flush_meter {NN TM CM GM}.
