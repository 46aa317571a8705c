(** The server side metric reporters: txstatsd/metrics/{countermetric,gaugemetric,
    metermetric,timermetric,slimetric,distinctmetric}.py and the stock plugins
    twisted/plugins/{sli,distinct}_plugin.py *)
From Verif Require Import Base Num Env Stats Glob.

Section metrics.
Context `{NN : Num}.

(** A reported value is a python int or float. *)
Inductive pval := VI (z : Z) | VF (x : num).
(** A datapoint: the tuple (name, value, timestamp) yielded by flush. *)
Record dp := DP { dp_name : str; dp_value : pval; dp_ts : Z }.

(** The idiom [if prefix: prefix += "."] (countermetric.py:78-80,
    gaugemetric.py:55-57, metermetric.py:65-67, timermetric.py:69-71,
    distinctmetric.py:139-141) *)
Definition dotted (prefix : str) : str :=
  match prefix with [] => [] | _ => prefix ++ B "." end.

(** ** countermetric.py:68-88 CounterMetricReporter *)
Record counter := Counter { ct_name : str; ct_prefix : str; ct_count : num }.
Definition counter_new (name prefix : str) : counter := Counter name (dotted prefix) n0.
Definition counter_mark (c : counter) (v : num) : counter := Counter (ct_name c) (ct_prefix c) v.
Definition counter_report (c : counter) (ts : Z) : res (list dp) :=
  match ntrunc (ct_count c) with
  | Exn e => Exn e
  | Ok z => Ok [DP (ct_prefix c ++ ct_name c ++ B ".count") (VI z) ts]
  end.

(** ** gaugemetric.py:45-64 GaugeMetricReporter *)
Record gauge := Gauge { ga_name : str; ga_prefix : str; ga_value : num }.
Definition gauge_new (name prefix : str) : gauge := Gauge name (dotted prefix) n0.
Definition gauge_mark (g : gauge) (v : num) : gauge := Gauge (ga_name g) (ga_prefix g) v.
Definition gauge_report (g : gauge) (ts : Z) : list dp :=
  [DP (ga_prefix g ++ ga_name g ++ B ".value") (VF (ga_value g)) ts].

(** ** metermetric.py:50-105 MeterMetricReporter *)
Record meter := Meter { me_name : str; me_prefix : str; me_value : num; me_count : num; me_poll : num }.
(** metermetric.py:56-70 *)
Definition meter_new (E : env) (name prefix : str) (w : world) : meter * world :=
  let '(t, w') := now E w in (Meter name (dotted prefix) n0 n0 t, w').
(** metermetric.py:72-79 *)
Definition meter_mark (m : meter) (v : num) : meter :=
  Meter (me_name m) (me_prefix m) (nadd (me_value m) v) (me_count m) (me_poll m).
(** metermetric.py:81-105; the poll time is replaced first.  The subtraction
    poll_time - poll_prev cannot be 0 for finite distinct readings, but the
    division is checked as python does. *)
Definition meter_report (m : meter) (ts : Z) : meter * res (list dp) :=
  let prev := me_poll m in
  let poll := nofZ ts in
  if neqb poll prev then (Meter (me_name m) (me_prefix m) (me_value m) (me_count m) poll, Ok [])
  else match pydiv (me_value m) (nsub poll prev) with
       | Exn e => (Meter (me_name m) (me_prefix m) (me_value m) (me_count m) poll, Exn e)
       | Ok rate =>
           let count := nadd (me_count m) (me_value m) in
           (Meter (me_name m) (me_prefix m) n0 count poll,
            Ok [DP (me_prefix m ++ me_name m ++ B ".count") (VF (nround 6 count)) ts;
                DP (me_prefix m ++ me_name m ++ B ".rate") (VF (nround 6 rate)) ts])
       end.

(** ** timermetric.py:52-153 TimerMetricReporter *)
Record timer := Timer { ti_name : str; ti_prefix : str; ti_hist : hist; ti_count : Z; ti_last : num }.
Definition reservoir_1028 : nat := Z.to_nat 1028.
(** timermetric.py:79-84 *)
Definition timer_clear (t : timer) (ts : num) : timer :=
  Timer (ti_name t) (ti_prefix t) (h_clear (ti_hist t)) (ti_count t) ts.
(** timermetric.py:58-77 *)
Definition timer_new (E : env) (name prefix : str) (w : world) : timer * world :=
  let '(t, w') := now E w in
  (timer_clear (Timer name (dotted prefix) (h_new (us_new reservoir_1028)) 0 n0) t, w').
(** timermetric.py:86-91 *)
Definition timer_rate (t : timer) (ts : Z) : res num :=
  let dt := nsub (nofZ ts) (ti_last t) in
  if neqb dt n0 then Ok n0 else pydiv (nofZ (h_count (ti_hist t))) dt.
(** timermetric.py:127-134 *)
Definition timer_update (E : env) (t : timer) (d : num) (w : world) : timer * world :=
  if nleb n0 d
  then let '(h, w') := h_update E (ti_hist t) d w in
       (Timer (ti_name t) (ti_prefix t) h (ti_count t + 1) (ti_last t), w')
  else (Timer (ti_name t) (ti_prefix t) (ti_hist t) (ti_count t + 1) (ti_last t), w).

Definition lit (m e : Z) : num := nlit (FDec false m e).

(** timermetric.py:136-153; the items are emitted in the order of the sorted
    keys; nothing is cleared if something raises *)
Definition timer_report (t : timer) (ts : Z) : timer * res (list dp) :=
  let h := ti_hist t in
  match h_percentiles h [lit 5 (-1); lit 75 (-2); lit 95 (-2); lit 98 (-2); lit 99 (-2); lit 999 (-3)] with
  | Exn e => (t, Exn e)
  | Ok ps =>
      match h_stddev h with
      | Exn e => (t, Exn e)
      | Ok sd =>
          match ps !! 4%nat, ps !! 5%nat with
          | Some p99, Some p999 =>
              match timer_rate t ts with
              | Exn e => (t, Exn e)
              | Ok rate =>
                  let item (suffix : str) (v : num) :=
                    DP (ti_prefix t ++ ti_name t ++ suffix) (VF (nround 6 v)) ts in
                  (timer_clear t (nofZ ts),
                   Ok [item (B ".999percentile") p999; item (B ".99percentile") p99;
                       item (B ".count") (nofZ (ti_count t));
                       item (B ".max") (h_get_max h); item (B ".mean") (h_mean h);
                       item (B ".min") (h_get_min h); item (B ".rate") rate;
                       item (B ".stddev") sd])
              end
          | _, _ => (t, Exn IndexError)
          end
      end
  end.

(** ** slimetric.py *)
(** slimetric.py:23-50, the condition objects *)
Inductive cond := Below (value slope : num) | Above (value slope : num) | Between (low hi : num).
Definition cond_holds (c : cond) (value size : num) : bool :=
  match c with
  | Below v s => nltb value (nadd v (nmul s size))
  | Above v s => nltb (nadd v (nmul s size)) value
  | Between lo hi => nltb lo value && nltb value hi
  end.

Record sli := Sli {
  sl_name : str; sl_conds : gmap str cond;
  sl_counts : gmap str Z; sl_count : Z; sl_error : Z }.
(** slimetric.py:54-63 *)
Definition sli_clear (s : sli) : sli :=
  Sli (sl_name s) (sl_conds s) ((fun _ => 0) <$> sl_conds s) 0 0.
Definition sli_new (name : str) (conds : gmap str cond) : sli :=
  sli_clear (Sli name conds ∅ 0 0).
(** slimetric.py:75-82.  [counts[k] += 1] for every condition that holds; the
    keys of counts are the keys of conditions, so the order is irrelevant. *)
Definition sli_update (s : sli) (value : option num) (size : num) : sli :=
  match value with
  | None => (* "error" *)
      Sli (sl_name s) (sl_conds s) (sl_counts s) (sl_count s + 1) (sl_error s + 1)
  | Some v =>
      Sli (sl_name s) (sl_conds s)
          (map_imap (fun k n => match sl_conds s !! k with
                                | Some c => Some (if cond_holds c v size then n + 1 else n)
                                | None => Some n
                                end) (sl_counts s))
          (sl_count s + 1) (sl_error s)
  end.
(** slimetric.py:65-73; the size is parsed first *)
Definition sli_process (s : sli) (fields : list str) : sli * res unit :=
  let size := match fields with
              | [_; _; f] => match float_of f with Some x => Ok x | None => Exn ValueError end
              | _ => Ok n1
              end in
  match size with
  | Exn e => (s, Exn e)
  | Ok sz =>
      match fields with
      | [] => (s, Exn IndexError)
      | f :: _ =>
          if str_eqb f (B "error") then (sli_update s None sz, Ok tt)
          else match float_of f with
               | Some v => (sli_update s (Some v) sz, Ok tt)
               | None => (s, Exn ValueError)
               end
      end
  end.
(** slimetric.py:84-95; counts are listed in dictionary order *)
Definition sli_flush (E : env) (s : sli) (ts : Z) (w : world) : sli * list dp * world :=
  let '(ks, w') := dict_keys E (sl_counts s) w in
  let items := flat_map (fun k => match sl_counts s !! k with
                                  | Some n => [DP (sl_name s ++ B ".count_" ++ k) (VI n) ts]
                                  | None => []
                                  end) ks in
  (sli_clear s,
   items ++ [DP (sl_name s ++ B ".count") (VI (sl_count s)) ts;
             DP (sl_name s ++ B ".error") (VI (sl_error s)) ts], w').

(** ** distinctmetric.py *)

(** distinctmetric.py:51-57 *)
Definition sbox_hash (table : ascii -> N) (data : str) : N :=
  fold_left (fun value c => N.land (N.lxor value (table c) * 3) (N.ones 32)) data 0%N.

(** distinctmetric.py:66-78, the loop with explicit fuel *)
Fixpoint zeros_loop (fuel : nat) (n : N) (i count : N) : option N :=
  match fuel with
  | O => None
  | S f =>
      let v := N.shiftr n i in
      if (v =? 0)%N then Some count
      else if N.odd v then Some count
      else zeros_loop f n (i + 1) (count + 1)
  end.
Definition zeros (n : N) : N :=
  match zeros_loop (S (N.size_nat n)) n 0 0 with Some c => c | None => 0 end.

(** distinctmetric.py:84-89 SlidingDistinctCounter *)
Record distinct := Distinct { ds_hashes : list (ascii -> N); ds_buckets : list (list num); ds_nb : nat }.
Fixpoint draw_tables (E : env) (n : nat) (w : world) : list (ascii -> N) * world :=
  match n with
  | O => ([], w)
  | S n' => let '(t, w1) := draw_table E w in
            let '(ts, w2) := draw_tables E n' w1 in (t :: ts, w2)
  end.
Definition distinct_new (E : env) (n_hashes n_buckets : nat) (w : world) : distinct * world :=
  let '(hs, w') := draw_tables E n_hashes w in
  (Distinct hs (replicate n_hashes (replicate n_buckets n0)) n_buckets, w').

(** bucket hit by an item: min(self.n_buckets - 1, zeros(value)) *)
Definition bucket_of (nb : nat) (h : ascii -> N) (item : str) : nat :=
  Nat.min (nb - 1) (N.to_nat (zeros (sbox_hash h item))).
(** distinctmetric.py:91-94 *)
Definition distinct_add (d : distinct) (t : num) (item : str) : distinct :=
  Distinct (ds_hashes d)
           (zip_with (fun h row => <[bucket_of (ds_nb d) h item := t]> row)
                     (ds_hashes d) (ds_buckets d))
           (ds_nb d).

(** distinctmetric.py:99-103: number of leading buckets newer than [since] *)
Fixpoint least0 (since : num) (row : list num) : Z :=
  match row with
  | [] => 0
  | b :: row' => if nleb b since then 0 else 1 + least0 since row'
  end.

(** distinctmetric.py:105-106: int((2 ** (total / n)) / 0.77351), computed
    exactly: the largest k with (0.77351 k)^n <= 2^total.  Floating point could
    differ from it only when the quotient is within rounding of an integer. *)
Definition est_ok (total n k : Z) : bool :=
  (77351 * k) ^ n <=? 2 ^ total * 100000 ^ n.
Fixpoint est_bits (total n : Z) (b : nat) (k : Z) : Z :=
  match b with
  | O => k
  | S b' => let k' := k + 2 ^ Z.of_nat b' in
            est_bits total n b' (if est_ok total n k' then k' else k)
  end.
Definition estimate (total n : Z) : Z := est_bits total n (Z.to_nat (total / n + 2)) 0.

(** distinctmetric.py:96-106 *)
Definition distinct_total (d : distinct) (since : num) : Z :=
  fold_right (fun row acc => least0 since row + acc) 0 (ds_buckets d).
Definition distinct_count (d : distinct) (since : num) : res Z :=
  match ds_hashes d with
  | [] => Exn ZeroDivisionError
  | _ => Ok (estimate (distinct_total d since) (Z.of_nat (length (ds_hashes d))))
  end.

(** distinctmetric.py:120-170 DistinctMetricReporter *)
Record dmetric := DMetric { dm_name : str; dm_prefix : str; dm_counter : distinct }.
Definition dmetric_new (E : env) (name prefix : str) (w : world) : dmetric * world :=
  let '(d, w') := distinct_new E 32 32 w in (DMetric name (dotted prefix) d, w').
(** distinctmetric.py:155-159 *)
Definition dmetric_process (E : env) (d : dmetric) (fields : list str) (w : world)
  : dmetric * res unit * world :=
  match fields with
  | [] => (d, Exn IndexError, w)
  | f :: _ => let '(t, w') := now E w in
              (DMetric (dm_name d) (dm_prefix d) (distinct_add (dm_counter d) t f), Ok tt, w')
  end.
(** distinctmetric.py:161-170, items in the order of the sorted keys *)
Definition dmetric_flush (E : env) (d : dmetric) (ts : Z) (w : world) : res (list dp) * world :=
  let '(t, w') := now E w in
  let c := dm_counter d in
  let item (suffix : str) (v : Z) := DP (dm_prefix d ++ dm_name d ++ suffix) (VI v) ts in
  (match distinct_count c n0, distinct_count c (nsub t (nofZ 60)),
         distinct_count c (nsub t (nofZ 3600)), distinct_count c (nsub t (nofZ 86400)) with
   | Ok all, Ok m1, Ok h1, Ok d1 =>
       Ok [item (B ".count") all; item (B ".count_1day") d1;
           item (B ".count_1hour") h1; item (B ".count_1min") m1]
   | Exn e, _, _, _ => Exn e
   | _, Exn e, _, _ => Exn e
   | _, _, Exn e, _ => Exn e
   | _, _, _, Exn e => Exn e
   end, w').

(** ** The stock plugin factories *)

(** sli_plugin.py:40-41: config maps a head pattern to labelled conditions;
    kept as an association list in dictionary order *)
Inductive factory := FSli (config : list (str * gmap str cond)) | FDistinct.
(** sli_plugin.py:37-38, distinct_plugin.py:32-33 *)
Definition factory_name (f : factory) : str :=
  match f with FSli _ => B "SLI" | FDistinct => B "pdistinct" end.
Definition factory_type (f : factory) : str :=
  match f with FSli _ => B "sli" | FDistinct => B "pd" end.

Inductive plug := PSli (s : sli) | PDist (d : dmetric).

(** sli_plugin.py:44-49 *)
Definition sli_path (prefix name : str) : str :=
  match prefix with
  | [] => name
  | _ => (if match last prefix with Some c => eqc c "." | None => false end
          then prefix else prefix ++ B ".") ++ name
  end.
(** sli_plugin.py:50-54: [result.update(conditions)] for matching patterns, the
    later pattern winning.  A pattern rejected by the regex compiler raises. *)
Fixpoint sli_conditions (path : str) (config : list (str * gmap str cond)) (acc : gmap str cond)
  : res (gmap str cond) :=
  match config with
  | [] => Ok acc
  | (pat, conds) :: rest =>
      match fnmatch path pat with
      | Exn e => Exn e
      | Ok true => sli_conditions path rest (conds ∪ acc)
      | Ok false => sli_conditions path rest acc
      end
  end.
(** sli_plugin.py:43-54, distinct_plugin.py:35-37 *)
Definition build_metric (E : env) (f : factory) (prefix name : str) (w : world) : res plug * world :=
  match f with
  | FSli config =>
      let path := sli_path prefix name in
      (match sli_conditions path config ∅ with
       | Ok cs => Ok (PSli (sli_new path cs))
       | Exn e => Exn e
       end, w)
  | FDistinct => let '(d, w') := dmetric_new E name prefix w in (Ok (PDist d), w')
  end.
Definition plug_process (E : env) (p : plug) (fields : list str) (w : world) : plug * res unit * world :=
  match p with
  | PSli s => let '(s', r) := sli_process s fields in (PSli s', r, w)
  | PDist d => let '(d', r, w') := dmetric_process E d fields w in (PDist d', r, w')
  end.
Definition plug_flush (E : env) (p : plug) (ts : Z) (w : world) : plug * res (list dp) * world :=
  match p with
  | PSli s => let '(s', l, w') := sli_flush E s ts w in (PSli s', Ok l, w')
  | PDist d => let '(r, w') := dmetric_flush E d ts w in (PDist d, r, w')
  end.

End metrics.
