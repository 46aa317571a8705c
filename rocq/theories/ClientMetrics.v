(** The client side metrics API: txstatsd/metrics/metric.py, metrics.py,
    extendedmetrics.py and the client halves of gaugemetric.py, metermetric.py,
    countermetric.py, timermetric.py, distinctmetric.py. *)
From Verif Require Import Base Num.

Section client.
Context `{NN : Num}.

(** A python value given to the API.  Simplification: integers, floats and byte
    strings only (no unicode objects, tuples or None as a value). *)
Inductive val : Type := VInt (z : Z) | VFlt (x : num) | VStr (s : str).

(** What the methods take from outside. *)
Record cenv : Type := CEnv {
  c_now : nat -> num;                (* n-th reading of time.time() *)
  c_rand : nat -> num;               (* n-th result of random.random() *)
  c_show : num -> str;               (* str(x) of a float *)
}.
(** metrics.py:42-54 [Metrics(connection, namespace)] or
    extendedmetrics.py:29-41 [ExtendedMetrics(connection, namespace)] *)
Record mconf : Type := MConf {
  m_ext : bool;                      (* ExtendedMetrics *)
  m_conn : bool;                     (* connection is not None *)
  m_ns : option str;                 (* namespace, possibly None *)
}.
Context (E : cenv) (P : mconf).

(** ["%s" % v] *)
Definition show (v : val) : str :=
  match v with VInt z => show_Z z | VFlt x => c_show E x | VStr s => s end.
(** [a + b], [a - b] on values: a string raises TypeError with a number.
    (Only used with a number on the left.) *)
Definition padd (a b : val) : res val :=
  match a, b with
  | VInt x, VInt y => Ok (VInt (x + y))
  | VInt x, VFlt y => Ok (VFlt (nadd (nofZ x) y))
  | VFlt x, VInt y => Ok (VFlt (nadd x (nofZ y)))
  | VFlt x, VFlt y => Ok (VFlt (nadd x y))
  | _, _ => Exn TypeError
  end.
Definition psub (a b : val) : res val :=
  match a, b with
  | VInt x, VInt y => Ok (VInt (x - y))
  | VInt x, VFlt y => Ok (VFlt (nsub (nofZ x) y))
  | VFlt x, VInt y => Ok (VFlt (nsub x (nofZ y)))
  | VFlt x, VFlt y => Ok (VFlt (nsub x y))
  | _, _ => Exn TypeError
  end.
(** [-v]; a float is negated exactly, here as (-1)*x *)
Definition pneg (v : val) : res val :=
  match v with
  | VInt z => Ok (VInt (- z))
  | VFlt x => Ok (VFlt (nmul (nofZ (-1)) x))
  | VStr _ => Exn TypeError
  end.
(** [v * 1000]; a string is repeated *)
Definition pmul1000 (v : val) : val :=
  match v with
  | VInt z => VInt (z * 1000)
  | VFlt x => VFlt (nmul x (nofZ 1000))
  | VStr s => VStr (N.iter 1000 (fun r => s ++ r) [])
  end.
(** [v < 1]; python 2 orders every number before every string *)
Definition below_one (v : val) : bool :=
  match v with VInt z => z <? 1 | VFlt x => nltb x n1 | VStr _ => false end.
(** [x > v] for the float [x] *)
Definition above (x : num) (v : val) : bool :=
  match v with VInt z => nltb (nofZ z) x | VFlt y => nltb y x | VStr _ => false end.

(** The metric classes.  [KGeneric key]: metrics.py:29-38 *)
Inductive kind : Type :=
| KPlain | KGauge | KMeter | KDistinct | KGeneric (key : str) | KCounter | KTimer.
(** metric.py:31-43, metrics.py:30-32, countermetric.py:30-42 ([o_count] is only
    used by counters) *)
Record mobj : Type := MObj { o_kind : kind; o_name : str; o_rate : val; o_count : val }.
Definition set_count (v : val) (o : mobj) : mobj := MObj (o_kind o) (o_name o) (o_rate o) v.

(** metrics.py:51-54; [cl_out] are the arguments of [connection.write], oldest
    first.  Simplification: the connection's [write] itself does not raise. *)
Record cst : Type := CSt {
  cl_metrics : gmap str mobj;
  cl_last : val;
  cl_out : list str;
  cl_ticks : nat;                    (* readings of the clock so far *)
  cl_draws : nat;                    (* random numbers so far *)
}.
Definition cl_init : cst := CSt ∅ (VInt 0) [] 0 0.
Definition set_metrics m s := CSt m (cl_last s) (cl_out s) (cl_ticks s) (cl_draws s).
Definition set_last v s := CSt (cl_metrics s) v (cl_out s) (cl_ticks s) (cl_draws s).
Definition set_out o s := CSt (cl_metrics s) (cl_last s) o (cl_ticks s) (cl_draws s).
Definition set_ticks n s := CSt (cl_metrics s) (cl_last s) (cl_out s) n (cl_draws s).
Definition set_draws n s := CSt (cl_metrics s) (cl_last s) (cl_out s) (cl_ticks s) n.

(** time.time() *)
Definition now_ : M cst num := fun s => (set_ticks (S (cl_ticks s)) s, Ok (c_now E (cl_ticks s))).
(** random.random() *)
Definition random_ : M cst num := fun s => (set_draws (S (cl_draws s)) s, Ok (c_rand E (cl_draws s))).

Definition is_ascii (c : ascii) : bool := code c <? 128.
(** metric.py:64-67 [Metric.write]: [str.encode('utf-8')] of a byte string first
    decodes it as ASCII *)
Definition write_ (data : str) : M cst unit :=
  if m_conn P then
    if forallb is_ascii data then mod_ (fun s => set_out (cl_out s ++ [data]) s)
    else raise UnicodeDecodeError
  else ret tt.
(** metric.py:49-62 [Metric.send] *)
Definition send (o : mobj) (data : str) : M cst unit :=
  if below_one (o_rate o) then
    let! r := random_ in
    if above r (o_rate o) then ret tt
    else write_ (o_name o ++ B ":" ++ data ++ B "|@" ++ show (o_rate o))
  else write_ (o_name o ++ B ":" ++ data).

(** metrics.py:167-178 [fully_qualify_name] *)
Definition qualify (name : option str) : str :=
  match name with
  | None => match m_ns P with Some ns => ns | None => [] end
  | Some n =>
      match m_ns P with
      | Some ns => if nonempty ns then ns ++ B "." ++ n else n
      | None => n
      end
  end.

(** [mark(value)] with one argument, by class: GaugeMetric gaugemetric.py:40-42,
    MeterMetric metermetric.py:45-47, DistinctMetric distinctmetric.py:115-117,
    GenericMetric metrics.py:34-38, TimerMetric timermetric.py:47-49; Metric and
    CounterMetric have no [mark]. *)
Definition mark1 (o : mobj) (v : val) : M cst unit :=
  match o_kind o with
  | KPlain | KCounter => raise AttributeError
  | KGauge => send o (show v ++ B "|g")
  | KMeter => send o (show v ++ B "|m")
  | KDistinct => send o (show v ++ B "|d")
  | KGeneric key => send o (show v ++ B "|" ++ key)
  | KTimer => send o (show (pmul1000 v) ++ B "|ms")
  end.
(** [mark(value, extra)] with two arguments: only GenericMetric takes two,
    metrics.py:34-38 *)
Definition mark2 (o : mobj) (v : val) (extra : option val) : M cst unit :=
  match o_kind o with
  | KPlain | KCounter => raise AttributeError
  | KGeneric key =>
      match extra with
      | None => send o (show v ++ B "|" ++ key)
      | Some x => send o (show v ++ B "|" ++ key ++ B "|" ++ show x)
      end
  | _ => raise TypeError
  end.

(** [self._metrics[name]], created with [make] when absent: the first lines of
    every method, e.g. metrics.py:62-67 *)
Definition metric_of (name : str) (k : kind) (rate : val) : M cst mobj :=
  let! s := get_ in
  match cl_metrics s !! name with
  | Some o => ret o
  | None =>
      let o := MObj k name rate (VInt 0) in
      mod_ (fun s => set_metrics (<[name := o]> (cl_metrics s)) s) ;!
      ret o
  end.
(** countermetric.py:44-52, 58-65: the object in the dictionary is updated, then
    the new count is sent *)
Definition store_count (o : mobj) (v : val) : M cst mobj :=
  let o' := set_count v o in
  mod_ (fun s => set_metrics (<[o_name o := o']> (cl_metrics s)) s) ;!
  ret o'.
Definition counter_update (o : mobj) (r : res val) : M cst unit :=
  let! v := lift_ r in
  let! o' := store_count o v in
  send o' (show v ++ B "|c").

(** metrics.py:57-68 [report] *)
Definition m_report (name : option str) (v : val) (t : str) (extra : option val) : M cst unit :=
  let! o := metric_of (qualify name) (KGeneric t) (VInt 1) in
  mark2 o v extra.
(** metrics.py:70-77 [sli], 79-85 [sli_error] *)
Definition m_sli name v size : M cst unit := m_report name v (B "sli") size.
Definition m_sli_error name : M cst unit := m_report name (VStr (B "error")) (B "sli") None.
(** metrics.py:87-95 *)
Definition m_gauge name v rate : M cst unit :=
  let! o := metric_of (qualify name) KGauge rate in mark1 o v.
(** metrics.py:97-105 *)
Definition m_meter name v rate : M cst unit :=
  let! o := metric_of (qualify name) KMeter rate in mark1 o v.
(** metrics.py:107-115, extendedmetrics.py:43-51 *)
Definition m_increment name v rate : M cst unit :=
  if m_ext P then
    let! o := metric_of (qualify name) KCounter rate in
    match o_kind o with
    | KCounter => counter_update o (padd (o_count o) v)
    | _ => raise AttributeError
    end
  else
    let! o := metric_of (qualify name) KPlain rate in send o (show v ++ B "|c").
(** metrics.py:117-125, extendedmetrics.py:53-61 *)
Definition m_decrement name v rate : M cst unit :=
  if m_ext P then
    let! o := metric_of (qualify name) KCounter rate in
    match o_kind o with
    | KCounter => counter_update o (psub (o_count o) v)
    | _ => raise AttributeError
    end
  else
    let! o := metric_of (qualify name) KPlain rate in
    let! w := lift_ (pneg v) in
    send o (show w ++ B "|c").
(** metrics.py:127-129 *)
Definition m_reset_timing : M cst unit :=
  let! t := now_ in mod_ (set_last (VFlt t)).
(** metrics.py:131-136 *)
Definition m_calculate_duration : M cst val :=
  let! t := now_ in
  let! s := get_ in
  let! d := lift_ (psub (VFlt t) (cl_last s)) in
  mod_ (set_last (VFlt t)) ;!
  ret d.
(** metrics.py:138-150, extendedmetrics.py:63-73 *)
Definition m_timing name (duration : option val) rate : M cst unit :=
  let! d := (match duration with None => m_calculate_duration | Some d => ret d end) in
  if m_ext P then
    let! o := metric_of (qualify name) KTimer rate in mark1 o d
  else
    let! o := metric_of (qualify name) KPlain rate in
    send o (show (pmul1000 d) ++ B "|ms").
(** metrics.py:152-157; DistinctMetric is built with the default sample_rate=1 *)
Definition m_distinct name v : M cst unit :=
  let! o := metric_of (qualify name) KDistinct (VInt 1) in mark1 o v.
(** metrics.py:159-165; only CounterMetric.clear does anything (metric.py:45-47,
    countermetric.py:58-61) *)
Definition m_clear name : M cst unit :=
  let! s := get_ in
  match cl_metrics s !! qualify name with
  | None => ret tt
  | Some o => match o_kind o with
              | KCounter => counter_update o (Ok (VInt 0))
              | _ => ret tt
              end
  end.

(** A call of the API; histories are lists of calls, each possibly raising. *)
Inductive call : Type :=
| CReport (n : option str) (v : val) (t : str) (extra : option val)
| CSli (n : option str) (v : val) (size : option val)
| CSliError (n : option str)
| CGauge (n : option str) (v rate : val)
| CMeter (n : option str) (v rate : val)
| CIncrement (n : option str) (v rate : val)
| CDecrement (n : option str) (v rate : val)
| CTiming (n : option str) (d : option val) (rate : val)
| CDistinct (n : option str) (v : val)
| CClear (n : option str)
| CResetTiming.
Definition do_call (c : call) : M cst unit :=
  match c with
  | CReport n v t x => m_report n v t x
  | CSli n v x => m_sli n v x
  | CSliError n => m_sli_error n
  | CGauge n v r => m_gauge n v r
  | CMeter n v r => m_meter n v r
  | CIncrement n v r => m_increment n v r
  | CDecrement n v r => m_decrement n v r
  | CTiming n d r => m_timing n d r
  | CDistinct n v => m_distinct n v
  | CClear n => m_clear n
  | CResetTiming => m_reset_timing
  end.
Definition calls (h : list call) (s : cst) : cst := fold_left (fun s c => fst (do_call c s)) h s.
End client.
