(** txstatsd/server/configurableprocessor.py and loggingprocessor.py *)
From Verif Require Import Base Num Env Stats Glob Metrics Gen Processor.

Section configurable.
Context `{NN : Num} (E : env).

(** reporter objects instead of raw values; gauges in a dict
    (configurableprocessor.py:56) *)
Definition cst := pst timer counter (gmap str gauge).

Context (message_prefix : str).

(** configurableprocessor.py:49-53 *)
Definition internal_prefix (given : str) : str :=
  match given, message_prefix with
  | [], [] => B "statsd."
  | [], _ => message_prefix ++ B "." ++ B "statsd."
  | _, _ => given
  end.

(** configurableprocessor.py:61-67 *)
Definition cp_compose_timer (key : str) (d : num) : M cst unit :=
  (fun s => match p_timer s !! key with
            | Some _ => (s, Ok tt)
            | None => let '(t, w) := timer_new E key message_prefix (p_w s) in
                      (set_timer (<[key := t]> (p_timer s)) (set_w w s), Ok tt)
            end) ;!
  mod_ (fun s => match p_timer s !! key with
                 | Some t => let '(t', w) := timer_update E t d (p_w s) in
                             set_timer (<[key := t']> (p_timer s)) (set_w w s)
                 | None => s                                     (* unreachable *)
                 end).

(** configurableprocessor.py:69-81: the sample rate is ignored, the last value wins *)
Definition cp_compose_counter (key : str) (v : num) : M cst unit :=
  mod_ (fun s =>
    let c := match p_counter s !! key with
             | Some c => c
             | None => counter_new key message_prefix
             end in
    set_counter (<[key := counter_mark c v]> (p_counter s)) s).
Definition cp_process_counter (key : str) (composite : list str) (message : str) : M cst unit :=
  match composite with
  | [] => raise IndexError                                        (* unreachable *)
  | f0 :: _ => match float_of f0 with
               | None => fail message
               | Some v => cp_compose_counter key v
               end
  end.

(** configurableprocessor.py:83-87 *)
Definition cp_compose_gauge (key : str) (v : num) : M cst unit :=
  mod_ (fun s =>
    let g := match p_gauge s !! key with
             | Some g => g
             | None => gauge_new key message_prefix
             end in
    set_gauge (<[key := gauge_mark g v]> (p_gauge s)) s).

(** configurableprocessor.py:96-99 *)
Definition cp_flush_counter (interval ts : Z) (k : Z -> gen cst) : gen cst :=
  gdict E p_counter (fun key c s =>
    match counter_report c ts with
    | Exn e => (s, Exn e)
    | Ok ms => (s, Ok (Some (ms, no_post)))
    end) k.

(** configurableprocessor.py:101-104 *)
Definition cp_flush_gauge (ts : Z) (k : Z -> gen cst) : gen cst :=
  gdict E p_gauge (fun key g s => (s, Ok (Some (gauge_report g ts, no_post)))) k.

(** configurableprocessor.py:106-109; percent is ignored *)
Definition cp_flush_timer (percent ts : Z) (k : Z -> gen cst) : gen cst :=
  gdict E p_timer (fun key t s =>
    let '(t', r) := timer_report t ts in
    let s' := set_timer (<[key := t']> (p_timer s)) s in
    match r with
    | Exn e => (s', Exn e)
    | Ok ms => (s', Ok (Some (ms, no_post)))
    end) k.

Definition cp_cls (internal_metrics_prefix : str) (plugins : list factory) : cls :=
  Cls (fun _ => message_prefix)                       (* configurableprocessor.py:58-59 *)
      (internal_prefix internal_metrics_prefix)
      (plugin_table plugins)
      cp_compose_timer cp_process_counter cp_compose_gauge
      (compose_meter E message_prefix)                (* configurableprocessor.py:89-94 *)
      cp_flush_counter cp_flush_timer cp_flush_gauge (flush_meter E).

Definition cp_init : cst := empty_state ∅.

(** get_metric_names, processor.py:112-120.  [v for k, v in self.gauge_metrics]
    iterates over the keys of the gauge dictionary and unpacks each key string
    into two characters: ValueError unless every gauge name has length two. *)
Definition cp_metric_names (s : cst) : res (gset str) :=
  if forallb (fun k => length k =? 2)%nat (map_to_list (p_gauge s)).*1
  then Ok (dom (p_timer s) ∪ dom (p_counter s)
           ∪ list_to_set (map (fun k => drop 1 k) ((map_to_list (p_gauge s)).*1))
           ∪ dom (p_meter s) ∪ dom (p_plug s))
  else Exn ValueError.

(** ** LoggingMessageProcessor, loggingprocessor.py *)

Definition log_ent {TM CM GM} (e : logent) (s : pst TM CM GM) : pst TM CM GM :=
  set_info (e :: p_info s) s.

(** loggingprocessor.py:42-45 *)
Definition lp_process_message (C : cls) (message metric_type key : str) (fields : list str) : M cst unit :=
  mod_ (log_ent (LIn message)) ;! process_message E C message metric_type key fields.
Definition lp_process (C : cls) (message : str) : M cst unit :=
  base_process fail (lp_process_message C) message.

(** loggingprocessor.py:47-54 *)
Fixpoint emit_logged (ms : list dp) (k : gen cst) : gen cst :=
  match ms with
  | [] => k
  | d :: ms' => GAct (fun s => (log_ent (LOut d) s, GEmit [d] (emit_logged ms' k)))
  end.
Fixpoint glog (g : gen cst) : gen cst :=
  match g with
  | GRet => GRet
  | GRaise e => GRaise e
  | GAct f => GAct (fun s => match f s with (s', g') => (s', glog g') end)
  | GEmit ms k => emit_logged ms (glog k)
  end.
Definition lp_flush (C : cls) (interval_ms percent : Z) : gen cst := glog (flush E C interval_ms percent).

End configurable.
