(** What a flush reports, stated without the processor: the datapoints of each
    kind of metric, and which series names belong to which metric. *)
From Verif Require Import Base Num Metrics TimerFacts.

Section spec.
Context `{NN : Num}.

Definition starts (p s : str) : Prop := exists r, s = p ++ r.
Definition named (p : str) (d : dp) : Prop := starts p (dp_name d).

(** two datapoints per counter: per-second value and count *)
Definition counter_lines (seconds ts : Z) (kv : str * num) : list dp :=
  [DP (B "stats." ++ fst kv) (VF (ndiv (snd kv) (nofZ seconds))) ts;
   DP (B "stats_counts." ++ fst kv) (VF (snd kv)) ts].

(** five datapoints per timer that received something *)
Definition timer_lines (percent ts : Z) (kv : str * list num) (l : list dp) : Prop :=
  (snd kv = [] /\ l = []) \/
  (snd kv <> [] /\ exists lower mean upper tupper count,
     order_stats percent (snd kv) lower mean upper tupper count /\
     l = [DP (B "stats.timers." ++ fst kv ++ B ".count") (VI count) ts;
          DP (B "stats.timers." ++ fst kv ++ B ".lower") (VF lower) ts;
          DP (B "stats.timers." ++ fst kv ++ B ".mean") (VF mean) ts;
          DP (B "stats.timers." ++ fst kv ++ B ".upper") (VF upper) ts;
          DP (B "stats.timers." ++ fst kv ++ B ".upper_" ++ show_Z percent) (VF tupper) ts]).

Definition gauge_line (ts : Z) (vk : num * str) : dp :=
  DP (B "stats.gauge." ++ snd vk ++ B ".value") (VF (fst vk)) ts.

(** two datapoints of the summary, for a kind of metric or a message type *)
Definition summary_lines (what : str) (ts : Z) (name : str) (count : Z) (duration : num) : list dp :=
  [DP (B "statsd." ++ what ++ B "." ++ name ++ B ".count") (VI count) ts;
   DP (B "statsd." ++ what ++ B "." ++ name ++ B ".duration") (VF (nmul duration (nofZ 1000))) ts].

Definition nonempty {A} (l : list A) : bool := match l with [] => false | _ => true end.
End spec.

(** the series names a counter, a timer or a gauge is reported under *)
Definition counter_series (k n : str) : Prop := n = B "stats." ++ k \/ n = B "stats_counts." ++ k.
Definition timer_series (percent : Z) (k n : str) : Prop :=
  exists suffix, In suffix [B ".count"; B ".lower"; B ".mean"; B ".upper"; B ".upper_" ++ show_Z percent] /\
    n = B "stats.timers." ++ k ++ suffix.
Definition gauge_series (k n : str) : Prop := n = B "stats.gauge." ++ k ++ B ".value".
