(** What the options, the destinations and the carbon statistics should be. *)
From Verif Require Import Base Num Metrics Service LineSpec RouterSpec ProcessSpec.
From Coq Require Import Sorting.Sorted.

(** ** Options *)
(** the options of the manual: name, letter, value when not given, and how it is read *)
Definition documented : list (str * ascii * oval * okind) :=
  [(B "config", "c"%char, ONone, KStr);
   (B "carbon-cache-host", "h"%char, OL [], KHost); (B "carbon-cache-port", "p"%char, OL [], KPort);
   (B "carbon-cache-name", "n"%char, OL [], KName);
   (B "listen-port", "l"%char, OI 8125, KInt); (B "listen-tcp-port", "t"%char, ONone, KInt); (B "http-port", "P"%char, ONone, KInt);
   (B "flush-interval", "i"%char, OI 60000, KInt);
   (B "prefix", "x"%char, ONone, KStr); (B "instance-name", "N"%char, ONone, KStr);
   (B "report", "r"%char, ONone, KStr); (B "routing", "g"%char, OS [], KStr);
   (B "monitor-message", "m"%char, OS (B "txstatsd ping"), KStr); (B "monitor-response", "o"%char, OS (B "txstatsd pong"), KStr);
   (B "statsd-compliance", "s"%char, OI 1, KInt); (B "dump-mode", "d"%char, OI 0, KInt);
   (B "max-queue-size", "Q"%char, OI 20000, KInt); (B "max-datapoints-per-message", "M"%char, OI 1000, KInt)].
(** the flag names the option *)
Definition names (f : flag) (n : str) : Prop :=
  exists c d k, In (n, c, d, k) documented /\ (f = FLong n \/ f = FShort c).
(** the values a command line gives to an option *)
Inductive given (n : str) : list (flag * str) -> list str -> Prop :=
| gv_none : given n [] []
| gv_hit f v args vs : names f n -> given n args vs -> given n ((f, v) :: args) (v :: vs)
| gv_miss f v args vs : ~ names f n -> given n args vs -> given n ((f, v) :: args) vs.
(** order of section names: by bytes *)
Inductive before : str -> str -> Prop :=
| bf_shorter c b : before [] (c :: b)
| bf_here x y a b : code x < code y -> before (x :: a) (y :: b)
| bf_later x a b : before a b -> before (x :: a) (x :: b).
(** the entries of a file that can set options: those of [statsd], then those of the
    sections whose name begins with carbon-cache, by name *)
Definition entries (file : list section) (es : list (str * str)) : Prop :=
  exists items secs, In (B "statsd", items) file /\ Permutation secs file /\
    StronglySorted (fun s t => before (fst s) (fst t)) secs /\
    es = items ++ concat (map snd (filter (fun s => B "carbon-cache" `prefix_of` fst s) secs)).
(** the configuration file the command line asks for *)
Definition config_path (args : list (flag * str)) (path : option str) : Prop :=
  exists ps, given (B "config") args ps /\ last ps = path.
(** the values of the configuration file that count for an option *)
Inductive from_file (files : str -> list section) (args : list (flag * str)) (n : str) : list str -> Prop :=
| ff_none : config_path args None -> from_file files args n []
| ff_overridden path : config_path args (Some path) -> In (FLong n) (map fst args) -> from_file files args n []
| ff_entries path es : config_path args (Some path) -> ~ In (FLong n) (map fst args) -> entries (files path) es ->
    from_file files args n (map snd (filter (fun e => fst e = n) es)).
Definition supplied (files : str -> list section) (args : list (flag * str)) (n : str) (vs : list str) : Prop :=
  exists gs cs, given n args gs /\ from_file files args n cs /\ vs = gs ++ cs.
(** how the text of a value is read *)
Inductive reads_as : okind -> str -> oval -> Prop :=
| ra_str v : reads_as KStr v (OS v)
| ra_host v : reads_as KHost v (OS v)
| ra_name v : reads_as KName v (OS v)
| ra_int v z : int_text v z -> reads_as KInt v (OI z)
| ra_port v z : int_text v z -> 0 <= z <= 65535 -> reads_as KPort v (OI z).
(** the option's value: all of them for the three lists, else the last one *)
Definition settled (k : okind) (default : oval) (xs : list oval) : oval :=
  match k with
  | KHost | KPort | KName => OL xs
  | _ => match last xs with Some x => x | None => default end
  end.

(** ** Sending *)
(** what carbon is sent for a datapoint *)
Definition as_sent {NN : Num} (d : dp) : str * (Z * pval) := (dp_name d, (dp_ts d, dp_value d)).

(** ** The status page *)
(** the durations of a flush's own statistics, in milliseconds *)
Definition reported_ms {NN : Num} (d : dp) : option num :=
  match dp_value d with
  | VF x => if decide (B "statsd." `prefix_of` dp_name d) then
              if decide (B ".duration" `suffix_of` dp_name d) then Some x else None
            else None
  | _ => None
  end.
