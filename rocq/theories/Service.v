(** txstatsd/service.py and txstatsd/server/httpinfo.py. *)
From Verif Require Import Base Num Env Process Metrics Gen Processor Configurable.

(** ** Options, service.py:64-200 *)
(** how twisted's usage.Options treats a value: [str], [int], or one of the three
    opt_ methods, which append (service.py:193-200) *)
Inductive okind : Type := KStr | KInt | KHost | KPort | KName.
Inductive oval : Type :=
| ONone | OS (s : str) | OI (z : Z) | OL (l : list oval) | OPairs (l : list (str * str)).
(** optParameters, service.py:67-68 and 150-187 with __init__, 189-194: name, letter, default, treatment *)
Definition option_table : list (str * ascii * oval * okind) :=
  [(B "config", "c"%char, ONone, KStr);
   (B "carbon-cache-host", "h"%char, OL [], KHost);
   (B "carbon-cache-port", "p"%char, OL [], KPort);
   (B "carbon-cache-name", "n"%char, OL [], KName);
   (B "listen-port", "l"%char, OI 8125, KInt);
   (B "flush-interval", "i"%char, OI 60000, KInt);
   (B "prefix", "x"%char, ONone, KStr);
   (B "instance-name", "N"%char, ONone, KStr);
   (B "report", "r"%char, ONone, KStr);
   (B "monitor-message", "m"%char, OS (B "txstatsd ping"), KStr);
   (B "monitor-response", "o"%char, OS (B "txstatsd pong"), KStr);
   (B "statsd-compliance", "s"%char, OI 1, KInt);
   (B "dump-mode", "d"%char, OI 0, KInt);
   (B "routing", "g"%char, OS (B ""), KStr);
   (B "listen-tcp-port", "t"%char, ONone, KInt);
   (B "max-queue-size", "Q"%char, OI 20000, KInt);
   (B "max-datapoints-per-message", "M"%char, OI 1000, KInt);
   (B "http-port", "P"%char, ONone, KInt)].
Notation options := (gmap str oval).
(** usage.Options.__init__ and service.py:189-194 *)
Definition options_init : options :=
  list_to_map (map (fun '(n, _, d, _) => (n, d)) option_table).
Definition kind_of (name : str) : option okind :=
  snd <$> List.find (fun '(n, _, _, _) => str_eqb n name) option_table.
Definition of_letter (c : ascii) : option str :=
  (fun '(n, _, _, _) => n) <$> List.find (fun '(_, l, _, _) => eqc l c) option_table.

(** the command line as getopt gives it: abbreviations of long names completed, a
    value for each option.  --help and --version, which print and exit, are left out. *)
Inductive flag : Type := FLong (name : str) | FShort (c : ascii).
(** service.py:93-97: what is recorded as overridden *)
Definition flag_text (f : flag) : str := match f with FLong n => n | FShort c => [c] end.
Definition flag_name (f : flag) : option str :=
  match f with
  | FLong n => match kind_of n with Some _ => Some n | None => None end
  | FShort c => of_letter c
  end.
(** usage.portCoerce *)
Definition port_coerce (v : str) : res Z :=
  rbind (to_int v) (fun z => if (0 <=? z) && (z <=? 65535) then Ok z else Exn ValueError).
Definition append_opt (name : str) (v : oval) (o : options) : options :=
  match o !! name with
  | Some (OL l) => <[name := OL (l ++ [v])]> o
  | _ => o                                                (* always a list: service.py:191-194 *)
  end.
(** a value for an option; [bad] is what a refused int raises: UsageError from the
    command line (CoerceParameter.dispatch), ValueError from a file (its coerce) *)
Definition set_option (bad : exn) (name value : str) (o : options) : res options :=
  match kind_of name with
  | None => Ok o
  | Some KStr => Ok (<[name := OS value]> o)
  | Some KInt => match parse_int value with Some z => Ok (<[name := OI z]> o) | None => Exn bad end
  | Some KHost | Some KName => Ok (append_opt name (OS value) o)
  | Some KPort => rbind (port_coerce value) (fun z => Ok (append_opt name (OI z) o))
  end.
(** service.py:130-142 _coerce_option *)
Definition coerce_option (overridden : list str) (name value : str) (o : options) : res options :=
  if existsb (str_eqb name) overridden then Ok o else set_option ValueError name value o.

(** a configuration file as RawConfigParser reads it: section names and their items,
    each name once and in lower case; an absent file has no sections *)
Notation section := (str * list (str * str))%type.
Fixpoint str_ltb (a b : str) : bool :=
  match a, b with
  | _, [] => false
  | [], _ :: _ => true
  | x :: a', y :: b' => (code x <? code y) || ((code x =? code y) && str_ltb a' b')
  end.
(** [sorted]: by section name *)
Fixpoint sec_insert (x : section) (l : list section) : list section :=
  match l with
  | [] => [x]
  | y :: l' => if str_ltb (fst x) (fst y) then x :: l else y :: sec_insert x l'
  end.
Definition sec_sort (l : list section) : list section := fold_right sec_insert [] l.
Definition find_section (name : str) (f : list section) : option (list (str * str)) :=
  snd <$> List.find (fun s => str_eqb (fst s) name) f.
Definition coerce_items (overridden : list str) (items : list (str * str)) (o : options) : res options :=
  rfold (fun o '(n, v) => coerce_option overridden n v o) items o.
(** service.py:117-128 configure *)
Definition configure (overridden : list str) (file : list section) (o : options) : res options :=
  match find_section (B "statsd") file with
  | None => Exn NoSectionError
  | Some items =>
      rbind (coerce_items overridden items o) (fun o =>
      rfold (fun o '(name, items) =>
               let o := if starts_with (B "plugin_") name then <[name := OPairs items]> o else o in
               if starts_with (B "carbon-cache") name then coerce_items overridden items o else Ok o)
            (sec_sort file) o)
  end.
(** service.py:82-115 parseOptions and postOptions *)
Definition parse_options (files : str -> list section) (args : list (flag * str)) : res options :=
  if forallb (fun '(f, _) => match flag_name f with Some _ => true | None => false end) args then
    let overridden := map (fun '(f, _) => flag_text f) args in
    rbind (rfold (fun o '(f, v) => match flag_name f with Some n => set_option UsageError n v o | None => Ok o end)
                 args options_init) (fun o =>
    match o !! B "config" with
    | Some (OS path) => configure overridden (files path) o
    | _ => Ok o
    end)
  else Exn UsageError.

(** ** createService: the destinations, service.py:301-307 and 331-334 *)
Definition or_default {A} (l : list A) (d : A) : list A := match l with [] => [d] | _ => l end.
Definition destinations (hosts : list str) (ports : list Z) (names : list (option str)) : list (str * Z * option str) :=
  combine (combine (or_default hosts (B "127.0.0.1")) (or_default ports 2004)) (or_default names None).

(** ** report_client_manager_stats, service.py:250-260.  [stats] is carbon's
    dictionary as the list of its items. *)
Section carbon.
Context {V : Type} (zero : V).
Definition carbon_step (s : gmap str V * gmap str V) (item : str * V) : gmap str V * gmap str V :=
  let '(current, stats) := s in
  let '(name, value) := item in
  let current := delete name current in
  let current := if starts_with (B "destinations") name
                 then <[replace_char ":" "_" name := value]> current else current in
  (current, <[name := zero]> stats).
Definition report_carbon (items : list (str * V)) : gmap str V * gmap str V :=
  let stats := list_to_map items in fold_left carbon_step items (stats, stats).
End carbon.

(** ** StatsDService, service.py:203-247 *)
Section flushing.
Context `{NN : Num} {S : Type}.
(** [flush]: the processor's, with the service's interval; [receive]: what an input
    does; [refuses]: the exception sendDatapoint raises for a datapoint, if any *)
Context (flush : gen S) (receive : str -> S -> S) (refuses : dp -> option exn).
Inductive fevent : Type :=
| FInput (m : str)      (* a message is processed *)
| FFlush                (* flush_task calls flushProcessor: a new iterator for the Cooperator *)
| FStep (i : nat).      (* the Cooperator calls next() on the [i]-th iterator that has not ended *)
Record fsys := FSys {
  f_st : S;
  f_live : list (nat * gen S);                          (* number of the flush, what is left of it *)
  f_count : nat;                                        (* flushes begun *)
  f_sent : list (nat * (str * (Z * pval)));             (* sendDatapoint(metric, (timestamp, value)) *)
  f_ended : list (nat * option exn) }.
Definition fstep (y : fsys) (e : fevent) : fsys :=
  match e with
  | FInput m => FSys (receive m (f_st y)) (f_live y) (f_count y) (f_sent y) (f_ended y)
  | FFlush => FSys (f_st y) (f_live y ++ [(f_count y, flush)]) (Datatypes.S (f_count y)) (f_sent y) (f_ended y)
  | FStep i =>
      match f_live y !! i with
      | None => y
      | Some (k, g) =>
          match gnext g (f_st y) with
          | (s, Yielded d g') =>
              match refuses d with
              | None => FSys s (<[i := (k, g')]> (f_live y)) (f_count y)
                             (f_sent y ++ [(k, (dp_name d, (dp_ts d, dp_value d)))]) (f_ended y)
              | Some e => FSys s (delete i (f_live y)) (f_count y) (f_sent y) (f_ended y ++ [(k, Some e)])
              end
          | (s, Finished) => FSys s (delete i (f_live y)) (f_count y) (f_sent y) (f_ended y ++ [(k, None)])
          | (s, Raised e) => FSys s (delete i (f_live y)) (f_count y) (f_sent y) (f_ended y ++ [(k, Some e)])
          end
      end
  end.
Definition fruns (h : list fevent) (s : S) : fsys := fold_left fstep h (FSys s [] 0 [] []).
End flushing.

(** ** The status page, httpinfo.py:33-48.  The durations are seconds
    (processor.py:347-369), the interval milliseconds. *)
Section status.
Context `{NN : Num}.
Definition status_error (flush_interval : Z) (process_time flush_time : num) : bool :=
  nltb (nmul (nofZ flush_interval) (nlit (FDec false 7 (-1)))) (nadd process_time flush_time).
End status.

(** ** The periods of the flush task and of the carbon statistics, service.py:243 and
    313-315: whole seconds (python 2 integer division) *)
Definition period_s (flush_interval : Z) : Z := flush_interval / 1000.

(** ** createService: the processor, service.py:272-299.  The class, with its message
    prefix and the internal prefix it is given. *)
Inductive chosen : Type :=
| Compliant
| Conf (message_prefix internal_prefix : str)
| Logging (message_prefix internal_prefix : str).
(** [log_info]: twisted's log module has an attribute [info]; the second result is
    whether it has afterwards.  [prefix] and [instance_name] are the options,
    [node] is platform.node(). *)
Definition choose_processor (prefix instance_name : option str) (node : str) (dump compliance : Z) (log_info : bool)
  : bool * res chosen :=
  let prefix := match prefix with None => B "statsd" | Some p => p end in
  let instance := match instance_name with
                  | Some i => if nonempty i then i else node
                  | None => node
                  end in
  if negb (dump =? 0) && log_info then (log_info, Exn AssertionError)
  else (negb (dump =? 0) || log_info,
        Ok (if negb (compliance =? 0)
            then (if negb (dump =? 0) then Logging [] [] else Compliant)
            else (if negb (dump =? 0) then Logging else Conf) prefix (prefix ++ B "." ++ instance ++ B "."))).
