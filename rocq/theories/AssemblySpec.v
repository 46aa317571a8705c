(** What a command line should give. *)
From Verif Require Import Base Num Env Metrics Gen Processor Configurable Client Router Server Service
  LineSpec RouterSpec ProcessSpec ServiceSpec Assembly.

(** the value of an option, given a command line and the configuration files *)
Definition value_of (files : str -> list section) (args : list (flag * str)) (n : str) (x : oval) : Prop :=
  exists c d k vs xs, In (n, c, d, k) documented /\ supplied files args n vs /\ Forall2 (reads_as k) vs xs /\ x = settled k d xs.

(** upper-casing *)
Definition lowers : str := B "abcdefghijklmnopqrstuvwxyz".
Definition uppers : str := B "ABCDEFGHIJKLMNOPQRSTUVWXYZ".
Definition up (c d : ascii) : Prop :=
  (~ In c lowers /\ d = c) \/ exists i, lowers !! i = Some c /\ uppers !! i = Some d.
Definition written_as (n W : str) : Prop := Forall2 up n W.

(** the statistics a name of the report option stands for *)
Definition groups : list (str * list reporter) :=
  [(B "PROCESS", [RMemCpu]); (B "COUNTER", [RCpu]); (B "IO", [RIo]); (B "NET", [RNet]);
   (B "SYSTEM", [RMeminfo; RLoadavg; RNetdev; RSys])].
Inductive group (n : str) : list reporter -> Prop :=
| gr_known W rs : In (W, rs) groups -> written_as n W -> group n rs
| gr_other : (forall W rs, In (W, rs) groups -> ~ written_as n W) -> group n [].
Definition names_in (text : str) (names : list str) : Prop :=
  exists ps, cut "," text ps /\ Forall2 stripped ps names.

(** what is scheduled, and the inspectors, for a value of the report option *)
Inductive scheduled (interval : Z) : oval -> list (reporter * Z) -> nat -> Prop :=
| sc_none : scheduled interval ONone [(RCarbon, interval / 1000)] 0
| sc_text text names gs : names_in text names -> Forall2 group names gs ->
    scheduled interval (OS text) ((RCarbon, interval / 1000) :: (RReactor, 60) :: map (fun r => (r, 60)) (concat gs))
      (length (filter (fun n => n = B "reactor") names)).
(** an option that may be left out *)
Definition maybe_int (x : oval) (v : option Z) : Prop := x = match v with Some z => OI z | None => ONone end.
Definition maybe_str (x : oval) (v : option str) : Prop := x = match v with Some s => OS s | None => ONone end.
Definition or_node (node : str) (inst : option str) (i : str) : Prop :=
  match inst with Some (c :: s) => i = c :: s | _ => i = node end.
Definition class_of (prefix : option str) (instance : str) (dump compliance : Z) (c : chosen) : Prop :=
  let p := match prefix with Some p => p | None => B "statsd" end in
  (compliance <> 0 /\ dump = 0 /\ c = Compliant) \/
  (compliance <> 0 /\ dump <> 0 /\ c = Logging [] []) \/
  (compliance = 0 /\ dump = 0 /\ c = Conf p (p ++ B "." ++ instance ++ B ".")) \/
  (compliance = 0 /\ dump <> 0 /\ c = Logging p (p ++ B "." ++ instance ++ B ".")).

(** the service a command line stands for *)
Record described (G : engine) (files : str -> list section) (args : list (flag * str)) (node : str) (a : assembly G) : Prop := {
  ds_queue : value_of files args (B "max-queue-size") (OI (a_queue _ a));
  ds_batch : value_of files args (B "max-datapoints-per-message") (OI (a_batch _ a));
  ds_udp : value_of files args (B "listen-port") (OI (a_udp _ a));
  ds_tcp : exists x, value_of files args (B "listen-tcp-port") x /\ maybe_int x (a_tcp _ a);
  ds_http : exists x, value_of files args (B "http-port") x /\ maybe_int x (a_http _ a);
  ds_message : value_of files args (B "monitor-message") (OS (m_message (a_mon _ a)));
  ds_response : value_of files args (B "monitor-response") (OS (m_response (a_mon _ a)));
  ds_flush : value_of files args (B "flush-interval") (OI (a_flush _ a));
  ds_routing : exists text, value_of files args (B "routing") (OS text) /\ build_rules G true text [] = (a_links _ a, Ok (a_rules _ a));
  ds_instance : exists x i, value_of files args (B "instance-name") x /\ maybe_str x i /\ or_node node i (a_instance _ a);
  ds_class : exists x p dump compliance, value_of files args (B "prefix") x /\ maybe_str x p /\
    value_of files args (B "dump-mode") (OI dump) /\ value_of files args (B "statsd-compliance") (OI compliance) /\
    class_of p (a_instance _ a) dump compliance (a_class _ a) /\ (a_ext _ a = true <-> compliance = 0);
  ds_reports : exists x, value_of files args (B "report") x /\ scheduled (a_flush _ a) x (a_reports _ a) (a_inspectors _ a);
  ds_dests : exists hosts ports names,
    value_of files args (B "carbon-cache-host") (OL (map OS hosts)) /\
    value_of files args (B "carbon-cache-port") (OL (map OI ports)) /\
    value_of files args (B "carbon-cache-name") (OL (map OS names)) /\
    let hosts := match hosts with [] => [B "127.0.0.1"] | _ => hosts end in
    let ports := match ports with [] => [2004] | _ => ports end in
    let names := match names with [] => [None] | _ => map Some names end in
    a_dests _ a = zip (zip hosts ports) names }.
