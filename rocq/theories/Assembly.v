(** createService, service.py:263-369: what is built from the options. *)
From Verif Require Import Base Num Env Process Metrics Gen Processor Configurable Client Router Server Service.

(** [s.upper()] on python 2 byte strings (C locale) *)
Definition to_upper (c : ascii) : ascii := if is_lower c then ascii_of_N (Z.to_N (code c - 32)) else c.

(** the functions that are scheduled: service.py:312-314, 322-323 and process.py:233-246 *)
Inductive reporter : Type :=
| RCarbon                              (* report_client_manager_stats *)
| RReactor                             (* process.report_reactor_stats(reactor) *)
| RMemCpu | RCpu | RIo | RNet          (* PROCESS_STATS, COUNTER_STATS, IO_STATS, NET_STATS *)
| RMeminfo | RLoadavg | RNetdev | RSys (* SYSTEM_STATS *).
(** [getattr(process, "%s_STATS" % report_name.upper(), ())], service.py:332-333: the names
    ending in _STATS that process.py defines, process.py:233-246 *)
Definition stats_of (name : str) : list reporter :=
  let n := map to_upper name ++ B "_STATS" in
  if str_eqb n (B "PROCESS_STATS") then [RMemCpu]
  else if str_eqb n (B "COUNTER_STATS") then [RCpu]
  else if str_eqb n (B "IO_STATS") then [RIo]
  else if str_eqb n (B "NET_STATS") then [RNet]
  else if str_eqb n (B "SYSTEM_STATS") then [RMeminfo; RLoadavg; RNetdev; RSys]
  else [].
(** service.py:316-334: what is scheduled, and the number of inspectors *)
Definition report_names (report : str) : list str := map strip (split_on "," report).
Fixpoint asked_reports (names : list str) : nat * list (reporter * Z) :=
  match names with
  | [] => (0%nat, [])
  | n :: rest =>
      let '(k, l) := asked_reports rest in
      ((if str_eqb n (B "reactor") then S k else k), map (fun r => (r, 60)) (stats_of n) ++ l)
  end.

(** a value of the wrong type fails sooner or later; that parsed options have the right
    types is proved (AssemblyFacts.v) *)
Definition opt_int (o : options) (n : str) : res Z :=
  match o !! n with Some (OI z) => Ok z | Some _ => Exn TypeError | None => Exn KeyError end.
Definition opt_str (o : options) (n : str) : res str :=
  match o !! n with Some (OS s) => Ok s | Some _ => Exn TypeError | None => Exn KeyError end.
Definition opt_int_or (o : options) (n : str) : res (option Z) :=
  match o !! n with Some (OI z) => Ok (Some z) | Some ONone => Ok None | Some _ => Exn TypeError | None => Exn KeyError end.
Definition opt_str_or (o : options) (n : str) : res (option str) :=
  match o !! n with Some (OS s) => Ok (Some s) | Some ONone => Ok None | Some _ => Exn TypeError | None => Exn KeyError end.
Definition opt_list (o : options) (n : str) : res (list oval) :=
  match o !! n with Some (OL l) => Ok l | Some _ => Exn TypeError | None => Exn KeyError end.
Definition as_str (v : oval) : res str := match v with OS s => Ok s | _ => Exn TypeError end.
Definition as_int (v : oval) : res Z := match v with OI z => Ok z | _ => Exn TypeError end.

Section assembly.
Context (G : engine).
Record assembly := Asm {
  a_queue : Z; a_batch : Z;                          (* carbon settings, service.py:269-270 *)
  a_class : chosen; a_ext : bool;                    (* processor; ExtendedMetrics for the own statistics *)
  a_links : list lspec; a_rules : list (rule G);     (* the router, service.py:291, 298 *)
  a_instance : str;                                  (* ReportingService(instance_name), 308 *)
  a_reports : list (reporter * Z); a_inspectors : nat;  (* seconds; ReactorInspectorService *)
  a_dests : list (str * Z * option str);             (* startClient, 342-345 *)
  a_flush : Z;                                       (* StatsDService's interval, milliseconds *)
  a_mon : mon; a_udp : Z; a_tcp : option Z; a_http : option Z }.

(** [configure_all]: the loop over the plugins, service.py:282-285, with the exception of
    the first [configure] that fails; [node]: platform.node(); [log_info]: the module
    twisted.python.log has an attribute [info] (service.py:291), before and after.
    Simplification: a service that fails to be created leaves no trace but [log_info]. *)
Definition create (configure_all : options -> res unit) (node : str) (o : options) (log_info : bool) : bool * res assembly :=
  let r :=
    rbind (opt_int o (B "max-queue-size")) (fun queue =>
    rbind (opt_int o (B "max-datapoints-per-message")) (fun batch =>
    rbind (opt_str_or o (B "prefix")) (fun prefix =>
    rbind (opt_str_or o (B "instance-name")) (fun inst =>
    rbind (configure_all o) (fun _ =>
    rbind (opt_int o (B "dump-mode")) (fun dump =>
    rbind (opt_int o (B "statsd-compliance")) (fun compliance => Ok (queue, batch, prefix, inst, dump, compliance)))))))) in
  match r with
  | Exn e => (log_info, Exn e)
  | Ok (queue, batch, prefix, inst, dump, compliance) =>
  let '(info, r) := choose_processor prefix inst node dump compliance log_info in
  (info,
   rbind r (fun class =>
   rbind (opt_str o (B "routing")) (fun routing =>
   let '(links, rs) := build_rules G true routing [] in
   rbind rs (fun rules =>
   rbind (opt_list o (B "carbon-cache-host")) (fun hosts => rbind (rmap as_str hosts) (fun hosts =>
   rbind (opt_list o (B "carbon-cache-port")) (fun ports => rbind (rmap as_int ports) (fun ports =>
   rbind (opt_list o (B "carbon-cache-name")) (fun names => rbind (rmap as_str names) (fun names =>
   rbind (opt_int o (B "flush-interval")) (fun interval =>
   rbind (opt_str_or o (B "report")) (fun report =>
   let instance := match inst with Some i => if nonempty i then i else node | None => node end in
   let '(inspectors, asked) :=
     match report with
     | None => (0%nat, [])
     | Some text => let '(k, l) := asked_reports (report_names text) in (k, (RReactor, 60) :: l)
     end in
   rbind (opt_str o (B "monitor-message")) (fun message =>
   rbind (opt_str o (B "monitor-response")) (fun response =>
   rbind (opt_int o (B "listen-port")) (fun udp =>
   rbind (opt_int_or o (B "listen-tcp-port")) (fun tcp =>
   rbind (opt_int_or o (B "http-port")) (fun http =>
   Ok (Asm queue batch class (negb (negb (compliance =? 0))) links rules instance
         ((RCarbon, period_s interval) :: asked) inspectors
         (destinations hosts ports (map Some names)) interval (Mon message response) udp tcp http))))))))))))))))))
  end.

(** [root_service.startService()]: the children in order; ReportingService starts its
    loops (report.py:82-85), StatsDService the flush loop (service.py:242-243).  LoopingCall
    refuses a negative interval (twisted/internet/task.py).  The sockets, which twisted
    opens before, are not modelled. *)
Definition start_loops (periods : list Z) : res unit :=
  if existsb (fun t => t <? 0) periods then Exn ValueError else Ok tt.
Definition start (a : assembly) : res unit :=
  rbind (start_loops (map snd (a_reports a))) (fun _ => start_loops [period_s (a_flush a)]).
End assembly.
Arguments assembly : clear implicits.
