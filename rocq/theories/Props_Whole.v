(** The service of a command line with the processor it chose (C100, continued): any routing
    rules, the configurable processor, dump mode.  [carbon_calls] (EntireRules.v): the calls of
    carbon's sendDatapoint of the whole service, in order. *)
From Verif Require Import Base StrFacts Num NumFacts Env Stats Glob Metrics Gen GenFacts Processor Configurable LineSpec ProcSpec ReceiveFacts3
  Sched SchedFacts FlushSpec FlushInv FlushFail FlushDerived CSched ConfFacts ConfInv ConfDerived LogFacts Demo
  Client Router RouterSpec RouterFacts RouterProps Server ServerSpec Service ServiceSpec ServiceFacts
  ClientMetrics Daemon DaemonFacts CDaemon Own OwnSpec Assembly AssemblySpec AssemblyFacts Entire MetricSpec MetricDaemon DaemonSim EntireRules
  Props_Flush Props_Metrics Props_Daemon Props_Service Props_Assembly.
Open Scope Z_scope.

(** C100.  A statsd-compliant service with any routing rules, from its command line to carbon,
    its own statistics included. *)
Theorem C100_routed : forall (NN : Num) (NL : NumLaw NN) (NX : NumExact NN) E plugins G files args configure_all node o log_info info a
  is_ip max closes refuses CE addrs h out key c,
  well_formed files -> parse_options files args = Ok o -> create G configure_all node o log_info = (info, Ok a) ->
  value_of files args (B "statsd-compliance") (OI c) -> c <> 0 -> value_of files args (B "dump-mode") (OI 0) ->
  1000 <= a_flush _ a -> addrs = [] \/ closes = false ->
  arrivals max (map (fun a => (a, [])) addrs) (heard h) out ->
  let d := o_daemon (compliant_run G E plugins max closes refuses CE is_ip addrs a h) in
  exists text rws es handled mss xs,
    value_of files args (B "routing") (OS text) /\ rules_of text rws /\ written CE (a_instance _ a) h es /\
    handled ++ v_pending (d_srv d) ≡ₚ metrics_in (a_mon _ a) out ++ own es /\
    Forall2 (hands G rws) handled mss /\ Forall2 (worth key) (concat mss) xs /\
    nadd (counts_in key (carbon_calls G E plugins max closes refuses CE is_ip addrs a h))
      (nadd (counts_in key (flat_map pending (map snd (d_live d) ++ d_gone d)))
            (default n0 (p_counter (d_proc d) !! key)))
    = nsum xs.
Proof.
  intros NN NL NX E plugins G files args configure_all node o log_info info a is_ip max closes refuses CE addrs h out key c Hw Hp Hc Hs Hz Hd.
  pose proof (proj1 (C100_described G files args configure_all node o log_info info a Hw Hp Hc)) as D.
  unfold carbon_calls. rewrite (is_compliant G files args node a Hw D c Hs Hz Hd).
  exact (entire_routed G files args node a D NL NX E plugins is_ip max closes refuses CE addrs h out key).
Qed.
Print Assumptions C100_routed.

(** Without compliance: the names sent are under the configured prefix (statsd if none was
    given), and those about the daemon under prefix.instance. *)
Theorem C100_configurable_names : forall (NN : Num) E plugins G files args configure_all node o log_info info a
  is_ip max closes refuses CE addrs h x p,
  well_formed files -> parse_options files args = Ok o -> create G configure_all node o log_info = (info, Ok a) ->
  value_of files args (B "statsd-compliance") (OI 0) -> value_of files args (B "routing") (OS []) ->
  value_of files args (B "prefix") x -> maybe_str x p ->
  let mp := default (B "statsd") p in
  Forall (fun y => conf_name mp (internal_prefix mp (mp ++ B "." ++ a_instance _ a ++ B ".")) (known plugins) (dp_name y))
    (carbon_calls G E plugins max closes refuses CE is_ip addrs a h).
Proof.
  intros NN E plugins G files args configure_all node o log_info info a is_ip max closes refuses CE addrs h x p Hw Hp Hc Hs Hr Hx Hm.
  pose proof (proj1 (C100_described G files args configure_all node o log_info info a Hw Hp Hc)) as D.
  exact (entire_any_names G files args node a Hw D E plugins is_ip max closes refuses CE addrs h x p Hs Hr Hx Hm).
Qed.
Print Assumptions C100_configurable_names.
(** and a flush that runs to its end, at any point of any history, sends the last value of
    every counter and gauge, under these names. *)
Theorem C100_configurable_values : forall (NN : Num) E plugins G files args configure_all node o log_info info a
  is_ip max closes refuses CE addrs h x p i q s' out,
  well_formed files -> parse_options files args = Ok o -> create G configure_all node o log_info = (info, Ok a) ->
  value_of files args (B "statsd-compliance") (OI 0) -> value_of files args (B "routing") (OS []) ->
  value_of files args (B "prefix") x -> maybe_str x p ->
  let mp := default (B "statsd") p in
  let ip := mp ++ B "." ++ a_instance _ a ++ B "." in
  let d := o_daemon (conf_run G E plugins max closes refuses CE is_ip addrs mp ip a h) in
  carbon_calls G E plugins max closes refuses CE is_ip addrs a h = map (fun c => snd (fst c)) (d_calls d) /\
  ((forall key v, last_value (B "c") key (d_order d) v -> exists z, ntrunc v = Ok z) ->
   grun (cflush E mp ip plugins i q) (d_proc d) = (s', out, None) ->
   exists ts zs rest before vs after, ntrunc (e_clock E (w_clk (p_w (d_proc d)))) = Ok ts /\
    NoDup (zs.*1) /\ (forall key z, (key, z) ∈ zs <-> exists v, last_value (B "c") key (d_order d) v /\ ntrunc v = Ok z) /\
    NoDup (vs.*1) /\ (forall key v, (key, v) ∈ vs <-> last_value (B "g") key (d_order d) v) /\
    out = map (fun '(k, z) => DP (under mp k ++ B ".count") (VI z) ts) zs ++ rest /\
    out = before ++ map (fun '(k, v) => DP (under mp k ++ B ".value") (VF v) ts) vs ++ after).
Proof.
  intros NN E plugins G files args configure_all node o log_info info a is_ip max closes refuses CE addrs h x p i q s' out Hw Hp Hc Hs Hr Hx Hm mp ip d.
  pose proof (proj1 (C100_described G files args configure_all node o log_info info a Hw Hp Hc)) as D. split.
  - exact (carbon_either G a E plugins max closes refuses CE is_ip addrs mp ip h (either_conf G files args node a Hw D x p Hs Hx Hm)).
  - exact (entire_conf_values G files args node a Hw D E plugins is_ip max closes refuses CE addrs mp ip h i q s' out Hr).
Qed.
Print Assumptions C100_configurable_values.
(** Dump mode changes nothing else: for every history of events the calls of carbon, the ends
    of the flushes, the lines handled and their outcomes, the replies and the redirects are
    those of the same service without it, and its log holds the calls of carbon, in order. *)
Theorem C100_dump_mode : forall (NN : Num) E plugins G a is_ip max closes refuses CE addrs mp ip h,
  let d := o_daemon (conf_run G E plugins max closes refuses CE is_ip addrs mp ip a h) in
  let d' := o_daemon (logging_run G E plugins max closes refuses CE is_ip addrs mp ip a h) in
  d_calls d' = d_calls d /\ d_ended d' = d_ended d /\ d_order d' = d_order d /\
  v_replies (d_srv d') = v_replies (d_srv d) /\ v_runs (d_srv d') = v_runs (d_srv d) /\
  r_links (v_proc (d_srv d')) = r_links (v_proc (d_srv d)) /\
  logged_out (p_info (d_proc d')) = map (fun c => snd (fst c)) (d_calls d').
Proof. intros NN E plugins G a is_ip max closes refuses CE addrs mp ip h. exact (logging_run_spec G E mp ip plugins a max closes refuses CE is_ip addrs h). Qed.
Print Assumptions C100_dump_mode.

(** compliance and dump mode together: the service is not the compliant one *)
Theorem C100_dump_compliant : forall G files args configure_all node o log_info info a c d,
  well_formed files -> parse_options files args = Ok o -> create G configure_all node o log_info = (info, Ok a) ->
  value_of files args (B "statsd-compliance") (OI c) -> c <> 0 -> value_of files args (B "dump-mode") (OI d) -> d <> 0 ->
  forall (NN : Num) E plugins max closes refuses CE is_ip addrs h,
  carbon_calls G E plugins max closes refuses CE is_ip addrs a h =
  map (fun c => snd (fst c)) (d_calls (o_daemon (conf_run G E plugins max closes refuses CE is_ip addrs [] [] a h))).
Proof.
  intros G files args configure_all node o log_info info a c d Hw Hp Hc Hs Hz Hd Hy NN E plugins max closes refuses CE is_ip addrs h.
  pose proof (proj1 (C100_described G files args configure_all node o log_info info a Hw Hp Hc)) as D.
  exact (carbon_either G a E plugins max closes refuses CE is_ip addrs [] [] h (or_intror (is_dump G files args node a Hw D c d Hs Hz Hd Hy))).
Qed.
Print Assumptions C100_dump_compliant.

(** cases *)
Lemma given_value (files : str -> list section) (args : list (flag * str)) o n x c d k :
  well_formed files -> parse_options files args = Ok o -> In (n, c, d, k) documented -> o !! n = Some x -> value_of files args n x.
Proof.
  intros Hw Hp Hi Hx. destruct (parsed_value files args Hw o n c d k Hp Hi) as (vs & xs & _ & _ & H & Hv). congruence.
Qed.
Definition whole_events : list (@oevent demo_num) :=
  [ODaemon (DNet (SDatagram (B "u") (B "a:3|c"))); OReport (Ok [(B "n", VInt 1)]); ODaemon (DNet (SRun 0)); ODaemon DFlush] ++
  replicate 8 (ODaemon (DStep 0)).
Definition whole_calls (a : assembly toy_engine) : list dp :=
  carbon_calls toy_engine demo_env [] 100 true (fun _ _ => None) demo_cenv (fun _ => false) [] a whole_events.
Definition no_files : str -> list section := fun _ => [].
Lemma no_files_ok : well_formed no_files.
Proof. intros p. constructor. Qed.
(** a service of a command line, by evaluation *)
Definition made (args : list (flag * str)) (P : options -> assembly toy_engine -> Prop) : Prop :=
  exists o a, parse_options no_files args = Ok o /\ create toy_engine (fun _ => Ok tt) (B "host") o false = (match o !! B "dump-mode" with Some (OI 0) => false | _ => true end, Ok a) /\ P o a.
Lemma made_by (args : list (flag * str)) (P : options -> assembly toy_engine -> Prop) :
  match parse_options no_files args with
  | Ok o => match create toy_engine (fun _ => Ok tt) (B "host") o false with
            | (b, Ok a) => b = (match o !! B "dump-mode" with Some (OI 0) => false | _ => true end) /\ P o a
            | _ => False
            end
  | Exn _ => False
  end -> made args P.
Proof.
  unfold made. destruct (parse_options no_files args) as [o|e]; [|contradiction].
  destruct (create toy_engine (fun _ => Ok tt) (B "host") o false) as [b [a|e]] eqn:Hc; [|contradiction]. intros [-> H]. eauto 6.
Qed.
Definition names_are (l : list (@dp demo_num)) (ns : list str) : bool :=
  (length l =? length ns)%nat && forallb (fun x => str_eqb (fst x) (snd x)) (combine (map dp_name l) ns).
(** a rule that renames: the counter is sent under both names *)
Example C100_routed_case : made [(FShort "g", B "any => rewrite a b! dup")] (fun o a =>
  o !! B "statsd-compliance" = Some (OI 1) /\ o !! B "dump-mode" = Some (OI 0) /\ 1000 <= a_flush _ a /\
  names_are (take 4 (whole_calls a)) [B "stats.b!"; B "stats_counts.b!"; B "stats.a"; B "stats_counts.a"] = true).
Proof. apply made_by. vm_compute. repeat split; discriminate. Qed.
(** a prefix, with and without dump mode *)
Example C100_configurable_case :
  Forall (fun more => made ([(FShort "s", B "0"); (FShort "x", B "pre")] ++ more) (fun o a =>
    o !! B "statsd-compliance" = Some (OI 0) /\ o !! B "routing" = Some (OS []) /\ o !! B "prefix" = Some (OS (B "pre")) /\
    names_are (take 3 (whole_calls a)) [B "pre.a.count"; B "pre.host.n.value"; B "pre.host.numStats"] = true))
  [[]; [(FShort "d", B "1")]].
Proof. repeat constructor; apply made_by; vm_compute; repeat split; discriminate. Qed.
(** Dump mode on a compliant service changes what is sent: the same events, the command lines
    differing only in dump mode, other names. *)
Theorem C100_dump_refuted :
  made [] (fun o a => o !! B "statsd-compliance" = Some (OI 1) /\ o !! B "dump-mode" = Some (OI 0) /\
    names_are (take 2 (whole_calls a)) [B "stats.a"; B "stats_counts.a"] = true) /\
  made [(FShort "d", B "1")] (fun o a => o !! B "statsd-compliance" = Some (OI 1) /\ o !! B "dump-mode" = Some (OI 1) /\
    names_are (take 2 (whole_calls a)) [B "a.count"; B "host.n.value"] = true).
Proof.
  split; apply made_by; vm_compute; repeat split; discriminate.
Qed.
Print Assumptions C100_dump_refuted.
