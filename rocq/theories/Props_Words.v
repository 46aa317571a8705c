(** C111: from the words of the command line and the text of the configuration file to carbon
    (service.py:82-367).  [read_off texts ws args file]: the words [ws] are the option settings [args],
    and, where they name a configuration file, its text says the sections [file]. *)
From Verif Require Import Base StrFacts Num NumFacts Env Stats Glob Metrics Gen GenFacts Processor Configurable LineSpec ProcSpec ReceiveFacts3
  Sched SchedFacts FlushSpec FlushInv FlushFail FlushDerived CSched ConfFacts ConfInv ConfDerived LogFacts Demo
  Client Router RouterSpec RouterFacts RouterProps Server ServerSpec Process Service ServiceSpec ServiceFacts
  ClientMetrics Daemon DaemonFacts CDaemon Own OwnSpec Assembly AssemblySpec AssemblyFacts Entire MetricSpec MetricDaemon DaemonSim EntireRules
  Ini IniSpec IniFacts IniRead WordSpec WordFacts
  Props_Flush Props_Metrics Props_Daemon Props_Service Props_Assembly Props_Whole Props_Ini.
Open Scope Z_scope.

Definition read_off (texts : str -> option str) (ws : list str) (args : list (flag * str)) (file : list section) : Prop :=
  words_say ws args [] /\ NoDup (map fst file) /\ forall path, config_path args (Some path) -> file_says texts path file.

Lemma read_off_exists texts ws o : options_of texts ws = Options o -> exists args file, read_off texts ws args file.
Proof. intros H. apply options_iff in H as (args & file & H1 & _ & H2 & H3 & _). exists args, file. repeat split; assumption. Qed.
Lemma read_off_parse texts ws o args file : options_of texts ws = Options o -> read_off texts ws args file ->
  parse_options (fun _ => file) args = Ok o.
Proof.
  intros H (Hw & Hn & Hf). apply options_iff in H as (args' & file' & Hw' & So & Hn' & Hf' & Hp).
  destruct (words_say_fun _ _ _ _ _ Hw Hw') as [<- _].
  rewrite parse_fold in Hp |- *. destruct (forallb _ args); [|discriminate]. destruct (arg_fold args options_init) as [o1|e] eqn:F; [|discriminate]. cbn [rbind] in *.
  destruct (config_at args o1 (arg_fold_upto _ _ F)) as (x & Hx & [[-> Hc]|(path & -> & Hc)]); rewrite Hx in *; [exact Hp|].
  pose proof (proj2 (file_says_read _ _ _) (Hf _ Hc)) as R. rewrite (proj2 (file_says_read _ _ _) (Hf' _ Hc)) in R. injection R as ->. exact Hp.
Qed.

(** C111.  The service of an accepted command line is the one its words and the text of the
    configuration file describe, and they describe no other. *)
Theorem C111_service : forall texts ws G configure_all node o log_info info a,
  options_of texts ws = Options o -> create G configure_all node o log_info = (info, Ok a) ->
  (exists args file, read_off texts ws args file) /\
  forall args file, read_off texts ws args file -> forall a', described G (fun _ => file) args node a' <-> a' = a.
Proof.
  intros texts ws G configure_all node o log_info info a Ho Hc. split; [exact (read_off_exists _ _ _ Ho)|]. intros args file R a'.
  destruct (C100_described G (fun _ => file) args configure_all node o log_info info a (fun _ => proj1 (proj2 R)) (read_off_parse _ _ _ _ _ Ho R) Hc) as [D U].
  split; [apply U|intros ->; exact D].
Qed.
Print Assumptions C111_service.
(** What becomes of any command line: no options at all, or options and then a service or one of
    three refusals. *)
Theorem C111_outcome : forall texts ws G configure_all node o log_info info r args file,
  options_of texts ws = Options o -> create G configure_all node o log_info = (info, r) -> read_off texts ws args file ->
  (exists e, configure_all o = Exn e /\ r = Exn e) \/
  (exists dump, value_of (fun _ => file) args (B "dump-mode") (OI dump) /\ dump <> 0 /\ log_info = true /\ r = Exn AssertionError) \/
  (exists text e, value_of (fun _ => file) args (B "routing") (OS text) /\ snd (build_rules G true text []) = Exn e /\ r = Exn e) \/
  (exists a, r = Ok a /\ described G (fun _ => file) args node a).
Proof.
  intros texts ws G configure_all node o log_info info r args file Ho Hc R.
  destruct (C100_outcome G (fun _ => file) args configure_all node o log_info info r (fun _ => proj1 (proj2 R)) (read_off_parse _ _ _ _ _ Ho R) Hc)
    as [H|[(_ & H)|(_ & _ & [H|H])]]; eauto.
Qed.
Print Assumptions C111_outcome.
(** A statsd-compliant service with any routing rules, from its words and the text of its file to
    carbon, its own statistics included. *)
Theorem C111_routed : forall (NN : Num) (NL : NumLaw NN) (NX : NumExact NN) E plugins texts ws G configure_all node o log_info info a
  is_ip max closes refuses CE addrs h out key c args file,
  options_of texts ws = Options o -> create G configure_all node o log_info = (info, Ok a) -> read_off texts ws args file ->
  value_of (fun _ => file) args (B "statsd-compliance") (OI c) -> c <> 0 -> value_of (fun _ => file) args (B "dump-mode") (OI 0) ->
  1000 <= a_flush _ a -> addrs = [] \/ closes = false ->
  arrivals max (map (fun a => (a, [])) addrs) (heard h) out ->
  let d := o_daemon (compliant_run G E plugins max closes refuses CE is_ip addrs a h) in
  exists text rws es handled mss xs,
    value_of (fun _ => file) args (B "routing") (OS text) /\ rules_of text rws /\ written CE (a_instance _ a) h es /\
    handled ++ v_pending (d_srv d) ≡ₚ metrics_in (a_mon _ a) out ++ own es /\
    Forall2 (hands G rws) handled mss /\ Forall2 (worth key) (concat mss) xs /\
    nadd (counts_in key (carbon_calls G E plugins max closes refuses CE is_ip addrs a h))
      (nadd (counts_in key (flat_map pending (map snd (d_live d) ++ d_gone d)))
            (default n0 (p_counter (d_proc d) !! key)))
    = nsum xs.
Proof.
  intros NN NL NX E plugins texts ws G configure_all node o log_info info a is_ip max closes refuses CE addrs h out key c args file Ho Hc R.
  exact (C100_routed NN NL NX E plugins G (fun _ => file) args configure_all node o log_info info a is_ip max closes refuses CE addrs h out key c
    (fun _ => proj1 (proj2 R)) (read_off_parse _ _ _ _ _ Ho R) Hc).
Qed.
Print Assumptions C111_routed.
(** The configurable service: the names it sends are under the prefix its words or its file give. *)
Theorem C111_names : forall (NN : Num) E plugins texts ws G configure_all node o log_info info a
  is_ip max closes refuses CE addrs h x p args file,
  options_of texts ws = Options o -> create G configure_all node o log_info = (info, Ok a) -> read_off texts ws args file ->
  value_of (fun _ => file) args (B "statsd-compliance") (OI 0) -> value_of (fun _ => file) args (B "routing") (OS []) ->
  value_of (fun _ => file) args (B "prefix") x -> maybe_str x p ->
  let mp := default (B "statsd") p in
  Forall (fun y => conf_name mp (internal_prefix mp (mp ++ B "." ++ a_instance _ a ++ B ".")) (known plugins) (dp_name y))
    (carbon_calls G E plugins max closes refuses CE is_ip addrs a h).
Proof.
  intros NN E plugins texts ws G configure_all node o log_info info a is_ip max closes refuses CE addrs h x p args file Ho Hc R.
  exact (C100_configurable_names NN E plugins G (fun _ => file) args configure_all node o log_info info a is_ip max closes refuses CE addrs h x p
    (fun _ => proj1 (proj2 R)) (read_off_parse _ _ _ _ _ Ho R) Hc).
Qed.
Print Assumptions C111_names.

(** the words and the text of a file; the file gives the interval, the words the routing *)
Definition C111_texts (p : str) : option str :=
  if str_eqb p (B "f") then Some (B "[statsd]" ++ ["010"%char] ++ B "flush-interval: 2000" ++ ["010"%char] ++ B "routing = any => drop" ++ ["010"%char] ++ B "prefix=pre" ++ ["010"%char]) else None.
Definition C111_words : list str := [B "-cf"; B "--routing"; B "any => rewrite a b! dup"; B "--statsd-comp=1"].
Definition C111_file : list section := [(B "statsd", [(B "flush-interval", B "2000"); (B "routing", B "any => drop"); (B "prefix", B "pre")])].
Definition C111_args : list (flag * str) := [(FShort "c", B "f"); (FLong (B "routing"), B "any => rewrite a b! dup"); (FLong (B "statsd-compliance"), B "1")].
Definition served (ws : list str) (P : options -> assembly toy_engine -> Prop) : Prop :=
  exists o a, options_of C111_texts ws = Options o /\ create toy_engine (fun _ => Ok tt) (B "host") o false = (false, Ok a) /\ P o a.
Lemma served_by (ws : list str) (P : options -> assembly toy_engine -> Prop) :
  match options_of C111_texts ws with
  | Options o => match create toy_engine (fun _ => Ok tt) (B "host") o false with (false, Ok a) => P o a | _ => False end
  | _ => False
  end -> served ws P.
Proof.
  unfold served. destruct (options_of C111_texts ws) as [o|e|e|]; try contradiction.
  destruct (create toy_engine (fun _ => Ok tt) (B "host") o false) as [[] [a|e]] eqn:Hc; try contradiction. eauto 6.
Qed.
Example C111_read_case : read_off C111_texts C111_words C111_args C111_file.
Proof.
  split; [apply getopt_iff; vm_compute; reflexivity|]. split; [repeat constructor; intros H; cbn in H; set_solver|].
  intros path (l & Hl & Hlast). apply given_iff in Hl. subst l. apply file_says_read.
  assert (E : Some path = Some (B "f")) by (rewrite <- Hlast; vm_compute; reflexivity).
  injection E as ->. vm_compute. reflexivity.
Qed.
Example C111_case : served C111_words (fun o a =>
  o !! B "statsd-compliance" = Some (OI 1) /\ o !! B "dump-mode" = Some (OI 0) /\ o !! B "prefix" = Some (OS (B "pre")) /\ a_flush _ a = 2000 /\
  names_are (take 4 (whole_calls a)) [B "stats.b!"; B "stats_counts.b!"; B "stats.a"; B "stats_counts.a"] = true).
Proof. apply served_by. vm_compute. repeat split. Qed.
Example C111_names_case : served [B "-cf"; B "--routing="; B "-s"; B "0"] (fun o a =>
  o !! B "statsd-compliance" = Some (OI 0) /\ o !! B "routing" = Some (OS []) /\ o !! B "prefix" = Some (OS (B "pre")) /\
  names_are (take 3 (whole_calls a)) [B "pre.a.count"; B "pre.host.n.value"; B "pre.host.numStats"] = true).
Proof. apply served_by. vm_compute. repeat split. Qed.
