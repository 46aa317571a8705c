(** From the command line to the running service (C100).
    [described G files args node a] (AssemblySpec.v): the service [a] is the one the command
    line [args] and the configuration files stand for, on the machine [node]. *)
From Verif Require Import Base StrFacts Num NumFacts Env Stats Glob Metrics Gen GenFacts Processor Configurable LineSpec ProcSpec ReceiveFacts3
  Sched SchedFacts FlushSpec FlushInv FlushFail FlushDerived Demo
  Client Router RouterSpec RouterFacts RouterProps Server ServerSpec Service ServiceSpec ServiceFacts
  ClientMetrics Daemon DaemonFacts Own OwnSpec Assembly AssemblySpec AssemblyFacts Entire Props_Flush Props_Metrics Props_Daemon Props_Service.
Open Scope Z_scope.

(** C100.  An accepted command line gives a service, except when a plugin refuses its
    configuration, when dump mode is asked for a second time in the process, or when the
    routing rules are refused. *)
Theorem C100_outcome : forall G files args configure_all node o log_info info r,
  well_formed files -> parse_options files args = Ok o -> create G configure_all node o log_info = (info, r) ->
  (exists e, configure_all o = Exn e /\ r = Exn e) \/
  (configure_all o = Ok tt /\ exists dump, value_of files args (B "dump-mode") (OI dump) /\ dump <> 0 /\ log_info = true /\ r = Exn AssertionError) \/
  (configure_all o = Ok tt /\ (exists dump, value_of files args (B "dump-mode") (OI dump) /\ ~ (dump <> 0 /\ log_info = true)) /\
   ((exists text e, value_of files args (B "routing") (OS text) /\ snd (build_rules G true text []) = Exn e /\ r = Exn e) \/
    (exists a, r = Ok a /\ described G files args node a))).
Proof. intros G files args configure_all node o log_info info r Hw Hp. exact (created_spec G files args Hw configure_all node o Hp log_info info r). Qed.
Print Assumptions C100_outcome.
(** The service is the described one, and the description leaves no choice. *)
Theorem C100_described : forall G files args configure_all node o log_info info a,
  well_formed files -> parse_options files args = Ok o -> create G configure_all node o log_info = (info, Ok a) ->
  described G files args node a /\ forall a', described G files args node a' -> a' = a.
Proof.
  intros G files args configure_all node o log_info info a Hw Hp Hc.
  assert (D : described G files args node a).
  { destruct (created_spec G files args Hw configure_all node o Hp log_info info (Ok a) Hc) as [(e & _ & H)|[(_ & d & _ & _ & _ & H)|(_ & _ & [(t & e & _ & _ & H)|(a' & H & D)])]];
      try discriminate. injection H as <-. exact D. }
  split; [exact D|]. intros a' D'. exact (described_fun G files args Hw node a' a D' D).
Qed.
Print Assumptions C100_described.
(** It starts unless the flush interval is negative. *)
Theorem C100_starts : forall G files args node a, described G files args node a ->
  (start G a = Ok tt <-> 0 <= a_flush _ a) /\ (forall e, start G a = Exn e -> e = ValueError).
Proof. exact start_iff. Qed.
Print Assumptions C100_starts.
(** Under a second it flushes without pause, and each flush fails once there is a counter. *)
Theorem C100_short_interval : forall (NN : Num) G E plugins files args node a (s : mst) ts,
  described G files args node a -> 0 <= a_flush _ a < 1000 ->
  start G a = Ok tt /\ period_s (a_flush _ a) = 0 /\ In (RCarbon, 0) (a_reports _ a) /\
  (p_counter s <> ∅ -> ntrunc (e_clock E (w_clk (p_w s))) = Ok ts ->
   exists s', grun (flush E (mp_cls E plugins) (a_flush _ a) 90) s = (s', [], Some ZeroDivisionError)).
Proof.
  intros NN G E plugins files args node a s ts D Hi.
  assert (Hz : a_flush _ a / 1000 = 0) by (apply Z.div_small; exact Hi).
  split; [apply (start_iff _ _ _ _ _ D), Hi|]. split; [exact Hz|]. split.
  - destruct (ds_reports _ _ _ _ _ D) as (x & _ & Hs). rewrite <- Hz. destruct Hs; left; reflexivity.
  - intros Hc Ht. destruct (C11_short_interval NN E plugins (a_flush _ a) 90 s Hi Hc ts Ht) as (s' & k & v & H & _). exists s'. exact H.
Qed.
Print Assumptions C100_short_interval.
(** A statsd-compliant service without routing rules, from its command line to carbon, its
    own statistics included: what was sent for a counter, plus what suspended and refused
    flushes hold, plus what is stored, plus what is scheduled, is what arrived. *)
Theorem C100_conservation : forall (NN : Num) (NL : NumLaw NN) (NX : NumExact NN) E plugins G files args configure_all node o log_info info a
  is_ip max closes refuses CE addrs h out key,
  well_formed files -> parse_options files args = Ok o -> create G configure_all node o log_info = (info, Ok a) ->
  value_of files args (B "routing") (OS []) -> 1000 <= a_flush _ a -> addrs = [] \/ closes = false ->
  arrivals max (map (fun a => (a, [])) addrs) (heard h) out ->
  let C := mp_cls E plugins in
  let d := o_daemon (service_run (S := mst) G (process_message E C) (flush E C) mp_init a max closes refuses CE is_ip addrs h) in
  exists es waiting accepted, written CE (a_instance _ a) h es /\
    picks (contribution key) (v_pending (d_srv d)) waiting /\
    picks (contribution key) (metrics_in (a_mon _ a) out ++ own es) accepted /\
    nadd (nadd (counts_in key (map (fun c => snd (fst c)) (d_calls d)))
      (nadd (counts_in key (flat_map pending (map snd (d_live d) ++ d_gone d)))
            (default n0 (p_counter (d_proc d) !! key)))) (nsum waiting)
    = nsum accepted.
Proof.
  intros NN NL NX E plugins G files args configure_all node o log_info info a is_ip max closes refuses CE addrs h out key Hw Hp Hc.
  exact (entire NL NX E plugins G files args node a is_ip max closes refuses CE addrs h out key Hw
    (proj1 (C100_described G files args configure_all node o log_info info a Hw Hp Hc))).
Qed.
Print Assumptions C100_conservation.

(** nothing given *)
Example C100_default_case : well_formed (fun _ => []) /\
  exists o, parse_options (fun _ => []) [] = Ok o /\
  create toy_engine (fun _ => Ok tt) (B "host") o false =
    (false, Ok (Asm toy_engine 20000 1000 Compliant false [] [] (B "host") [(RCarbon, 60)] 0
       [(B "127.0.0.1", 2004, None)] 60000 (Mon (B "txstatsd ping") (B "txstatsd pong")) 8125 None None)).
Proof.
  split; [intros p; constructor|]. apply parsed. vm_compute. reflexivity.
Qed.
(** "reactor" must be written in lower case, the others need not; unknown names are ignored *)
Definition C100_args : list (flag * str) :=
  [(FLong (B "report"), B "Process, reactor,REACTOR,,net ,nothing,net"); (FShort "i", B "500"); (FShort "s", B "0"); (FShort "N", B "me");
   (FShort "x", B "pre"); (FShort "t", B "8126"); (FShort "h", B "a"); (FShort "h", B "b"); (FShort "p", B "1"); (FShort "p", B "2");
   (FShort "n", B "x"); (FShort "n", B "y"); (FShort "n", B "z")].
Example C100_case : exists o a, parse_options (fun _ => []) C100_args = Ok o /\
  create toy_engine (fun _ => Ok tt) (B "host") o true = (true, Ok a) /\ described toy_engine (fun _ => []) C100_args (B "host") a /\
  a_reports _ a = [(RCarbon, 0); (RReactor, 60); (RMemCpu, 60); (RNet, 60); (RNet, 60)] /\ a_inspectors _ a = 1%nat /\
  a_class _ a = Conf (B "pre") (B "pre.me.") /\ a_ext _ a = true /\ a_tcp _ a = Some 8126 /\
  a_dests _ a = [(B "a", 1, Some (B "x")); (B "b", 2, Some (B "y"))].
Proof.
  assert (H : exists o, parse_options (fun _ => []) C100_args = Ok o /\
    match create toy_engine (fun _ => Ok tt) (B "host") o true with
    | (true, Ok a) => a_reports _ a = [(RCarbon, 0); (RReactor, 60); (RMemCpu, 60); (RNet, 60); (RNet, 60)] /\ a_inspectors _ a = 1%nat /\
      a_class _ a = Conf (B "pre") (B "pre.me.") /\ a_ext _ a = true /\ a_tcp _ a = Some 8126 /\
      a_dests _ a = [(B "a", 1, Some (B "x")); (B "b", 2, Some (B "y"))]
    | _ => False
    end) by (apply parsed; vm_compute; repeat split).
  destruct H as (o & Hp & H). destruct (create toy_engine (fun _ => Ok tt) (B "host") o true) as [[] [a|e]] eqn:Hc; try contradiction.
  exists o, a. split; [exact Hp|]. split; [exact Hc|]. split; [|exact H].
  exact (proj1 (C100_described toy_engine (fun _ => []) C100_args (fun _ => Ok tt) (B "host") o true true a ltac:(intros p; constructor) Hp Hc)).
Qed.
Example C100_refused_case : exists o, parse_options (fun _ => []) [(FShort "g", B "nonsense")] = Ok o /\
  snd (create toy_engine (fun _ => Ok tt) (B "host") o false) = Exn ValueError.
Proof. apply parsed. vm_compute. reflexivity. Qed.
(** a default service: a line arrives, a report is made, a flush begins *)
Example C100_run_case : exists o a, parse_options (fun _ => []) [] = Ok o /\
  create toy_engine (fun _ => Ok tt) (B "host") o false = (false, Ok a) /\
  value_of (fun _ => []) [] (B "routing") (OS []) /\ 1000 <= a_flush _ a /\
  let h := [ODaemon (DNet (SDatagram (B "u") (B "a:3|c"))); OReport (Ok [(B "n", VInt 1)]); ODaemon (DNet (SRun 0)); ODaemon DFlush; ODaemon (DStep 0)] in
  arrivals 100 [] (heard (NN := demo_num) h) [(B "u", B "a:3|c")] /\
  let d := o_daemon (service_run (S := mst) toy_engine (process_message demo_env (mp_cls demo_env [])) (flush demo_env (mp_cls demo_env [])) mp_init a 100 true
    (fun _ _ => None) demo_cenv (fun _ => false) [] h) in
  d_order d = [B "host.n:1|g"; B "a:3|c"] /\ length (d_calls d) = 1%nat.
Proof.
  destruct C100_default_case as (_ & o & Hp & Hc). exists o. eexists. split; [exact Hp|]. split; [exact Hc|]. split.
  { exists "g"%char, (OS []), KStr, [], []. split; [cbn; tauto|]. split; [|split; [constructor|reflexivity]].
    exists [], []. split; [constructor|]. split; [|reflexivity]. apply ff_none. exists []. split; [constructor|reflexivity]. }
  split; [cbn; discriminate|]. cbv zeta. split; [repeat constructor|]. split; vm_compute; reflexivity.
Qed.
