(** The source of every datapoint (C116). *)
From Coq Require Qcanon.
From Verif Require Import Base StrFacts Num NumFacts Env Stats Glob Metrics Gen GenFacts Processor
  LineSpec LineFacts FloatFacts ProcFacts ProcSpec ReceiveFacts ReceiveFacts2 ReceiveFacts3 PlugFacts Demo
  Sched FlushInv FlushOk SchedFacts XQFacts FlushSpec
  Client RouterSpec Router RouterFacts RouterProps Server ServerSpec ServerFacts Service ServiceSpec ServiceFacts
  ClientMetrics Daemon DaemonFacts Own OwnSpec OwnFacts Assembly AssemblySpec AssemblyFacts Entire TimerSched TimerDaemon Provenance ProvDaemon
  Props_Metrics Props_Service Props_Daemon Props_Assembly.
Open Scope Z_scope.

(** C116.  Lines arrive and any number of flushes are begun, resumed, fail and are abandoned in
    any order.  Every datapoint sent, or held by an unfinished flush, comes from a line received
    ([comes_from]): the name is that of a metric of that kind for which a line has been received,
    the value of a gauge is one received for it; the rest are the daemon's own figures. *)
Theorem C116_sent : forall (NN : Num) (E : env) plugins es,
  let y := sys_run E plugins es sys_init in
  Forall (comes_from plugins (lines es)) (y_out y ++ flat_map pending (y_live y ++ y_gone y)).
Proof. exact @sent_from. Qed.
Print Assumptions C116_sent.
Theorem C116_gauge : forall (NN : Num) (E : env) plugins key es d,
  In d (y_out (sys_run E plugins es sys_init)) -> dp_name d = B "stats.gauge." ++ key ++ B ".value" ->
  ~ counted (lines es) (B "gauge." ++ key ++ B ".value") ->
  exists m v, In m (lines es) /\ gauge_sample m key v /\ dp_value d = VF v.
Proof. exact @gauge_from. Qed.
Print Assumptions C116_gauge.
(** the daemon of C95: the lines are what arrived over UDP and TCP and what it wrote itself *)
Theorem C116_daemon : forall (NN : Num) (E : env) plugins G interval percent cfg max refuses config ls rs rws links addrs es out,
  build_rules G true config [] = (ls, Ok rs) -> rules_of config rws -> length links = length ls ->
  arrivals max (map (fun a => (a, [])) addrs) (nets es) out ->
  Forall (unmatched rws) (metrics_in cfg out ++ own es) ->
  let C := mp_cls E plugins in
  let d := drun G (process_message E C) (flush E C interval percent) rs cfg max false refuses (d_new addrs links mp_init) es in
  Forall (comes_from plugins (metrics_in cfg out ++ own es))
    (map (fun c => snd (fst c)) (d_calls d) ++ flat_map pending (map snd (d_live d) ++ d_gone d)).
Proof.
  intros NN E plugins G interval percent cfg max refuses config ls rs rws links addrs es out Hb Hr Hl.
  exact (daemon_from_same E plugins G interval percent cfg max refuses config ls rs rws links Hb Hr Hl addrs es out).
Qed.
Print Assumptions C116_daemon.
(** with routing rules: what they make of the lines received *)
Theorem C116_routed : forall (NN : Num) (E : env) plugins G interval percent cfg max refuses config ls rs rws links addrs es out,
  build_rules G true config [] = (ls, Ok rs) -> rules_of config rws -> length links = length ls ->
  arrivals max (map (fun a => (a, [])) addrs) (nets es) out ->
  (forall m, In m (metrics_in cfg out ++ own es) -> exists ts, delivers G rws m ts) ->
  let C := mp_cls E plugins in
  let d := drun G (process_message E C) (flush E C interval percent) rs cfg max false refuses (d_new addrs links mp_init) es in
  exists handled tss,
    handled ++ v_pending (d_srv d) ≡ₚ metrics_in cfg out ++ own es /\ Forall2 (delivers G rws) handled tss /\
    Forall (comes_from plugins (concat tss)) (map (fun c => snd (fst c)) (d_calls d) ++ flat_map pending (map snd (d_live d) ++ d_gone d)).
Proof.
  intros NN E plugins G interval percent cfg max refuses config ls rs rws links addrs es out Hb Hr Hl.
  exact (daemon_from E plugins G interval percent cfg max refuses config ls rs rws links Hb Hr Hl addrs es out).
Qed.
Print Assumptions C116_routed.
(** the service of C100 *)
Theorem C116_service : forall (NN : Num) (E : env) plugins G files args configure_all node o log_info info a is_ip max closes refuses CE addrs h out,
  well_formed files -> parse_options files args = Ok o -> create G configure_all node o log_info = (info, Ok a) ->
  value_of files args (B "routing") (OS []) -> addrs = [] \/ closes = false ->
  arrivals max (map (fun a => (a, [])) addrs) (heard h) out ->
  let C := mp_cls E plugins in
  let d := o_daemon (service_run (S := mst) G (process_message E C) (flush E C) mp_init a max closes refuses CE is_ip addrs h) in
  exists es, written CE (a_instance _ a) h es /\
    Forall (comes_from plugins (metrics_in (a_mon _ a) out ++ own es)) (map (fun c => snd (fst c)) (d_calls d) ++ flat_map pending (map snd (d_live d) ++ d_gone d)).
Proof.
  intros NN E plugins G files args configure_all node o log_info info a is_ip max closes refuses CE addrs h out Hw Hp Hc Hro Hcl Ha.
  exact (service_from E plugins G files args node a is_ip max closes refuses CE addrs h out
    Hw (proj1 (C100_described G files args configure_all node o log_info info a Hw Hp Hc)) Hro Hcl Ha).
Qed.
Print Assumptions C116_service.

(** a gauge of 5 and a counter in the way of its name: both are sent as stats.gauge.g.value, and
    the value of the counter is none the gauge received *)
Definition C116_events : list event :=
  [Recv (B "g:5|g"); Recv (B "gauge.g.value:30|c"); Recv (B "noise"); Start 10000 90; Resume 0; Resume 0; Resume 0; Resume 0; Resume 0].
Definition value_is (z : Z) (d : dp (NN := demo_num)) : bool :=
  match dp_value d with VF x => neqb (Num := demo_num) x (nofZ (Num := demo_num) z) | VI n => n =? z end.
Example C116_case :
  let y := sys_run (NN := demo_num) demo_env [] C116_events sys_init in
  map (fun d => dp_name d) (y_out y) = [B "stats.gauge.g.value"; B "stats_counts.gauge.g.value"; B "stats.gauge.g.value"; B "statsd.numStats"; B "statsd.flush.counter.count"] /\
  map (value_is 3) (y_out y) = [true; false; false; false; false] /\ map (value_is 5) (y_out y) = [false; false; true; false; false] /\
  counted (lines C116_events) (B "gauge.g.value") /\
  map (fun d => dp_name d) (flat_map pending (y_live y ++ y_gone y)) = [B "statsd.flush.counter.duration"].
Proof.
  cbv zeta. split; [vm_compute; reflexivity|]. split; [vm_compute; reflexivity|]. split; [vm_compute; reflexivity|].
  split; [|vm_compute; reflexivity]. exists (B "gauge.g.value:30|c"), [B "30"; B "c"]. split; [cbn; tauto|line].
Qed.
(** a gauge over UDP; the flush has sent it and stands at the daemon's own figures *)
Definition C116_devents : list devent :=
  [DNet (SDatagram (B "u") (B "g:5|g")); DNet (SRun 0); DFlush; DStep 0; DNet (SDatagram (B "u") (B "h:7|g")); DStep 0].
Definition C116_out : list (str * str) := [(B "u", B "g:5|g"); (B "u", B "h:7|g")].
Example C116_daemon_case : arrivals 100 (map (fun a => (a, [])) [B "t"]) (nets C116_devents) C116_out /\
  build_rules toy_engine true [] [] = ([], Ok []) /\ rules_of [] [] /\
  Forall (unmatched []) (metrics_in demo_mon C116_out ++ own C116_devents) /\
  (forall m, In m (metrics_in demo_mon C116_out ++ own C116_devents) -> exists ts, delivers toy_engine [] m ts) /\
  let d := demo_daemon (fun _ _ => None) [] C116_devents in
  map (fun c => dp_name (snd (fst c))) (d_calls d) = [B "stats.gauge.g.value"; B "statsd.numStats"].
Proof.
  assert (Hu : forall m, unmatched [] m) by (intros m t k fs _; constructor).
  split; [repeat constructor|]. split; [vm_compute; reflexivity|]. split; [apply rules_by; vm_compute; reflexivity|].
  split; [repeat constructor; apply Hu|]. split; [intros m _; apply skipped, Hu|]. vm_compute. reflexivity.
Qed.
