(** Marks of meters under every interleaving of receiving and flushing (C115). *)
From Coq Require Qcanon.
From Verif Require Import Base StrFacts Num NumFacts Env Stats Glob Metrics Gen GenFacts Processor
  LineSpec LineFacts FloatFacts ProcFacts ProcSpec ReceiveFacts ReceiveFacts2 ReceiveFacts3 PlugFacts Demo
  Sched FlushInv FlushOk SchedFacts XQFacts FlushSpec MeterFacts
  Client RouterSpec Router RouterFacts RouterProps Server ServerSpec ServerFacts Service ServiceSpec ServiceFacts
  ClientMetrics Daemon DaemonFacts Own OwnSpec OwnFacts Assembly AssemblySpec AssemblyFacts Entire TimerSched TimerDaemon MeterSched MeterDaemon
  Props_Metrics Props_Service Props_Daemon Props_Assembly.
Open Scope Z_scope.

(** C115.  Lines arrive and any number of flushes are begun, resumed, fail and are abandoned in
    any order.  The marks received for a meter, in order of arrival, are those of the reports
    made followed by those not reported yet, whose sum is stored.  Everything sent or held by an
    unfinished flush is made of two datapoints per report, the count of everything marked so far
    and the rate of what was marked since the report before ([meter_groups]), and of datapoints
    that are not the meter's. *)
Theorem C115_rounds : forall sq (E : env (NN := XQ sq)) plugins key es received,
  picks (fun m => meter_sample (NN := XQ sq) m key) (lines es) received ->
  let y := sys_run E plugins es sys_init in
  exists i rounds left rest,
    received = in_rounds rounds ++ left /\ apart (e_clock E i) rounds /\
    holds_marks (p_meter (y_st y) !! key) received left /\
    y_out y ++ flat_map pending (y_live y ++ y_gone y) ≡ₚ meter_groups (NN := XQ sq) key (e_clock E i) [] rounds ++ rest /\
    Forall (not_meters (counted (lines es)) key) rest.
Proof. exact meters_kept. Qed.
Print Assumptions C115_rounds.
(** so each count sent is that of the marks received up to some moment *)
Theorem C115_count : forall sq (E : env (NN := XQ sq)) plugins key es received d,
  picks (fun m => meter_sample (NN := XQ sq) m key) (lines es) received -> ~ counted (lines es) (B "meter." ++ key ++ B ".count") ->
  In d (y_out (sys_run E plugins es sys_init)) -> dp_name d = B "stats.meter." ++ key ++ B ".count" ->
  exists before after, received = before ++ after /\ dp_value d = VF (nround 6 (nsum (NN := XQ sq) before)).
Proof. exact meter_point. Qed.
Print Assumptions C115_count.
(** every arithmetic, doubles included: the meter goes through one history of marks and reports,
    and what its reports give is sent *)
Theorem C115_any : forall (NN : Num) (E : env) plugins key es,
  let y := sys_run E plugins es sys_init in
  exists i ops rest,
    picks (fun m => meter_sample m key) (lines es) (marks ops) /\
    p_meter (y_st y) !! key = match marks ops with [] => None | _ => Some (mrun ops (fresh_meter key (B "stats.meter.") (e_clock E i))) end /\
    y_out y ++ flat_map pending (y_live y ++ y_gone y) ≡ₚ outs (fresh_meter key (B "stats.meter.") (e_clock E i)) ops ++ rest /\
    Forall (not_meters (counted (lines es)) key) rest.
Proof. exact @meters_any. Qed.
Print Assumptions C115_any.
(** the daemon of C95, with routing rules: the marks of what they make of the lines *)
Theorem C115_daemon : forall sq (E : env (NN := XQ sq)) plugins G interval percent cfg max refuses config ls rs rws links addrs es out key,
  build_rules G true config [] = (ls, Ok rs) -> rules_of config rws -> length links = length ls ->
  arrivals max (map (fun a => (a, [])) addrs) (nets es) out ->
  (forall m, In m (metrics_in cfg out ++ own es) -> exists ts, delivers G rws m ts) ->
  let C := mp_cls E plugins in
  let d := drun (NN := XQ sq) G (process_message E C) (flush E C interval percent) rs cfg max false refuses (d_new addrs links mp_init) es in
  exists handled tss,
    handled ++ v_pending (d_srv d) ≡ₚ metrics_in cfg out ++ own es /\ Forall2 (delivers G rws) handled tss /\
    forall received, picks (fun m => meter_sample (NN := XQ sq) m key) (concat tss) received ->
    exists i rounds left rest,
      received = in_rounds rounds ++ left /\ apart (e_clock E i) rounds /\
      holds_marks (p_meter (d_proc d) !! key) received left /\
      map (fun c => snd (fst c)) (d_calls d) ++ flat_map pending (map snd (d_live d) ++ d_gone d) ≡ₚ meter_groups (NN := XQ sq) key (e_clock E i) [] rounds ++ rest /\
      Forall (not_meters (counted (concat tss)) key) rest.
Proof.
  intros sq E plugins G interval percent cfg max refuses config ls rs rws links addrs es out key Hb Hr Hl.
  exact (daemon_meters sq E plugins G interval percent cfg max refuses config ls rs rws links Hb Hr Hl addrs es out key).
Qed.
Print Assumptions C115_daemon.
(** the service of C100 *)
Theorem C115_service : forall sq (E : env (NN := XQ sq)) plugins G files args configure_all node o log_info info a is_ip max closes refuses CE addrs h out key,
  well_formed files -> parse_options files args = Ok o -> create G configure_all node o log_info = (info, Ok a) ->
  value_of files args (B "routing") (OS []) -> addrs = [] \/ closes = false ->
  arrivals max (map (fun a => (a, [])) addrs) (heard (NN := XQ sq) h) out ->
  let C := mp_cls E plugins in
  let d := o_daemon (service_run (NN := XQ sq) (S := mst) G (process_message E C) (flush E C) mp_init a max closes refuses CE is_ip addrs h) in
  exists es, written CE (a_instance _ a) h es /\
    forall received,
      picks (fun m => meter_sample (NN := XQ sq) m key) (metrics_in (a_mon _ a) out ++ own es) received ->
      exists i rounds left rest scheduled,
        picks (fun m => meter_sample (NN := XQ sq) m key) (v_pending (d_srv d)) scheduled /\
        in_rounds rounds ++ left ++ scheduled ≡ₚ received /\ apart (e_clock E i) rounds /\
        holds_marks (p_meter (d_proc d) !! key) (in_rounds rounds ++ left) left /\
        map (fun c => snd (fst c)) (d_calls d) ++ flat_map pending (map snd (d_live d) ++ d_gone d) ≡ₚ meter_groups (NN := XQ sq) key (e_clock E i) [] rounds ++ rest /\
        Forall (not_meters (counted (metrics_in (a_mon _ a) out ++ own es)) key) rest.
Proof.
  intros sq E plugins G files args configure_all node o log_info info a is_ip max closes refuses CE addrs h out key Hw Hp Hc Hro Hcl Ha.
  exact (service_meters sq E plugins G files args node a is_ip max closes refuses CE addrs h out key
    Hw (proj1 (C100_described G files args configure_all node o log_info info a Hw Hp Hc)) Hro Hcl Ha).
Qed.
Print Assumptions C115_service.

(** 5 and 7 arrive and a flush reports them; it is suspended between the count and the rate, 9
    arrives, the flush is abandoned, another reports 9, and 2 arrives; and a counter whose rate
    goes by the name of the count of the meter *)
Definition C115_events : list event :=
  [Recv (B "q:5|m"); Recv (B "q:7|m"); Recv (B "meter.q.count:30|c"); Start 10000 90;
   Resume 0; Resume 0; Resume 0; Recv (B "q:9|m"); Drop 0; Start 10000 90; Resume 0; Resume 0; Resume 0; Resume 0; Recv (B "q:2|m")].
Definition m_of (n : Z) : Num.num (Num := demo_num) := nlit (Num := demo_num) (FDec false n 0).
Lemma mark_by m key f0 fs d : typed_line m (B "m") key (f0 :: fs) -> reads (NN := demo_num) f0 d -> meter_sample (NN := demo_num) m key d.
Proof. intros H1 H2. exists f0, fs. auto. Qed.
Definition points (l : list (dp (NN := demo_num))) : list (str * bool) :=
  map (fun d => (dp_name d, match dp_value d with
    | VF x => existsb (fun v => neqb (Num := demo_num) x (nofZ (Num := demo_num) v)) [12; 21; 3; 30] | VI _ => false end)) l.
Example C115_case : picks (fun m => meter_sample (NN := demo_num) m (B "q")) (lines C115_events) [m_of 5; m_of 7; m_of 9; m_of 2] /\
  counted (lines C115_events) (B "meter.q.count") /\
  let y := sys_run (NN := demo_num) demo_env [] C115_events sys_init in
  points (y_out y) = [(B "stats.meter.q.count", true); (B "stats_counts.meter.q.count", true); (B "stats.meter.q.count", true);
    (B "stats.meter.q.count", false); (B "stats_counts.meter.q.count", false); (B "stats.meter.q.count", true); (B "stats.meter.q.rate", false)] /\
  map (fun d => dp_name d) (flat_map pending (y_live y ++ y_gone y)) = [B "stats.meter.q.rate"] /\
  option_map (fun m => (neqb (Num := demo_num) (me_value m) (m_of 2), neqb (Num := demo_num) (me_count m) (m_of 21))) (p_meter (y_st y) !! B "q") = Some (true, true).
Proof.
  split.
  { apply picks_hit; [apply (mark_by _ _ (B "5") [B "m"]); [line|number]|]. apply picks_hit; [apply (mark_by _ _ (B "7") [B "m"]); [line|number]|].
    apply picks_miss.
    - assert (Ht0 : typed_line (B "meter.q.count:30|c") (B "c") (B "meter.q.count") [B "30"; B "c"]) by line.
      intros a (f0 & fs & Ht & _). destruct (typed_line_fun _ _ _ _ _ _ _ Ht Ht0) as (? & _ & _). discriminate.
    - apply picks_hit; [apply (mark_by _ _ (B "9") [B "m"]); [line|number]|]. apply picks_hit; [apply (mark_by _ _ (B "2") [B "m"]); [line|number]|constructor]. }
  split; [exists (B "meter.q.count:30|c"), [B "30"; B "c"]; split; [cbn; tauto|line]|].
  cbv zeta. split; [vm_compute; reflexivity|]. split; vm_compute; reflexivity.
Qed.
(** the counter in the way: without the condition on the counters the claim about counts fails *)
Theorem C115_clash_refuted : exists es,
  picks (fun m => meter_sample (NN := demo_num) m (B "q")) (lines es) [] /\
  existsb (fun d => str_eqb (dp_name d) (B "stats.meter.q.count") &&
      match dp_value d with VF x => negb (neqb (Num := demo_num) x (nround (Num := demo_num) 6 (nsum (NN := demo_num) []))) | VI _ => false end)
    (y_out (sys_run (NN := demo_num) demo_env [] es sys_init)) = true.
Proof.
  exists [Recv (B "meter.q.count:30|c"); Start 10000 90; Resume 0]. split.
  { apply picks_miss; [|constructor]. assert (Ht0 : typed_line (B "meter.q.count:30|c") (B "c") (B "meter.q.count") [B "30"; B "c"]) by line.
    intros a (f0 & fs & Ht & _). destruct (typed_line_fun _ _ _ _ _ _ _ Ht Ht0) as (? & _ & _). discriminate. }
  vm_compute. reflexivity.
Qed.
Print Assumptions C115_clash_refuted.
(** over UDP: 5 and 7 are reported, carbon refuses the rate, 9 is stored, 2 scheduled *)
Definition C115_devents : list devent :=
  [DNet (SDatagram (B "u") (B "q:5|m")); DNet (SDatagram (B "u") (B "q:7|m")); DNet (SRun 0); DNet (SRun 0); DFlush; DStep 0;
   DNet (SDatagram (B "u") (B "q:9|m")); DStep 0; DNet (SRun 0); DNet (SDatagram (B "u") (B "q:2|m"))].
Definition C115_out : list (str * str) := [(B "u", B "q:5|m"); (B "u", B "q:7|m"); (B "u", B "q:9|m"); (B "u", B "q:2|m")].
Example C115_daemon_case : arrivals 100 (map (fun a => (a, [])) [B "t"]) (nets C115_devents) C115_out /\
  build_rules toy_engine true [] [] = ([], Ok []) /\ rules_of [] [] /\
  (forall m, In m (metrics_in demo_mon C115_out ++ own C115_devents) -> exists ts, delivers toy_engine [] m ts) /\
  let d := demo_daemon carbon [] C115_devents in
  v_pending (d_srv d) = [B "q:2|m"] /\
  map (fun c => dp_name (snd (fst c))) (d_calls d) = [B "stats.meter.q.count"; B "stats.meter.q.rate"] /\
  option_map (fun m => (neqb (Num := demo_num) (me_value m) (m_of 9), neqb (Num := demo_num) (me_count m) (m_of 12))) (p_meter (d_proc d) !! B "q") = Some (true, true).
Proof.
  split; [repeat constructor|]. split; [vm_compute; reflexivity|]. split; [apply rules_by; vm_compute; reflexivity|].
  split; [intros m _; apply skipped; intros t k fs _; constructor|].
  cbv zeta. split; [vm_compute; reflexivity|]. split; vm_compute; reflexivity.
Qed.
