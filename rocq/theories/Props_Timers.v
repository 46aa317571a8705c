(** Durations of timers under every interleaving of receiving and flushing (C112). *)
From Coq Require Qcanon.
From Verif Require Import Base StrFacts Num NumFacts Env Stats Glob Metrics Gen GenFacts Processor
  LineSpec LineFacts FloatFacts ProcFacts ProcSpec ReceiveFacts ReceiveFacts2 ReceiveFacts3 PlugFacts Demo
  Sched FlushInv FlushOk SchedFacts TimerFacts XQFacts FlushSpec
  Client RouterSpec Router RouterFacts RouterProps Server ServerSpec ServerFacts Service ServiceSpec ServiceFacts
  ClientMetrics Daemon DaemonFacts Own OwnSpec OwnFacts Assembly AssemblySpec AssemblyFacts Entire B64 TimerSched TimerDaemon Trim64 TimerDouble
  Props_Metrics Props_Service Props_Daemon Props_Assembly.
Open Scope Z_scope.

(** C112.  Lines arrive and any number of flushes are begun, resumed, fail and are abandoned in
    any order.  The durations received for a timer, in order of arrival, are the batches the
    flushes have taken followed by what is stored.  Everything sent or held by an unfinished
    flush is made of one group of five datapoints per batch ([timer_lines], the statistics of
    exactly these durations) and of datapoints that are not the timer's. *)
Theorem C112_batches : forall sq (E : env (NN := XQ sq)) plugins key es received,
  (forall p, begun_with es p -> 26 <= p <= 100) ->
  picks (fun m => timer_sample (NN := XQ sq) m key) (lines es) received -> Forall (fun x => x <> NaN) received ->
  let y := sys_run E plugins es sys_init in
  exists batches groups rest,
    received = concat batches ++ default [] (p_timer (y_st y) !! key) /\
    Forall2 (reports (NN := XQ sq) (begun_with es) key) batches groups /\
    y_out y ++ flat_map pending (y_live y ++ y_gone y) ≡ₚ concat groups ++ rest /\
    Forall (alien (counted (lines es)) key) rest.
Proof.
  intros sq E plugins key es received HP Hp Hr.
  exact (timers_kept (XQ sq) _ _ _ (summarises_xq sq (Z.of_nat (length received))) E plugins key es received HP Hp Hr (Z.le_refl _)).
Qed.
Print Assumptions C112_batches.
(** the counts reported, those on their way and the number of durations stored add up *)
Theorem C112_counts : forall sq (E : env (NN := XQ sq)) plugins key es received,
  (forall p, begun_with es p -> 26 <= p <= 100) ->
  picks (fun m => timer_sample (NN := XQ sq) m key) (lines es) received -> Forall (fun x => x <> NaN) received ->
  let y := sys_run E plugins es sys_init in
  counts_of key (y_out y) + counts_of key (flat_map pending (y_live y ++ y_gone y)) +
    Z.of_nat (length (default [] (p_timer (y_st y) !! key))) = Z.of_nat (length received).
Proof.
  intros sq E plugins key es received HP Hp Hr.
  exact (timers_counted (XQ sq) _ _ _ (summarises_xq sq (Z.of_nat (length received))) E plugins key es received HP Hp Hr (Z.le_refl _)).
Qed.
Print Assumptions C112_counts.
(** every arithmetic, doubles included, and every percentile: the statistics are those of
    [timer_stats]; a batch for which they cannot be computed is lost, and its flush has failed *)
Theorem C112_any : forall (NN : Num) (E : env) plugins key es received,
  picks (fun m => timer_sample m key) (lines es) received ->
  let y := sys_run E plugins es sys_init in
  exists batches groups rest,
    received = concat batches ++ default [] (p_timer (y_st y) !! key) /\ Forall (fun b => b <> []) batches /\
    Forall2 (fate key (begun_with es) (y_exn y)) batches groups /\
    y_out y ++ flat_map pending (y_live y ++ y_gone y) ≡ₚ concat groups ++ rest /\
    Forall (alien (counted (lines es)) key) rest.
Proof. exact @timers_any. Qed.
Print Assumptions C112_any.
(** the daemon of C95: network, TCP streams, routing rules that match none of the lines *)
Theorem C112_daemon : forall sq (E : env (NN := XQ sq)) plugins G interval percent cfg max refuses config ls rs rws links addrs es out key received,
  build_rules G true config [] = (ls, Ok rs) -> rules_of config rws -> length links = length ls -> 26 <= percent <= 100 ->
  arrivals max (map (fun a => (a, [])) addrs) (nets es) out ->
  Forall (unmatched rws) (metrics_in cfg out ++ own es) ->
  picks (fun m => timer_sample (NN := XQ sq) m key) (metrics_in cfg out ++ own es) received -> Forall (fun x => x <> NaN) received ->
  let C := mp_cls E plugins in
  let d := drun (NN := XQ sq) G (process_message E C) (flush E C interval percent) rs cfg max false refuses (d_new addrs links mp_init) es in
  exists batches groups rest scheduled,
    picks (fun m => timer_sample (NN := XQ sq) m key) (v_pending (d_srv d)) scheduled /\
    concat batches ++ default [] (p_timer (d_proc d) !! key) ++ scheduled ≡ₚ received /\
    Forall2 (reports (NN := XQ sq) (fun p => p = percent) key) batches groups /\
    map (fun c => snd (fst c)) (d_calls d) ++ flat_map pending (map snd (d_live d) ++ d_gone d) ≡ₚ concat groups ++ rest /\
    Forall (alien (counted (metrics_in cfg out ++ own es)) key) rest.
Proof.
  intros sq E plugins G interval percent cfg max refuses config ls rs rws links addrs es out key received Hb Hr Hl Hp Ha Hu Hs Hn.
  exact (daemon_timers (XQ sq) _ _ _ (summarises_xq sq (Z.of_nat (length received))) E plugins G interval percent cfg max refuses config ls rs rws links
    Hb Hr Hl Hp addrs es out key received Ha Hu Hs Hn (Z.le_refl _)).
Qed.
Print Assumptions C112_daemon.
(** rules that rewrite, drop and redirect: the durations of what they make of the lines *)
Theorem C112_routed : forall sq (E : env (NN := XQ sq)) plugins G interval percent cfg max refuses config ls rs rws links addrs es out key,
  build_rules G true config [] = (ls, Ok rs) -> rules_of config rws -> length links = length ls -> 26 <= percent <= 100 ->
  arrivals max (map (fun a => (a, [])) addrs) (nets es) out ->
  (forall m, In m (metrics_in cfg out ++ own es) -> exists ts, delivers G rws m ts) ->
  let C := mp_cls E plugins in
  let d := drun (NN := XQ sq) G (process_message E C) (flush E C interval percent) rs cfg max false refuses (d_new addrs links mp_init) es in
  exists handled tss,
    handled ++ v_pending (d_srv d) ≡ₚ metrics_in cfg out ++ own es /\ Forall2 (delivers G rws) handled tss /\
    forall received, picks (fun m => timer_sample (NN := XQ sq) m key) (concat tss) received -> Forall (fun x => x <> NaN) received ->
    exists batches groups rest,
      received = concat batches ++ default [] (p_timer (d_proc d) !! key) /\
      Forall2 (reports (NN := XQ sq) (fun p => p = percent) key) batches groups /\
      map (fun c => snd (fst c)) (d_calls d) ++ flat_map pending (map snd (d_live d) ++ d_gone d) ≡ₚ concat groups ++ rest /\
      Forall (alien (counted (concat tss)) key) rest.
Proof.
  intros sq E plugins G interval percent cfg max refuses config ls rs rws links addrs es out key Hb Hr Hl Hp Ha Hd C d.
  destruct (daemon_timers_routed (XQ sq) (fun p => 26 <= p <= 100) (fun x : xq => x <> NaN) E plugins G interval percent cfg max refuses config ls rs rws links
    Hb Hr Hl Hp addrs es out key Ha Hd) as (handled & tss & H1 & H2 & H3).
  exists handled, tss. split; [exact H1|]. split; [exact H2|]. intros received Hs Hn.
  exact (H3 (Z.of_nat (length received)) received (summarises_xq sq _) Hs Hn (Z.le_refl _)).
Qed.
Print Assumptions C112_routed.
(** the service of C100 *)
Theorem C112_service : forall sq (E : env (NN := XQ sq)) plugins G files args configure_all node o log_info info a is_ip max closes refuses CE addrs h out key,
  well_formed files -> parse_options files args = Ok o -> create G configure_all node o log_info = (info, Ok a) ->
  value_of files args (B "routing") (OS []) -> addrs = [] \/ closes = false ->
  arrivals max (map (fun a => (a, [])) addrs) (heard (NN := XQ sq) h) out ->
  let C := mp_cls E plugins in
  let d := o_daemon (service_run (NN := XQ sq) (S := mst) G (process_message E C) (flush E C) mp_init a max closes refuses CE is_ip addrs h) in
  exists es, written CE (a_instance _ a) h es /\
    forall received,
      picks (fun m => timer_sample (NN := XQ sq) m key) (metrics_in (a_mon _ a) out ++ own es) received -> Forall (fun x => x <> NaN) received ->
      exists batches groups rest scheduled,
        picks (fun m => timer_sample (NN := XQ sq) m key) (v_pending (d_srv d)) scheduled /\
        concat batches ++ default [] (p_timer (d_proc d) !! key) ++ scheduled ≡ₚ received /\
        Forall2 (reports (NN := XQ sq) (fun p => p = 90) key) batches groups /\
        map (fun c => snd (fst c)) (d_calls d) ++ flat_map pending (map snd (d_live d) ++ d_gone d) ≡ₚ concat groups ++ rest /\
        Forall (alien (counted (metrics_in (a_mon _ a) out ++ own es)) key) rest.
Proof.
  intros sq E plugins G files args configure_all node o log_info info a is_ip max closes refuses CE addrs h out key Hw Hp Hc Hro Hcl Ha C d.
  destruct (service_timers (XQ sq) (fun p => 26 <= p <= 100) (fun x : xq => x <> NaN) E plugins G files args node a is_ip max closes refuses CE addrs h out key
    ltac:(lia) Hw (proj1 (C100_described G files args configure_all node o log_info info a Hw Hp Hc)) Hro Hcl Ha) as (es & H1 & H2).
  exists es. split; [exact H1|]. intros received Hs Hn.
  exact (H2 (Z.of_nat (length received)) received (summarises_xq sq _) Hs Hn (Z.le_refl _)).
Qed.
Print Assumptions C112_service.

(** 5 and 7 arrive, a flush takes them and is suspended after two datapoints, 9 arrives, the
    flush is abandoned; and a counter whose rate goes by the name of a count of the timer *)
Definition C112_events : list event :=
  [Recv (B "t:5|ms"); Recv (B "t:7|ms"); Recv (B "timers.t.count:30|c"); Start 10000 90;
   Resume 0; Resume 0; Resume 0; Resume 0; Recv (B "t:9|ms"); Drop 0].
Lemma sample_by m key f0 fs d : typed_line m (B "ms") key (f0 :: fs) -> reads (NN := demo_num) f0 d -> timer_sample (NN := demo_num) m key d.
Proof. intros H1 H2. exists f0, fs. auto. Qed.
Definition ms_of (n : Z) : Num.num (Num := demo_num) := nlit (Num := demo_num) (FDec false n 0).
Example C112_case : (forall p, begun_with C112_events p -> 26 <= p <= 100) /\
  picks (fun m => timer_sample (NN := demo_num) m (B "t")) (lines C112_events) [ms_of 5; ms_of 7; ms_of 9] /\
  Forall (fun x => x <> NaN) [ms_of 5; ms_of 7; ms_of 9] /\
  let y := sys_run (NN := demo_num) demo_env [] C112_events sys_init in
  default [] (p_timer (y_st y) !! B "t") = [ms_of 9] /\
  map (fun d => dp_name d) (y_out y) = [B "stats.timers.t.count"; B "stats_counts.timers.t.count"; B "stats.timers.t.count"; B "stats.timers.t.lower"] /\
  map (fun d => dp_name d) (flat_map pending (y_live y ++ y_gone y)) = [B "stats.timers.t.mean"; B "stats.timers.t.upper"; B "stats.timers.t.upper_90"] /\
  counts_of (B "t") (y_out y) = 2 /\ counted (lines C112_events) (B "timers.t.count").
Proof.
  split; [intros p (i & Hi); cbn in Hi; repeat (destruct Hi as [Hi|Hi]; [try discriminate Hi; injection Hi as _ <-; lia|]); destruct Hi|].
  split.
  { apply picks_hit; [apply (sample_by _ _ (B "5") [B "ms"]); [line|number]|]. apply picks_hit; [apply (sample_by _ _ (B "7") [B "ms"]); [line|number]|].
    apply picks_miss; [|apply picks_hit; [apply (sample_by _ _ (B "9") [B "ms"]); [line|number]|constructor]].
    assert (Ht0 : typed_line (B "timers.t.count:30|c") (B "c") (B "timers.t.count") [B "30"; B "c"]) by line.
    intros a (f0 & fs & Ht & _). destruct (typed_line_fun _ _ _ _ _ _ _ Ht Ht0) as (? & _ & _). discriminate. }
  split; [repeat constructor; discriminate|]. cbv zeta. split; [vm_compute; reflexivity|]. split; [vm_compute; reflexivity|].
  split; [vm_compute; reflexivity|]. split; [vm_compute; reflexivity|].
  exists (B "timers.t.count:30|c"), [B "30"; B "c"]. split; [cbn; tauto|line].
Qed.
(** with a percentile of 25 the statistics of two durations cannot be computed: they are lost *)
Theorem C112_percentile_refuted : exists es received,
  (forall p, begun_with es p -> p = 25) /\
  picks (fun m => timer_sample (NN := demo_num) m (B "t")) (lines es) received /\ length received = 2%nat /\
  let y := sys_run (NN := demo_num) demo_env [] es sys_init in
  y_live y = [] /\ y_gone y = [] /\ y_out y = [] /\ p_timer (y_st y) !! B "t" = Some [] /\ y_exn y = [IndexError].
Proof.
  exists [Recv (B "t:5|ms"); Recv (B "t:7|ms"); Start 10000 25; Resume 0], [ms_of 5; ms_of 7].
  split; [intros p (i & Hi); cbn in Hi; repeat (destruct Hi as [Hi|Hi]; [try discriminate Hi; injection Hi as _ <-; lia|]); destruct Hi|].
  split; [apply picks_hit; [apply (sample_by _ _ (B "5") [B "ms"]); [line|number]|]; apply picks_hit; [apply (sample_by _ _ (B "7") [B "ms"]); [line|number]|]; constructor|]. split; [reflexivity|].
  cbv zeta. repeat split; vm_compute; reflexivity.
Qed.
Print Assumptions C112_percentile_refuted.
(** two durations arrive and are flushed, carbon refuses the second datapoint; a third is stored,
    a fourth scheduled *)
Definition C112_devents : list devent :=
  [DNet (SDatagram (B "u") (B "t:5|ms")); DNet (SDatagram (B "u") (B "t:7|ms")); DNet (SRun 0); DNet (SRun 0); DFlush; DStep 0;
   DNet (SDatagram (B "u") (B "t:9|ms")); DStep 0; DNet (SRun 0); DNet (SDatagram (B "u") (B "t:2|ms"))].
Definition C112_out : list (str * str) := [(B "u", B "t:5|ms"); (B "u", B "t:7|ms"); (B "u", B "t:9|ms"); (B "u", B "t:2|ms")].
Example C112_daemon_case : arrivals 100 (map (fun a => (a, [])) [B "t"]) (nets C112_devents) C112_out /\
  build_rules toy_engine true [] [] = ([], Ok []) /\ rules_of [] [] /\
  Forall (unmatched []) (metrics_in demo_mon C112_out ++ own C112_devents) /\
  picks (fun m => timer_sample (NN := demo_num) m (B "t")) (metrics_in demo_mon C112_out ++ own C112_devents) [ms_of 5; ms_of 7; ms_of 9; ms_of 2] /\
  let d := demo_daemon carbon [] C112_devents in
  v_pending (d_srv d) = [B "t:2|ms"] /\ default [] (p_timer (d_proc d) !! B "t") = [ms_of 9] /\
  map (fun c => dp_name (snd (fst c))) (d_calls d) = [B "stats.timers.t.count"; B "stats.timers.t.lower"] /\
  map (fun x => dp_name x) (flat_map pending (d_gone d)) = [B "stats.timers.t.mean"; B "stats.timers.t.upper"; B "stats.timers.t.upper_90"] /\
  counts_of (B "t") (map (fun c => snd (fst c)) (d_calls d)) = 2.
Proof.
  split; [repeat constructor|]. split; [vm_compute; reflexivity|]. split; [apply rules_by; vm_compute; reflexivity|].
  split; [repeat constructor; intros t k fs _; constructor|]. split.
  { change (metrics_in demo_mon C112_out ++ own C112_devents) with [B "t:5|ms"; B "t:7|ms"; B "t:9|ms"; B "t:2|ms"].
    apply picks_hit; [apply (sample_by _ _ (B "5") [B "ms"]); [line|number]|]. apply picks_hit; [apply (sample_by _ _ (B "7") [B "ms"]); [line|number]|].
    apply picks_hit; [apply (sample_by _ _ (B "9") [B "ms"]); [line|number]|]. apply picks_hit; [apply (sample_by _ _ (B "2") [B "ms"]); [line|number]|]. constructor. }
  cbv zeta. repeat split; vm_compute; reflexivity.
Qed.

(** ** Doubles (C113) *)
(** In doubles the number of durations set aside is the rounded quotient, for the percentiles
    listed, 90 among them, and up to 2^40 durations; so the statistics are the order statistics. *)
Theorem C113_statistics : forall p (ds : list f64), double_percentile p -> ds <> [] -> Forall (fun x => x <> SpecFloat.S754_nan) ds ->
  Z.of_nat (length ds) <= 2 ^ 40 ->
  exists lower mean upper tupper, timer_stats (NN := B64) p ds = Ok (mean, upper, tupper, lower, Z.of_nat (length ds)) /\
    order_stats (NN := B64) p ds lower mean upper tupper (Z.of_nat (length ds)).
Proof. exact summarises_64. Qed.
Print Assumptions C113_statistics.
(** for every percentile from 1 it is one of the whole numbers nearest to the quotient *)
Theorem C113_set_aside : forall percent count, 1 <= percent <= 100 -> 1 <= count <= 2 ^ 40 ->
  exists t, trimmed (NN := B64) percent count = Ok t /\ 0 <= t /\
    2 * count * (100 - percent) - 100 <= 200 * t <= 2 * count * (100 - percent) + 100 /\
    (In percent exact_percentiles -> set_aside percent count t).
Proof. exact trimmed64. Qed.
Print Assumptions C113_set_aside.
(** but not always the one a half goes up to: of 45 durations 31.5 go up to 32, and 31 are set aside *)
Theorem C113_half_refuted : exists percent count t, 26 <= percent <= 100 /\ trimmed (NN := B64) percent count = Ok t /\ ~ set_aside percent count t.
Proof. exists 30, 45, 31. split; [lia|]. split; [exact (proj1 rounded_down)|exact (proj1 (proj2 rounded_down))]. Qed.
Print Assumptions C113_half_refuted.
(** C112 in doubles *)
Theorem C113_batches : forall (E : env (NN := B64)) plugins key es received,
  (forall p, begun_with es p -> double_percentile p) ->
  picks (fun m => timer_sample (NN := B64) m key) (lines es) received -> Forall (fun x : f64 => x <> SpecFloat.S754_nan) received ->
  Z.of_nat (length received) <= 2 ^ 40 ->
  let y := sys_run E plugins es sys_init in
  (exists batches groups rest,
    received = concat batches ++ default [] (p_timer (y_st y) !! key) /\
    Forall2 (reports (NN := B64) (begun_with es) key) batches groups /\
    y_out y ++ flat_map pending (y_live y ++ y_gone y) ≡ₚ concat groups ++ rest /\
    Forall (alien (counted (lines es)) key) rest) /\
  counts_of key (y_out y) + counts_of key (flat_map pending (y_live y ++ y_gone y)) +
    Z.of_nat (length (default [] (p_timer (y_st y) !! key))) = Z.of_nat (length received).
Proof.
  intros E plugins key es received HP Hp Hr Hl y. split.
  - exact (timers_kept B64 _ _ _ summarises_64 E plugins key es received HP Hp Hr Hl).
  - exact (timers_counted B64 _ _ _ summarises_64 E plugins key es received HP Hp Hr Hl).
Qed.
Print Assumptions C113_batches.
(** NaN durations and all percentiles from 26 included, no batch is lost *)
Theorem C113_nothing_lost : forall (E : env (NN := B64)) plugins key es received, (forall p, begun_with es p -> 26 <= p <= 100) ->
  picks (fun m => timer_sample (NN := B64) m key) (lines es) received -> Z.of_nat (length received) <= 2 ^ 40 ->
  let y := sys_run E plugins es sys_init in
  exists batches groups rest,
    received = concat batches ++ default [] (p_timer (y_st y) !! key) /\
    Forall2 (fun b l => b <> [] /\ exists p ts, begun_with es p /\ summarised (NN := B64) key p ts b l) batches groups /\
    y_out y ++ flat_map pending (y_live y ++ y_gone y) ≡ₚ concat groups ++ rest /\
    Forall (alien (counted (lines es)) key) rest.
Proof. exact kept_64. Qed.
Print Assumptions C113_nothing_lost.
(** the service, whose percentile is 90, in doubles *)
Theorem C113_service : forall (E : env (NN := B64)) plugins G files args configure_all node o log_info info a is_ip max closes refuses CE addrs h out key,
  well_formed files -> parse_options files args = Ok o -> create G configure_all node o log_info = (info, Ok a) ->
  value_of files args (B "routing") (OS []) -> addrs = [] \/ closes = false ->
  arrivals max (map (fun a => (a, [])) addrs) (heard (NN := B64) h) out ->
  let C := mp_cls E plugins in
  let d := o_daemon (service_run (NN := B64) (S := mst) G (process_message E C) (flush E C) mp_init a max closes refuses CE is_ip addrs h) in
  exists es, written CE (a_instance _ a) h es /\
    forall received,
      picks (fun m => timer_sample (NN := B64) m key) (metrics_in (a_mon _ a) out ++ own es) received ->
      Forall (fun x : f64 => x <> SpecFloat.S754_nan) received -> Z.of_nat (length received) <= 2 ^ 40 ->
      exists batches groups rest scheduled,
        picks (fun m => timer_sample (NN := B64) m key) (v_pending (d_srv d)) scheduled /\
        concat batches ++ default [] (p_timer (d_proc d) !! key) ++ scheduled ≡ₚ received /\
        Forall2 (reports (NN := B64) (fun p => p = 90) key) batches groups /\
        map (fun c => snd (fst c)) (d_calls d) ++ flat_map pending (map snd (d_live d) ++ d_gone d) ≡ₚ concat groups ++ rest /\
        Forall (alien (counted (metrics_in (a_mon _ a) out ++ own es)) key) rest.
Proof.
  intros E plugins G files args configure_all node o log_info info a is_ip max closes refuses CE addrs h out key Hw Hp Hc Hro Hcl Ha C d.
  destruct (service_timers B64 double_percentile (fun x : f64 => x <> SpecFloat.S754_nan) E plugins G files args node a is_ip max closes refuses CE addrs h out key
    ltac:(split; [lia|cbn; tauto]) Hw (proj1 (C100_described G files args configure_all node o log_info info a Hw Hp Hc)) Hro Hcl Ha) as (es & H1 & H2).
  exists es. split; [exact H1|]. intros received Hs Hn Hl. exact (H2 _ received summarises_64 Hs Hn Hl).
Qed.
Print Assumptions C113_service.
(** tenths, which are not doubles *)
Definition tenth (n : Z) : f64 := nlit (Num := B64) (FDec false n (-1)).
Example C113_case : double_percentile 90 /\ trimmed (NN := B64) 90 15 = Ok 2 /\ trimmed (NN := B64) 90 14 = Ok 1 /\
  picks (fun m => timer_sample (NN := B64) m (B "t")) [B "t:0.1|ms"; B "t:0.7|ms"] [tenth 1; tenth 7] /\
  Forall (fun x : f64 => x <> SpecFloat.S754_nan) [tenth 1; tenth 7].
Proof.
  split; [split; [lia|cbn; tauto]|]. split; [vm_compute; reflexivity|]. split; [vm_compute; reflexivity|]. split.
  - apply picks_hit; [exists (B "0.1"), [B "ms"]; split; [line|number]|]. apply picks_hit; [exists (B "0.7"), [B "ms"]; split; [line|number]|]. constructor.
  - repeat constructor; vm_compute; discriminate.
Qed.
