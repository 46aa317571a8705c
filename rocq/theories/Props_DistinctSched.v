(** Items of distinct-count metrics under every interleaving of receiving and flushing (C117). *)
From Coq Require Qcanon.
From Verif Require Import Base StrFacts Num NumFacts Env Stats Glob Metrics Gen GenFacts Processor
  LineSpec LineFacts FloatFacts ProcFacts ProcSpec ReceiveFacts ReceiveFacts2 ReceiveFacts3 PlugFacts Demo
  Sched FlushInv FlushOk SchedFacts XQFacts FlushSpec DistinctFacts DistinctMore OrderFacts
  Client RouterSpec Router RouterFacts RouterProps Server ServerSpec ServerFacts Service ServiceSpec ServiceFacts
  ClientMetrics Daemon DaemonFacts Own OwnSpec OwnFacts Assembly AssemblySpec AssemblyFacts Entire TimerSched TimerDaemon DistinctSched DistinctDaemon
  Props_Metrics Props_Service Props_Daemon Props_Assembly.
Open Scope Z_scope.

(** C117.  Lines arrive and any number of flushes are begun, resumed, fail and are abandoned in
    any order.  The items a distinct-count metric holds are those of its lines, in order, each at
    a reading of the clock of its own; everything sent or held by an unfinished flush is made of
    reports, four estimates each about the items that came before the clock was read for the
    report, and of datapoints that are not the metric's ([distinct_story]). *)
Theorem C117_story : forall (NN : Num) (E : env) plugins key es,
  In FDistinct plugins -> never_sli key (lines es) ->
  let y := sys_run E plugins es sys_init in
  distinct_story E (counted (lines es)) key (lines es) (p_plug (y_st y) !! key) (y_out y ++ flat_map pending (y_live y ++ y_gone y)).
Proof. exact @distincts_schedule. Qed.
Print Assumptions C117_story.
(** so each count sent is the estimate for the items received up to some moment *)
Theorem C117_count : forall (NN : Num) (E : env) plugins key es received d,
  In FDistinct plugins -> never_sli key (lines es) ->
  picks (fun m => distinct_item m key) (lines es) received -> ~ counted (lines es) (B "pdistinct." ++ key ++ B ".count") ->
  In d (y_out (sys_run E plugins es sys_init)) -> dp_name d = B "stats.pdistinct." ++ key ++ B ".count" ->
  exists w items after times c, received = items ++ after /\ length times = length items /\ StronglySorted lt times /\
    distinct_count (adds (combine (map (e_clock E) times) items) (empty_counter E w)) n0 = Ok c /\ dp_value d = VI c.
Proof. exact @distinct_point. Qed.
Print Assumptions C117_count.
(** with a clock that does not go back and is past zero, a later report counts no fewer items,
    and as many if no item is new.  [NumLe] holds of the exact numbers and of doubles. *)
Theorem C117_grows : forall (NN : Num) (NL : NumLe NN) (E : env) w hist i j ts ts' l l' key,
  (forall a b, (a <= b)%nat -> nleb (e_clock E a) (e_clock E b) = true) ->
  (forall a, nleb (e_clock E a) n0 = false) -> StronglySorted lt (map fst hist) -> (i <= j)%nat ->
  let d0 := empty_counter E w in
  four_estimates key d0 (at_times E (before i hist)) (e_clock E i) ts l -> four_estimates key d0 (at_times E (before j hist)) (e_clock E j) ts' l' ->
  exists c c' more more', l = DP (B "stats.pdistinct." ++ key ++ B ".count") (VI c) ts :: more /\
    l' = DP (B "stats.pdistinct." ++ key ++ B ".count") (VI c') ts' :: more' /\ 1 <= c <= c' /\
    ((forall item, In item (map snd (before j hist)) -> In item (map snd (before i hist))) -> c = c').
Proof. exact @counts_grow. Qed.
Print Assumptions C117_grows.
(** the daemon of C95, with routing rules: the items of what they make of the lines *)
Theorem C117_daemon : forall (NN : Num) (E : env) plugins G interval percent cfg max refuses config ls rs rws links addrs es out key,
  build_rules G true config [] = (ls, Ok rs) -> rules_of config rws -> length links = length ls ->
  In FDistinct plugins ->
  arrivals max (map (fun a => (a, [])) addrs) (nets es) out ->
  (forall m, In m (metrics_in cfg out ++ own es) -> exists ts, delivers G rws m ts) ->
  let C := mp_cls E plugins in
  let d := drun G (process_message E C) (flush E C interval percent) rs cfg max false refuses (d_new addrs links mp_init) es in
  exists handled tss,
    handled ++ v_pending (d_srv d) ≡ₚ metrics_in cfg out ++ own es /\ Forall2 (delivers G rws) handled tss /\
    (never_sli key (concat tss) ->
     distinct_story E (counted (concat tss)) key (concat tss) (p_plug (d_proc d) !! key)
       (map (fun c => snd (fst c)) (d_calls d) ++ flat_map pending (map snd (d_live d) ++ d_gone d))).
Proof.
  intros NN E plugins G interval percent cfg max refuses config ls rs rws links addrs es out key Hb Hr Hl.
  exact (daemon_distincts E plugins G interval percent cfg max refuses config ls rs rws links Hb Hr Hl addrs es out key).
Qed.
Print Assumptions C117_daemon.
(** the service of C100 *)
Theorem C117_service : forall (NN : Num) (E : env) plugins G files args configure_all node o log_info info a is_ip max closes refuses CE addrs h out key,
  In FDistinct plugins ->
  well_formed files -> parse_options files args = Ok o -> create G configure_all node o log_info = (info, Ok a) ->
  value_of files args (B "routing") (OS []) -> addrs = [] \/ closes = false ->
  arrivals max (map (fun a => (a, [])) addrs) (heard h) out ->
  let C := mp_cls E plugins in
  let d := o_daemon (service_run (S := mst) G (process_message E C) (flush E C) mp_init a max closes refuses CE is_ip addrs h) in
  exists es, written CE (a_instance _ a) h es /\
    (never_sli key (metrics_in (a_mon _ a) out ++ own es) ->
     exists handled, handled ++ v_pending (d_srv d) ≡ₚ metrics_in (a_mon _ a) out ++ own es /\
       distinct_story E (counted (metrics_in (a_mon _ a) out ++ own es)) key handled (p_plug (d_proc d) !! key)
         (map (fun c => snd (fst c)) (d_calls d) ++ flat_map pending (map snd (d_live d) ++ d_gone d))).
Proof.
  intros NN E plugins G files args configure_all node o log_info info a is_ip max closes refuses CE addrs h out key Hf Hw Hp Hc Hro Hcl Ha.
  exact (service_distincts E plugins G files args node a is_ip max closes refuses CE addrs h out key Hf
    Hw (proj1 (C100_described G files args configure_all node o log_info info a Hw Hp Hc)) Hro Hcl Ha).
Qed.
Print Assumptions C117_service.

(** u and v are received and reported; the report is suspended after its first estimate, w arrives,
    the flush is abandoned, and another one reports u, v and w *)
Definition C117_events : list event :=
  [Recv (B "q:u|pd"); Recv (B "q:v|pd"); Recv (B "q:9|c"); Start 10000 90; Resume 0; Resume 0; Resume 0;
   Recv (B "q:w|pd"); Drop 0; Start 10000 90; Resume 0; Resume 0; Resume 0; Resume 0].
Example C117_case : In FDistinct [FDistinct (NN := demo_num)] /\ never_sli (B "q") (lines C117_events) /\
  picks (fun m => distinct_item m (B "q")) (lines C117_events) [B "u"; B "v"; B "w"] /\
  ~ counted (lines C117_events) (B "pdistinct.q.count") /\
  let y := sys_run (NN := demo_num) demo_env [FDistinct] C117_events sys_init in
  map (fun d => dp_name d) (y_out y) = [B "stats.q"; B "stats_counts.q"; B "stats.pdistinct.q.count";
    B "stats.q"; B "stats_counts.q"; B "stats.pdistinct.q.count"; B "stats.pdistinct.q.count_1day"] /\
  map (fun d => dp_name d) (flat_map pending (y_live y ++ y_gone y)) =
    [B "stats.pdistinct.q.count_1hour"; B "stats.pdistinct.q.count_1min";
     B "stats.pdistinct.q.count_1day"; B "stats.pdistinct.q.count_1hour"; B "stats.pdistinct.q.count_1min"].
Proof.
  assert (T1 : typed_line (B "q:u|pd") (B "pd") (B "q") [B "u"; B "pd"]) by line.
  assert (T2 : typed_line (B "q:v|pd") (B "pd") (B "q") [B "v"; B "pd"]) by line.
  assert (T3 : typed_line (B "q:9|c") (B "c") (B "q") [B "9"; B "c"]) by line.
  assert (T4 : typed_line (B "q:w|pd") (B "pd") (B "q") [B "w"; B "pd"]) by line.
  split; [left; reflexivity|]. split.
  { intros m fields Hin Ht. cbn [lines flat_map C117_events app] in Hin.
    destruct Hin as [<-|[<-|[<-|[<-|[]]]]]; [pose proof T1 as T|pose proof T2 as T|pose proof T3 as T|pose proof T4 as T];
      destruct (typed_line_fun _ _ _ _ _ _ _ Ht T) as (Hx & _ & _); discriminate Hx. }
  split.
  { apply picks_hit; [eexists; exact T1|]. apply picks_hit; [eexists; exact T2|]. apply picks_miss.
    - intros a (fs & Ht). destruct (typed_line_fun _ _ _ _ _ _ _ Ht T3) as (Hx & _ & _). discriminate Hx.
    - apply picks_hit; [eexists; exact T4|constructor]. }
  split.
  { intros (m & fields & Hin & Ht). cbn [lines flat_map C117_events app] in Hin.
    destruct Hin as [<-|[<-|[<-|[<-|[]]]]]; [pose proof T1 as T|pose proof T2 as T|pose proof T3 as T|pose proof T4 as T];
      destruct (typed_line_fun _ _ _ _ _ _ _ Ht T) as (_ & Hx & _); discriminate Hx. }
  cbv zeta. split; vm_compute; reflexivity.
Qed.
(** the clock of the example meets what C117_grows asks of it *)
Example C117_grows_case :
  (forall a b, (a <= b)%nat -> nleb (Num := demo_num) (e_clock demo_env a) (e_clock demo_env b) = true) /\
  (forall a, nleb (Num := demo_num) (e_clock demo_env a) n0 = false) /\
  StronglySorted lt (map fst [(1%nat, B "u"); (4%nat, B "v")]) /\
  map snd (before 3 [(1%nat, B "u"); (4%nat, B "v")]) = [B "u"].
Proof.
  split; [|split; [|split]].
  - intros a b H. apply xleb_fin, QcZ_le. lia.
  - intros a. destruct (nleb _ _) eqn:Hx; [|reflexivity]. apply (proj1 (xleb_fin _ _)) in Hx. apply (proj1 (QcZ_le _ _)) in Hx. lia.
  - repeat constructor.
  - reflexivity.
Qed.
(** a metric first met with another plugin's type is that plugin's: without the condition on the
    lines of type sli the claim about what is stored fails *)
Theorem C117_first_type_refuted : exists es,
  picks (fun m => distinct_item m (B "q")) (lines es) [B "5"] /\
  match p_plug (y_st (sys_run (NN := demo_num) demo_env [FSli []; FDistinct] es sys_init)) !! B "q" with
  | Some (PSli x) => sl_name x = B "stats.SLI.q" | _ => False end.
Proof.
  exists [Recv (B "q:5|sli"); Recv (B "q:5|pd")]. split.
  { apply picks_miss.
    - assert (T : typed_line (B "q:5|sli") (B "sli") (B "q") [B "5"; B "sli"]) by line.
      intros a (fs & Ht). destruct (typed_line_fun _ _ _ _ _ _ _ Ht T) as (Hx & _ & _). discriminate Hx.
    - apply picks_hit; [exists [B "pd"]; line|constructor]. }
  vm_compute. reflexivity.
Qed.
Print Assumptions C117_first_type_refuted.
