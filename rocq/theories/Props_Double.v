(** Counting in doubles (C101): the arithmetic of the conservation theorems C12, C95 and C100 is
    exact; here it is python's, IEEE binary64. *)
From Verif Require Import Base StrFacts Num NumFacts Env Stats Glob Metrics Gen GenFacts Processor
  LineSpec LineFacts FloatFacts ProcFacts ProcSpec ReceiveFacts ReceiveFacts2 ReceiveFacts3 PlugFacts Demo
  Sched FlushInv FlushOk SchedFacts BlockFacts B64 WholeFacts DoubleFacts
  Client RouterSpec Router RouterFacts RouterProps Server ServerSpec ServerFacts Service ServiceSpec ServiceFacts
  ClientMetrics Daemon DaemonFacts Own OwnSpec OwnFacts Assembly AssemblySpec AssemblyFacts Entire DoubleDaemon
  Props_Metrics Props_Service Props_Daemon Props_Assembly.
Open Scope Z_scope.

(** ** Any arithmetic *)
(** C101.  The values sent under stats_counts.KEY, those that suspended and refused flushes
    still hold and the stored one are, but for zeros, the running sums of consecutive blocks
    of the accepted amounts in their order of arrival: whatever the rounding, each amount is
    counted once, and in the interval it arrived in. *)
Theorem C101_blocks : forall (NN : Num) (NL : NumLaw NN) (NE : EqDecision num) (NC : Countable num) E plugins key es,
  Forall sane es ->
  let y := sys_run E plugins es sys_init in
  exists accepted blocks, picks (counter_amount key) (lines es) accepted /\ concat blocks = accepted /\
    nonzero (map running_sum blocks) ≡ₚ
      nonzero (values_in key (y_out y) ++ values_in key (flat_map pending (y_live y ++ y_gone y)) ++ [default n0 (p_counter (y_st y) !! key)]).
Proof. intros NN NL NE NC E plugins key es. exact (counts_in_blocks E plugins key es). Qed.
Print Assumptions C101_blocks.

(** ** Doubles *)
(** what is claimed of a double below: it is that multiple of 2^u, exactly *)
Theorem C101_worth : forall u x z, -1000 <= u <= 900 -> worth u x z -> Z.abs z <= 2 ^ 53 /\ is_value x z u.
Proof. exact worth_value. Qed.
Print Assumptions C101_worth.
(** a line KEY:N|c with a whole number of magnitude up to 2^53, however it is written *)
Theorem C101_whole_line : forall line key f0 neg m,
  typed_line line (B "c") key [f0; B "c"] -> float_text f0 (FDec neg m 0) -> 0 <= m <= 2 ^ 53 ->
  exists a, counter_amount (NN := B64) key line a /\ worth 0 a (LineSpec.signed neg m).
Proof. exact whole_line. Qed.
Print Assumptions C101_whole_line.
(** a counter is the exact sum of such amounts while their magnitudes sum to at most 2^53 *)
Theorem C101_counter : forall u E plugins key ms accepted zs, -1000 <= u <= 900 ->
  picks (counter_amount (NN := B64) key) ms accepted -> Forall2 (worth u) accepted zs -> zsize zs <= 2 ^ 53 ->
  worth u (default n0 (p_counter (receive_all E plugins ms mp_init) !! key)) (zsum zs).
Proof. intros u E plugins key ms accepted zs Hu. exact (counter_whole u Hu E plugins key ms accepted zs). Qed.
Print Assumptions C101_counter.
(** and nothing is lost or counted twice by the flushes, however they overlap and fail *)
Theorem C101_conservation : forall u E plugins key es accepted zs, -1000 <= u <= 900 -> Forall sane es ->
  picks (counter_amount (NN := B64) key) (lines es) accepted -> Forall2 (worth u) accepted zs -> zsize zs <= 2 ^ 53 ->
  let y := sys_run E plugins es sys_init in
  exists sent waiting stored,
    Forall2 (worth u) (values_in key (y_out y)) sent /\
    Forall2 (worth u) (values_in key (flat_map pending (y_live y ++ y_gone y))) waiting /\
    worth u (default n0 (p_counter (y_st y) !! key)) stored /\
    zsum sent + zsum waiting + stored = zsum zs.
Proof. intros u E plugins key es accepted zs Hu. exact (whole_counts u Hu E plugins key es accepted zs). Qed.
Print Assumptions C101_conservation.
(** the daemon of C95 *)
Theorem C101_daemon : forall u E plugins G interval percent cfg max refuses config ls rs rws links addrs es out key accepted zs,
  -1000 <= u <= 900 ->
  build_rules G true config [] = (ls, Ok rs) -> rules_of config rws -> length links = length ls -> 1000 <= interval ->
  arrivals max (map (fun a => (a, [])) addrs) (nets es) out ->
  Forall (unmatched rws) (metrics_in cfg out ++ own es) ->
  picks (counter_amount (NN := B64) key) (metrics_in cfg out ++ own es) accepted -> Forall2 (worth u) accepted zs -> zsize zs <= 2 ^ 53 ->
  let C := mp_cls E plugins in
  let d := drun (NN := B64) G (process_message E C) (flush E C interval percent) rs cfg max false refuses (d_new addrs links mp_init) es in
  exists scheduled sent flushing unheard stored,
    picks (counter_amount (NN := B64) key) (v_pending (d_srv d)) scheduled /\ Forall2 (worth u) scheduled unheard /\
    Forall2 (worth u) (values_in key (map (fun c => snd (fst c)) (d_calls d))) sent /\
    Forall2 (worth u) (values_in key (flat_map pending (map snd (d_live d) ++ d_gone d))) flushing /\
    worth u (default n0 (p_counter (d_proc d) !! key)) stored /\
    zsum sent + zsum flushing + stored + zsum unheard = zsum zs.
Proof.
  intros u E plugins G interval percent cfg max refuses config ls rs rws links addrs es out key accepted zs Hu Hb Hr Hl Hi.
  exact (daemon_whole u Hu E plugins G interval percent cfg max refuses config ls rs rws links Hb Hr Hl Hi addrs es out key accepted zs).
Qed.
Print Assumptions C101_daemon.
(** the service of C100 *)
Theorem C101_service : forall u E plugins G files args configure_all node o log_info info a is_ip max closes refuses CE addrs h out key,
  -1000 <= u <= 900 ->
  well_formed files -> parse_options files args = Ok o -> create G configure_all node o log_info = (info, Ok a) ->
  value_of files args (B "routing") (OS []) -> 1000 <= a_flush _ a -> addrs = [] \/ closes = false ->
  arrivals max (map (fun a => (a, [])) addrs) (heard (NN := B64) h) out ->
  let C := mp_cls E plugins in
  let d := o_daemon (service_run (NN := B64) (S := mst) G (process_message E C) (flush E C) mp_init a max closes refuses CE is_ip addrs h) in
  exists es, written CE (a_instance _ a) h es /\
    forall accepted zs,
      picks (counter_amount (NN := B64) key) (metrics_in (a_mon _ a) out ++ own es) accepted -> Forall2 (worth u) accepted zs -> zsize zs <= 2 ^ 53 ->
      exists scheduled sent flushing unheard stored,
        picks (counter_amount (NN := B64) key) (v_pending (d_srv d)) scheduled /\ Forall2 (worth u) scheduled unheard /\
        Forall2 (worth u) (values_in key (map (fun c => snd (fst c)) (d_calls d))) sent /\
        Forall2 (worth u) (values_in key (flat_map pending (map snd (d_live d) ++ d_gone d))) flushing /\
        worth u (default n0 (p_counter (d_proc d) !! key)) stored /\
        zsum sent + zsum flushing + stored + zsum unheard = zsum zs.
Proof.
  intros u E plugins G files args configure_all node o log_info info a is_ip max closes refuses CE addrs h out key Hu Hw Hp Hc.
  exact (service_whole u Hu E plugins G files args node a is_ip max closes refuses CE addrs h out key Hw
    (proj1 (C100_described G files args configure_all node o log_info info a Hw Hp Hc))).
Qed.
Print Assumptions C101_service.

Definition env64 : env (NN := B64) :=
  @Env B64 (fun n => nofZ (Num := B64) (1000 + Z.of_nat n)) (fun n => 1 + Z.of_nat n) (fun _ c => N_of_ascii c) (fun _ l => l) (fun _ _ => Permutation_refl _).
Lemma text_by s l : parse_float s = Some l -> float_text s l.
Proof. apply parse_float_spec. Qed.
(** the bound is needed: one above it, and whole numbers are lost *)
Theorem C101_bound_refuted : exists ms accepted zs,
  picks (counter_amount (NN := B64) (B "a")) ms accepted /\ Forall2 (worth 0) accepted zs /\ zsize zs = 2 ^ 53 + 1 /\
  ~ is_value (default n0 (p_counter (receive_all env64 [] ms mp_init) !! B "a")) (zsum zs) 0.
Proof.
  destruct (C101_whole_line (B "a:9007199254740992|c") (B "a") (B "9007199254740992") false (2 ^ 53)) as (x & Hx & Wx);
    [line|apply text_by; vm_compute; reflexivity|lia|].
  destruct (C101_whole_line (B "a:1|c") (B "a") (B "1") false 1) as (y & Hy & Wy); [line|apply text_by; vm_compute; reflexivity|lia|].
  exists [B "a:9007199254740992|c"; B "a:1|c"], [x; y], [2 ^ 53; 1].
  split; [repeat (apply picks_hit; [eassumption|]); constructor|]. split; [repeat (constructor 2; [assumption|]); constructor 1|]. split; [reflexivity|].
  vm_compute. discriminate.
Qed.
Print Assumptions C101_bound_refuted.

(** 3 and 4 arrive, a flush takes them and is suspended, then -2 arrives *)
Definition C101_events : list event := [Recv (B "a:3|c"); Recv (B "a:+4.|c"); Recv (B "b:1|g"); Start 10000 90; Resume 0; Recv (B "a: -2|c")].
Example C101_case : Forall sane C101_events /\ exists accepted,
  picks (counter_amount (NN := B64) (B "a")) (lines C101_events) accepted /\ Forall2 (worth 0) accepted [3; 4; -2] /\ zsize [3; 4; -2] <= 2 ^ 53 /\
  let y := sys_run env64 [] C101_events sys_init in
  values_in (B "a") (y_out y) = [] /\ values_in (B "a") (flat_map pending (y_live y ++ y_gone y)) = [nofZ (Num := B64) 7] /\
  default n0 (p_counter (y_st y) !! B "a") = nofZ (Num := B64) (-2).
Proof.
  split; [repeat (constructor; [cbn; lia || exact I|]); constructor|].
  destruct (C101_whole_line (B "a:3|c") (B "a") (B "3") false 3) as (x & Hx & Wx); [line|apply text_by; vm_compute; reflexivity|lia|].
  destruct (C101_whole_line (B "a:+4.|c") (B "a") (B "+4.") false 4) as (y & Hy & Wy); [line|apply text_by; vm_compute; reflexivity|lia|].
  destruct (C101_whole_line (B "a: -2|c") (B "a") (B " -2") true 2) as (z & Hz & Wz); [line|apply text_by; vm_compute; reflexivity|lia|].
  exists [x; y; z]. split.
  { cbn [lines C101_events flat_map app]. apply picks_hit; [exact Hx|]. apply picks_hit; [exact Hy|].
    apply picks_miss; [|apply picks_hit; [exact Hz|constructor]].
    assert (Ht0 : typed_line (B "b:1|g") (B "g") (B "b") [B "1"; B "g"]) by line.
    intros a (v & r & Hcs & _). inversion Hcs as [? ? Ht|? ? ? ? ? Ht]; destruct (typed_line_fun _ _ _ _ _ _ _ Ht Ht0) as (? & _ & _); discriminate. }
  split; [repeat (constructor 2; [assumption|]); constructor 1|]. split; [vm_compute; discriminate|]. cbv zeta. repeat split; vm_compute; reflexivity.
Qed.
(** halves, with u = -1 *)
Example C101_halves_case : worth (-1) (nlit (Num := B64) (FDec false 25 (-1))) 5 /\ is_value (nlit (Num := B64) (FDec false 25 (-1))) 5 (-1).
Proof. split; [split; [vm_compute; discriminate|left; vm_compute; reflexivity]|vm_compute; reflexivity]. Qed.
(** three times one tenth: a block's sum is what doubles make of it, whichever flush takes it *)
Example C101_blocks_case : let es := [Recv (B "a:.1|c"); Recv (B "a:.1|c"); Start 10000 90; Resume 0; Recv (B "a:.1|c")] in
  let tenth := nlit (Num := B64) (FDec false 1 (-1)) in let y := sys_run env64 [] es sys_init in
  values_in (B "a") (flat_map pending (y_live y ++ y_gone y)) = [running_sum (NN := B64) [tenth; tenth]] /\
  default n0 (p_counter (y_st y) !! B "a") = running_sum (NN := B64) [tenth] /\
  neqb (Num := B64) (running_sum (NN := B64) [tenth; tenth; tenth]) (nlit (Num := B64) (FDec false 3 (-1))) = false.
Proof. cbv zeta. repeat split; vm_compute; reflexivity. Qed.
(** the daemon of C95_case, in doubles: 3 sent, 4 stored, 5 scheduled *)
Example C101_daemon_case : exists accepted,
  picks (counter_amount (NN := B64) (B "a")) (metrics_in demo_mon demo_out ++ own demo_devents) accepted /\ Forall2 (worth 0) accepted [3; 4; 5] /\
  let d := drun (NN := B64) (S := mst) toy_engine (process_message env64 (mp_cls env64 [])) (flush env64 (mp_cls env64 []) 10000 90) [] demo_mon 100 false
    (fun n _ => if (n =? 1)%nat then Some OtherError else None) (d_new [B "t"] [] mp_init) demo_devents in
  values_in (B "a") (map (fun c => snd (fst c)) (d_calls d)) = [nofZ (Num := B64) 3] /\
  default n0 (p_counter (d_proc d) !! B "a") = nofZ (Num := B64) 4 /\ v_pending (d_srv d) = [B "a:5|c"].
Proof.
  destruct (C101_whole_line (B "a:3|c") (B "a") (B "3") false 3) as (x & Hx & Wx); [line|apply text_by; vm_compute; reflexivity|lia|].
  destruct (C101_whole_line (B "a:4|c") (B "a") (B "4") false 4) as (y & Hy & Wy); [line|apply text_by; vm_compute; reflexivity|lia|].
  destruct (C101_whole_line (B "a:5|c") (B "a") (B "5") false 5) as (z & Hz & Wz); [line|apply text_by; vm_compute; reflexivity|lia|].
  exists [x; y; z]. split.
  { change (metrics_in demo_mon demo_out ++ own demo_devents) with [B "a:3|c"; B "b:2|c"; B "a:4|c"; B "a:5|c"; B "own x:1|g"].
    apply picks_hit; [exact Hx|]. apply picks_miss; [|apply picks_hit; [exact Hy|]; apply picks_hit; [exact Hz|]; apply picks_miss; [|constructor]].
    - assert (Ht0 : typed_line (B "b:2|c") (B "c") (B "b") [B "2"; B "c"]) by line.
      intros a (v & r & Hcs & _). inversion Hcs as [? ? Ht|? ? ? ? ? Ht]; destruct (typed_line_fun _ _ _ _ _ _ _ Ht Ht0) as (_ & ? & _); discriminate.
    - assert (Ht0 : typed_line (B "own x:1|g") (B "g") (B "own_x") [B "1"; B "g"]) by line.
      intros a (v & r & Hcs & _). inversion Hcs as [? ? Ht|? ? ? ? ? Ht]; destruct (typed_line_fun _ _ _ _ _ _ _ Ht Ht0) as (? & _ & _); discriminate. }
  split; [repeat (constructor 2; [assumption|]); constructor 1|]. cbv zeta. split; [|split]; vm_compute; reflexivity.
Qed.
