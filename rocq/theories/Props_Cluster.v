(** Clients sharding over several daemons (C103). *)
From Verif Require Import Base StrFacts Num NumFacts Env Stats Glob Metrics Gen GenFacts Processor
  LineSpec LineFacts FloatFacts ProcFacts ProcSpec ReceiveFacts ReceiveFacts2 ReceiveFacts3 PlugFacts Demo
  Sched FlushInv FlushOk SchedFacts XQFacts
  Client Router RouterSpec RouterFacts RouterProps Server ServerSpec FrameFacts ServerFacts Daemon DaemonFacts
  Hashing HashFacts RingDerived Cluster ClusterFacts Props_Ring Props_Daemon.
Open Scope Z_scope.
Notation amount := ClusterFacts.amount.

(** C103.  Any number of clients, each with a ring it built by adding and removing backends,
    write ASCII data; the network loses, duplicates, delays and reorders datagrams; every
    daemon schedules, flushes and refuses as it likes, writes its own lines, and may die and be
    started again at any point.  Per counter, over all daemons together: what they sent, hold,
    store and have scheduled, plus what those that died had sent, held, stored and scheduled
    when they died, plus what is on its way or lost, is what was written, plus the copies, plus
    the daemons' own lines. *)
Theorem C103_conservation : forall (NN : Num) (NL : NumLaw NN) (NX : NumExact NN) (node : Type) (ED : EqDecision node) hash G
  (sites : node -> site) nodes h key,
  NoDup nodes -> Forall (fair hash nodes) h -> (forall n, n ∈ nodes -> 1000 <= s_interval (sites n)) ->
  (forall n a, n ∈ nodes -> ~ contribution key (m_message (s_mon (sites n))) a) ->
  let c := run_cluster hash G sites h in
  exists xs ys on_way lost extra new own_lines,
    Forall2 (fun n x => node_holds key (c_node c n) x) nodes xs /\
    Forall2 (fun d y => node_holds key (snd d) y) (c_dead c) ys /\
    amount key (map snd (c_transit c)) on_way /\ amount key (map snd (c_lost c)) lost /\
    amount key (map snd (c_extra c)) extra /\ amount key (written h) new /\ amount key (map snd (owned h)) own_lines /\
    nadd (nadd (nsum xs) (nsum ys)) (nadd on_way lost) = nadd (nadd new extra) own_lines.
Proof. intros NN NL NX node ED hash G sites nodes h key Hn Hf Hi Hm. exact (cluster_conserves hash G sites nodes h Hn Hf Hi key Hm). Qed.
Print Assumptions C103_conservation.

(** If every datum for a counter spells its name the same way and goes through the same ring,
    one node has all of it (its daemon, and those that died there), and no daemon of another
    node ever reports, holds or stores the counter. *)
Theorem C103_one_daemon : forall (NN : Num) (NL : NumLaw NN) (NX : NumExact NN) (node : Type) (ED : EqDecision node) hash G
  (sites : node -> site) nodes h key r raw,
  NoDup nodes -> Forall (fair hash nodes) h -> (forall n, n ∈ nodes -> 1000 <= s_interval (sites n)) ->
  c_colon ∉ raw -> ascii_only raw -> usable hash nodes r ->
  (forall n, n ∈ nodes -> ~ counter_touch (m_message (s_mon (sites n))) key) ->
  (forall r' data, In (CWrite r' data) h -> counter_touch data key -> r' = r /\ exists rest, data = raw ++ B ":" ++ rest) ->
  Forall (fun x => ~ counter_touch (snd x) key) (owned h) ->
  let c := run_cluster hash G sites h in
  exists n x ys on_way lost extra new, n ∈ nodes /\
    (forall rest, shard_write hash r (raw ++ B ":" ++ rest) = Ok [(n, raw ++ B ":" ++ rest)]) /\
    (forall m, m ∈ nodes -> m <> n -> node_without key (c_node c m)) /\
    (forall m d, In (m, d) (c_dead c) -> m <> n -> node_without key d) /\
    node_holds key (c_node c n) x /\ Forall2 (fun d y => node_holds key (snd d) y) (c_dead c) ys /\
    amount key (map snd (c_transit c)) on_way /\ amount key (map snd (c_lost c)) lost /\
    amount key (map snd (c_extra c)) extra /\ amount key (written h) new /\
    nadd (nadd x (nsum ys)) (nadd on_way lost) = nadd new extra.
Proof.
  intros NN NL NX node ED hash G sites nodes h key r raw Hn Hf Hi H1 H2 H3 H4 H5 H6.
  exact (cluster_one hash G sites nodes h Hn Hf Hi key r raw H1 H2 H3 H4 H5 H6).
Qed.
Print Assumptions C103_one_daemon.

(** A counter no line mentions is never sent, held or stored, in any interleaving, for every
    arithmetic; the same for a daemon without rules. *)
Theorem C103_unmentioned : forall (NN : Num) (NL : NumLaw NN) E plugins key es,
  Forall sane es -> Forall (fun m => ~ counter_touch m key) (lines es) ->
  let y := sys_run E plugins es sys_init in
  silent key (y_out y) /\ silent key (flat_map pending (y_live y ++ y_gone y)) /\ p_counter (y_st y) !! key = None.
Proof. intros NN NL E plugins key es. exact (untouched E plugins key es). Qed.
Print Assumptions C103_unmentioned.
Theorem C103_unmentioned_daemon : forall (NN : Num) (NL : NumLaw NN) E plugins G interval percent cfg max refuses addrs es out key,
  1000 <= interval -> arrivals max (map (fun a => (a, [])) addrs) (nets es) out ->
  Forall (fun m => ~ counter_touch m key) (metrics_in cfg out ++ own es) ->
  let C := mp_cls E plugins in
  node_without key (drun G (process_message E C) (flush E C interval percent) [] cfg max false refuses (d_new addrs [] mp_init) es).
Proof.
  intros NN NL E plugins G interval percent cfg max refuses addrs es out key Hi Ha Hu.
  exact (daemon_quiet E plugins G interval percent cfg max refuses Hi addrs es out key Ha Hu).
Qed.
Print Assumptions C103_unmentioned_daemon.

(** ** Cases: three daemons, one ring with two points per backend *)
Definition demo_site : site (NN := demo_num) := Site demo_num demo_env [] 10000 90 demo_mon 100 (fun _ _ => None).
Definition demo_run (h : list (cevent nat)) := run_cluster (NN := demo_num) demo_hash toy_engine (fun _ => demo_site) h.
Definition r3 : ring nat := demo_ring 2 demo_ops.
Definition r4 : ring nat := demo_ring 2 (demo_ops ++ [AddNode 4%nat]).
Definition nodes4 : list nat := [3; 8; 9; 4]%nat.
Lemma r3_usable : usable demo_hash nodes4 r3.
Proof.
  exists demo_label, Nat.ltb, 2%nat, demo_ops. split; [exact demo_order|]. split; [apply demo_labels|]. split; [apply demo_made|].
  split; [lia|]. split; [vm_compute; discriminate|]. intros n Hn. vm_compute in Hn. unfold nodes4.
  repeat (apply elem_of_cons in Hn as [->|Hn]; [set_solver|]). inversion Hn.
Qed.
Lemma r4_usable : usable demo_hash nodes4 r4.
Proof.
  exists demo_label, Nat.ltb, 2%nat, (demo_ops ++ [AddNode 4%nat]). split; [exact demo_order|]. split; [apply demo_labels|]. split; [apply demo_made|].
  split; [lia|]. split; [vm_compute; discriminate|]. intros n Hn. vm_compute in Hn. unfold nodes4.
  repeat (apply elem_of_cons in Hn as [->|Hn]; [set_solver|]). inversion Hn.
Qed.
Lemma ascii_by s : forallb (fun c => code c <? 128) s = true -> ascii_only s.
Proof. intros H. apply Forall_forall. intros c Hc. rewrite forallb_forall in H. apply Z.ltb_lt, H, elem_of_list_In, Hc. Qed.
Ltac fair_events :=
  repeat (constructor; [cbn [fair]; lazymatch goal with
    | |- True => exact I
    | |- usable _ _ _ /\ _ => split; [first [exact r3_usable|exact r4_usable]|apply ascii_by; vm_compute; reflexivity]
    | |- _ /\ True => split; [unfold nodes4; set_solver|exact I]
    | |- _ => unfold nodes4; set_solver
    end|]); constructor.
(** "a b" and "a_b" are the same counter, on different backends; one datum is lost, one is
    duplicated, and one dies with its daemon *)
Definition demo_cevents : list (cevent nat) :=
  [CWrite r3 (B "a b:3|c"); CWrite r3 (B "a_b:4|c"); CWrite r3 (B "nonsense"); CCopy 1; CWrite r3 (B "a b:10|c"); CLose 3;
   CArrive 1 (B "u"); CArrive 0 (B "u"); CArrive 0 (B "u");
   CLocal 9%nat (DNet (SRun 0)); CLocal 9%nat (DNet (SRun 0)); CLocal 9%nat DFlush; CLocal 9%nat (DStep 0); CLocal 9%nat (DStep 0);
   CLocal 8%nat (DNet (SRun 0)); CLocal 8%nat DFlush; CLocal 8%nat (DStep 0); CLocal 8%nat (DStep 0);
   CWrite r3 (B "a_b:5|c"); CArrive 0 (B "u"); CLocal 9%nat (DNet (SRun 0)); CCrash 9%nat; CWrite r3 (B "a_b:6|c"); CArrive 0 (B "u")].
Lemma demo_fair : Forall (fair demo_hash nodes4) demo_cevents.
Proof.
  unfold demo_cevents. fair_events.
Qed.
Definition counted (key : str) (n : nat) (c : @cluster demo_num nat (@mst demo_num)) : num (Num := demo_num) :=
  counts_in (NN := demo_num) key (map (fun x => snd (fst x)) (d_calls (c_node c n))).
Example C103_case : Forall (fair demo_hash nodes4) demo_cevents /\ NoDup nodes4 /\
  (forall a, ~ contribution (NN := demo_num) (B "a_b") (m_message demo_mon) a) /\
  let c := demo_run demo_cevents in
  c_transit c = [] /\ c_lost c = [(8%nat, B "a b:10|c")] /\ c_extra c = [(9%nat, B "a_b:4|c")] /\ length (c_refused c) = 1%nat /\
  map fst (c_dead c) = [9%nat] /\
  map (fun d => Props_Daemon.amount (counts_in (NN := demo_num) (B "a_b") (map (fun x => snd (fst x)) (d_calls (snd d)))) 8 &&
                Props_Daemon.amount (default n0 (p_counter (d_proc (snd d)) !! B "a_b")) 5)%bool (c_dead c) = [true] /\
  v_pending (d_srv (c_node c 9%nat)) = [B "a_b:6|c"] /\ Props_Daemon.amount (counted (B "a_b") 8 c) 3 = true /\
  Props_Daemon.amount (counted (B "a_b") 3 c) 0 = true.
Proof.
  split; [exact demo_fair|]. split; [apply NoDup_ListNoDup; repeat constructor; cbn; intuition lia|].
  split; [intros a; apply no_colon_none; vm_compute; reflexivity|]. cbv zeta. repeat split; vm_compute; reflexivity.
Qed.
Definition split_cevents : list (cevent nat) :=
  [CWrite r3 (B "a b:3|c"); CWrite r3 (B "a_b:4|c"); CArrive 0 (B "u"); CArrive 0 (B "u");
   CLocal 9%nat (DNet (SRun 0)); CLocal 9%nat DFlush; CLocal 9%nat (DStep 0); CLocal 9%nat (DStep 0);
   CLocal 8%nat (DNet (SRun 0)); CLocal 8%nat DFlush; CLocal 8%nat (DStep 0); CLocal 8%nat (DStep 0)].
(** One counter, one ring, two spellings: two daemons report it, each a part of it. *)
Theorem C103_split_refuted : exists (h : list (cevent nat)) key m n,
  Forall (fair demo_hash nodes4) h /\ (forall r' data, In (CWrite r' data) h -> r' = r3) /\ m <> n /\
  let c := demo_run h in
  ~ silent key (map (fun x => snd (fst x)) (d_calls (c_node c m))) /\ ~ silent key (map (fun x => snd (fst x)) (d_calls (c_node c n))).
Proof.
  exists split_cevents, (B "a_b"), 8%nat, 9%nat. split; [unfold split_cevents; fair_events|]. split.
  { intros r' data Hin. unfold split_cevents in Hin. repeat (destruct Hin as [Hin|Hin]; [inversion Hin; reflexivity|]). destruct Hin. }
  split; [discriminate|]. cbv zeta. split; intros H; apply silent_hit in H; vm_compute in H; discriminate.
Qed.
Print Assumptions C103_split_refuted.
(** One counter, one spelling, but a backend is added between two writes: again two daemons. *)
Definition grown_cevents : list (cevent nat) :=
  [CWrite r3 (B "a_b:4|c"); CWrite r4 (B "a_b:5|c"); CArrive 0 (B "u"); CArrive 0 (B "u");
   CLocal 9%nat (DNet (SRun 0)); CLocal 9%nat DFlush; CLocal 9%nat (DStep 0); CLocal 9%nat (DStep 0);
   CLocal 4%nat (DNet (SRun 0)); CLocal 4%nat DFlush; CLocal 4%nat (DStep 0); CLocal 4%nat (DStep 0)].
Theorem C103_grown_refuted : exists (h : list (cevent nat)) key m n,
  Forall (fair demo_hash nodes4) h /\ (forall r' data, In (CWrite r' data) h -> exists rest, data = key ++ B ":" ++ rest) /\ m <> n /\
  let c := demo_run h in
  ~ silent key (map (fun x => snd (fst x)) (d_calls (c_node c m))) /\ ~ silent key (map (fun x => snd (fst x)) (d_calls (c_node c n))).
Proof.
  exists grown_cevents, (B "a_b"), 9%nat, 4%nat. split.
  { unfold grown_cevents. fair_events. }
  split.
  { intros r' data Hin. unfold grown_cevents in Hin. repeat (destruct Hin as [Hin|Hin]; [inversion Hin; eexists; reflexivity|]). destruct Hin. }
  split; [discriminate|]. cbv zeta. split; intros H; apply silent_hit in H; vm_compute in H; discriminate.
Qed.
Print Assumptions C103_grown_refuted.
(** the hypotheses of C103_one_daemon are met: two counters, each with one spelling *)
Definition plain_cevents : list (cevent nat) :=
  [CWrite r3 (B "a_b:4|c"); CWrite r4 (B "b:1|c"); CWrite r3 (B "a_b:6|c|@0.5"); CArrive 2 (B "u"); CArrive 0 (B "v");
   CLocal 9%nat (DNet (SRun 0)); CLocal 8%nat (DInternal (B "own:1|c")); CLocal 9%nat DFlush; CLocal 9%nat (DStep 0); CLocal 9%nat (DStep 0)].
Lemma touch_by key m : counter_view (NN := demo_num) m key = None -> ~ counter_touch (NN := demo_num) m key.
Proof. intros H Ht. apply counter_view_touch in Ht as (v & r & Ht). congruence. Qed.
Example C103_one_daemon_case : Forall (fair demo_hash nodes4) plain_cevents /\
  (forall r' data, In (CWrite r' data) plain_cevents -> counter_touch (NN := demo_num) data (B "a_b") -> r' = r3 /\ exists rest, data = B "a_b" ++ B ":" ++ rest) /\
  Forall (fun x => ~ counter_touch (NN := demo_num) (snd x) (B "a_b")) (owned plain_cevents) /\
  ~ counter_touch (NN := demo_num) (m_message demo_mon) (B "a_b") /\
  let c := demo_run plain_cevents in
  c_transit c = [(8%nat, B "b:1|c")] /\ v_pending (d_srv (c_node c 9%nat)) = [B "a_b:4|c"] /\
  Props_Daemon.amount (counted (B "a_b") 9 c) 12 = true.
Proof.
  split.
  { unfold plain_cevents. fair_events. }
  split.
  { intros r' data Hin Ht. unfold plain_cevents in Hin.
    repeat (destruct Hin as [Hin|Hin]; [try discriminate; injection Hin as <- <-; first [split; [reflexivity|eexists; reflexivity]|exfalso; revert Ht; apply touch_by; vm_compute; reflexivity]|]). destruct Hin. }
  split; [constructor; [apply touch_by; vm_compute; reflexivity|constructor]|]. split; [apply touch_by; vm_compute; reflexivity|].
  cbv zeta. repeat split; vm_compute; reflexivity.
Qed.
