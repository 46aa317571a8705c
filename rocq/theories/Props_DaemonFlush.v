(** One flush of the assembled daemon (C119).
    [sent_by k d]: the datapoints of the [k]-th flush given to carbon, in order; [taken table st
    a b report groups]: between the moments [a] and [b] every entry of the table is reported
    once, as it then is, and no entry is added. *)
From Verif Require Import Base StrFacts Num NumFacts Env Stats Glob Metrics Gen GenFacts Processor
  LineSpec LineFacts FloatFacts ProcFacts ProcSpec ReceiveFacts ReceiveFacts2 ReceiveFacts3 PlugFacts Demo
  Sched FlushInv FlushOk SchedFacts XQFacts FlushSpec
  Client RouterSpec Router RouterFacts RouterProps Server ServerSpec ServerFacts Daemon DaemonFacts FlushSched DaemonFlush
  Props_Daemon.
Open Scope Z_scope.

(** C119.  The daemon of C95 with any routing rules.  After [es1] the flush task begins a flush,
    which has come to its end without an exception after [es2] has happened as well: datagrams
    and chunks of connections, lines run by the reactor, its own statistics, other flushes.
    What carbon was given of this flush is everything, once each, in this order. *)
Theorem C119_completed : forall (NN : Num) (E : env) plugins G interval percent cfg max closes refuses config ls rs rws,
  build_rules G true config [] = (ls, Ok rs) -> rules_of config rws -> forall addrs links es1 es2, length links = length ls -> 1000 <= interval ->
  let C := mp_cls E plugins in
  let run := drun (S := mst) G (process_message E C) (flush E C interval percent) rs cfg max closes refuses in
  let d1 := run (d_new addrs links mp_init) es1 in
  let d := run d1 (DFlush :: es2) in
  (forall m, In m (d_order d) -> exists ts, delivers G rws m ts) ->
  In (d_begun d1, None) (d_ended d) ->
  exists tss1 tss2 (st : nat -> mst) last late late' ts a b c u e f cs tm gs ms ps kinds types dc dt dg dm dpl,
    let nc := Z.of_nat (length cs) in
    let nt := Z.of_nat (length (List.filter nonempty tm)) in
    let ng := Z.of_nat (length gs) in
    let nm := Z.of_nat (length ms) in
    let np := Z.of_nat (length ps) in
    Forall2 (delivers G rws) (d_order d1) tss1 /\ Forall2 (delivers G rws) (d_order d) (tss1 ++ tss2) /\
    st 0%nat = d_proc d1 /\ st last = d_proc d /\ (f < last)%nat /\ ntrunc (e_clock E (w_clk (p_w (st a)))) = Ok ts /\
    taken p_counter st a b (fun k v l => l = counter_lines (interval / 1000) ts (k, v)) cs /\
    taken p_timer st b c (timer_report percent ts) tm /\
    ((c <= u)%nat /\ late `prefix_of` late' /\ late' `prefix_of` concat tss2 /\
     picks (fun m '(v, key) => gauge_sample m key v) (concat tss1 ++ late) gs /\
     picks (fun m '(v, key) => gauge_sample m key v) (concat tss1 ++ late') gs) /\
    taken p_meter st u e (meter_taken ts) ms /\
    taken p_plug st e f (plug_taken E ts) ps /\
    kinds ≡ₚ [(B "counter", (nc, dc)); (B "timer", (nt, dt)); (B "gauge", (ng, dg));
              (B "meter", (nm, dm)); (B "plugin", (np, dpl))] /\
    Forall (named (B "statsd.receive.")) types /\
    sent_by (d_begun d1) d = concat cs ++ concat tm ++ map (gauge_line ts) gs ++ concat ms ++ concat ps ++
          DP (B "statsd.numStats") (VI (nc + nt + ng + nm + np)) ts ::
          flat_map (fun '(name, (n, x)) => summary_lines (B "flush") ts name n x) kinds ++ types.
Proof. exact @daemon_completed. Qed.
Print Assumptions C119_completed.

(** So every counter and every gauge of the lines the router had been given when the flush was
    begun, which no rule matches, has been given to carbon. *)
Theorem C119_none_left_out : forall (NN : Num) (E : env) plugins G interval percent cfg max closes refuses config ls rs rws addrs links es1 es2,
  build_rules G true config [] = (ls, Ok rs) -> rules_of config rws -> length links = length ls -> 1000 <= interval ->
  let C := mp_cls E plugins in
  let run := drun (S := mst) G (process_message E C) (flush E C interval percent) rs cfg max closes refuses in
  let d1 := run (d_new addrs links mp_init) es1 in
  let d := run d1 (DFlush :: es2) in
  Forall (unmatched rws) (d_order d) -> In (d_begun d1, None) (d_ended d) ->
  exists ts,
    (forall key m, In m (d_order d1) -> counter_touch m key ->
       exists v, In (DP (B "stats." ++ key) (VF (ndiv v (nofZ (interval / 1000)))) ts) (sent_by (d_begun d1) d) /\ In (DP (B "stats_counts." ++ key) (VF v) ts) (sent_by (d_begun d1) d)) /\
    (forall key v m, In m (d_order d1) -> gauge_sample m key v -> In (DP (B "stats.gauge." ++ key ++ B ".value") (VF v) ts) (sent_by (d_begun d1) d)).
Proof. exact @unmatched_none_left_out. Qed.
Print Assumptions C119_none_left_out.

(** a flush is left unfinished, the next is begun and comes to its end, while a counter arrives
    and is run, and the daemon writes a statistic of its own *)
Definition C119_before : list devent :=
  [DNet (SDatagram (B "u") (B "a:5|c")); DNet (SDatagram (B "u") (B "g:7|g")); DNet (SRun 0); DNet (SRun 0); DFlush; DStep 0].
Definition C119_during : list devent :=
  [DStep 1; DNet (SDatagram (B "u") (B "a:9|c")); DStep 1; DNet (SRun 0); DStep 1; DInternal (B "a:1|c"); DStep 0] ++ repeat (DStep 1) 30.
Example C119_case : build_rules toy_engine true [] [] = ([], Ok []) /\ rules_of [] [] /\
  let d1 := demo_daemon (fun _ _ => None) [] C119_before in
  let d := demo_daemon (fun _ _ => None) [] (C119_before ++ DFlush :: C119_during) in
  d_begun d1 = 1%nat /\ d_order d1 = [B "a:5|c"; B "g:7|g"] /\ d_order d = [B "a:5|c"; B "g:7|g"; B "a:9|c"; B "a:1|c"] /\
  Forall (unmatched []) (d_order d) /\ existsb (fun x => match x with (1%nat, None) => true | _ => false end) (d_ended d) = true /\
  firstn 4 (map dp_name (sent_by 1 d)) = [B "stats.a"; B "stats_counts.a"; B "stats.gauge.g.value"; B "statsd.numStats"].
Proof.
  split; [vm_compute; reflexivity|]. split; [apply rules_by; vm_compute; reflexivity|].
  cbv zeta. split; [vm_compute; reflexivity|]. split; [vm_compute; reflexivity|]. split; [vm_compute; reflexivity|].
  split; [apply Forall_forall; intros m _ t k fs _; constructor|]. split; vm_compute; reflexivity.
Qed.
(** The claim without "without an exception" is false: carbon refuses the second datapoint. *)
Theorem C119_refused_refuted : exists refuses es1 es2, let d := demo_daemon refuses [] (es1 ++ DFlush :: es2) in
  map dp_name (sent_by 1 d) <> [] /\ existsb (fun x => match x with (1%nat, Some _) => true | _ => false end) (d_ended d) = true /\
  Forall (fun n => n <> B "stats.gauge.g.value") (map dp_name (sent_by 1 d)).
Proof.
  exists carbon, C119_before, C119_during. cbv zeta. assert (H : map dp_name (sent_by 1 (demo_daemon carbon [] (C119_before ++ DFlush :: C119_during))) = [B "stats.a"]) by (vm_compute; reflexivity).
  rewrite H. split; [discriminate|]. split; [vm_compute; reflexivity|]. constructor; [discriminate|constructor].
Qed.
Print Assumptions C119_refused_refuted.

(** And no flush goes on for ever: one that is resumed again and again ends, whatever happens to
    the daemon meanwhile and whatever processor it has ([stepped_again … d k ev]: for as long as
    the [k]-th flush is unfinished, it is resumed at some later moment of [ev]). *)
Theorem C119_ends : forall (NN : Num) (T : Type) (G : engine) inner (fl : gen T) rs cfg max closes refuses (d : daemon) ev,
  let d1 := dstep G inner fl rs cfg max closes refuses d DFlush in
  stepped_again G inner fl rs cfg max closes refuses d1 (d_begun d) ev ->
  exists n r, In (d_begun d, r) (d_ended (drun G inner fl rs cfg max closes refuses d1 (dfirsts ev n))).
Proof.
  intros NN T G inner fl rs cfg max closes refuses d ev d1. apply (daemon_flush_over G inner fl rs cfg max closes refuses d1 _ fl (length (d_live d))).
  unfold d1. cbn. rewrite lookup_app_r by lia. rewrite Nat.sub_diag. reflexivity.
Qed.
Print Assumptions C119_ends.
(** datagrams arrive and are run between the steps of the only flush *)
Definition C119_stream (n : nat) : devent :=
  match (n mod 3)%nat with O => DNet (SDatagram (B "u") (B "a:1|c")) | 1%nat => DNet (SRun 0) | _ => DStep 0 end.
Example C119_ends_case : forall fl : gen (NN := demo_num) (mst (NN := demo_num)),
  stepped_again toy_engine (process_message demo_env (mp_cls demo_env [])) fl [] demo_mon 100 false (fun _ _ => None)
    (dstep toy_engine (process_message demo_env (mp_cls demo_env [])) fl [] demo_mon 100 false (fun _ _ => None) (d_new [B "t"] [] (mp_init (NN := demo_num))) DFlush) 0 C119_stream.
Proof.
  intros fl. set (step := dstep toy_engine (process_message demo_env (mp_cls demo_env [])) fl [] demo_mon 100 false (fun _ _ => None)).
  assert (H : forall es d, Forall (fun e => exists n, e = C119_stream n) es -> (length (d_live d) <= 1)%nat -> (length (d_live (fold_left step es d)) <= 1)%nat).
  { induction es as [|e es IH]; intros d Hes Hd; [exact Hd|]. inversion Hes as [|? ? [n He] Hes']; subst. cbn [fold_left]. apply (IH _ Hes').
    clear IH Hes Hes'. unfold C119_stream, step. destruct (n mod 3)%nat as [|[|q]]; cbn [dstep].
    - destruct (sstep _ _ _ _ _ _) as [ks s']. exact Hd.
    - destruct (sstep _ _ _ _ _ _) as [ks s']. exact Hd.
    - destruct (d_live d !! 0%nat) as [[k g]|]; [|exact Hd].
      destruct (gnext g (d_proc d)) as [p [v g'| |x]]; cbn [d_live]; [rewrite insert_length; exact Hd|..];
        (destruct (d_live d) as [|a l]; cbn in *; lia). }
  intros n. exists (3 * n + 2)%nat. split; [lia|]. intros j g Hj.
  assert (Hl : (j < 1)%nat).
  { eapply Nat.lt_le_trans; [eapply lookup_lt_Some, Hj|]. apply H; [|cbn; lia]. unfold dfirsts. apply Forall_map, Forall_forall. intros x _. eexists; reflexivity. }
  assert (j = 0%nat) as -> by lia. unfold C119_stream.
  replace ((3 * n + 2) mod 3)%nat with 2%nat; [reflexivity|]. rewrite Nat.add_comm, Nat.mul_comm, Nat.mod_add by lia. reflexivity.
Qed.
