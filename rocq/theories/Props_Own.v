(** The daemon's own statistics, from the reporting functions to carbon (C98), and the daemon
    with the configurable processor (C99).
    [reported instance h l]: [l] are the values reported in the history [h], under their full
    names (OwnSpec.v); [sound_item CE i x]: the server reads the value [i] as [x] (a number
    and a metric name); [d_order d]: the lines handed to the router, in order. *)
From Verif Require Import Base StrFacts Num NumFacts Env Stats Glob Metrics Gen GenFacts Processor Configurable
  LineSpec LineFacts FloatFacts ProcFacts ProcSpec ReceiveFacts Demo
  Sched FlushSpec CSched ConfFacts ConfInv ConfDerived LogFacts XQFacts
  Client Router RouterSpec RouterFacts RouterProps Server ServerSpec
  ClientMetrics ClientServer ReportSpec Daemon DaemonFacts CDaemon Own OwnSpec OwnFacts OwnFacts2 OwnFacts3
  Props_Metrics Props_Daemon.
Open Scope Z_scope.

(** C98.  A daemon with reports is the daemon with some of the lines of each report, where
    the report was made: everything said of the daemon's histories (C95) holds of it. *)
Theorem C98_written : forall (NN : Num) S G inner (fl : gen S) rs cfg max closes refuses CE ext instance d h,
  exists es, written CE instance h es /\
    o_daemon (orun G inner fl rs cfg max closes refuses CE ext instance (o_new d) h) = drun G inner fl rs cfg max closes refuses d es.
Proof. exact @written_history. Qed.
Print Assumptions C98_written.
(** One report: its lines one after the other, up to the first that fails; that failure is
    logged.  No report, and no failure of one, stops a later one. *)
Theorem C98_report : forall (NN : Num) S G inner (fl : gen S) rs cfg max closes refuses CE ext instance d h items,
  let run := orun G inner fl rs cfg max closes refuses CE ext instance (o_new d) in
  exists done l, report_ends CE instance items done l /\
    d_internal (o_daemon (run (h ++ [OReport (Ok items)]))) = d_internal (o_daemon (run h)) ++ done /\
    o_logged (run (h ++ [OReport (Ok items)])) = o_logged (run h) ++ l.
Proof.
  intros NN S G inner fl rs cfg max closes refuses CE ext instance d h items run. subst run. cbv beta. rewrite orun_snoc.
  exact (report_outcome G inner fl rs cfg max closes refuses CE ext instance d h items).
Qed.
Print Assumptions C98_report.
(** Numbers under clean names that no rule matches, statsd-compliant: every line of every
    report is written, and only the failures of the functions themselves are logged. *)
Theorem C98_all_written : forall (NN : Num) E plugins G interval percent cfg max closes refuses config ls rs rws links CE ext instance addrs h l xs,
  build_rules G true config [] = (ls, Ok rs) -> rules_of config rws -> length links = length ls ->
  reported instance h l -> Forall2 (sound_item CE) l xs -> Forall (fun x => unmatched rws (gauge_text CE (fst x) (snd x))) l ->
  let C := mp_cls E plugins in
  let w := orun (S := mst) G (process_message E C) (flush E C interval percent) rs cfg max closes refuses CE ext instance
    (o_new (d_new addrs links mp_init)) h in
  o_logged w = failures h /\
  exists es, all_written CE instance h es /\
    o_daemon w = drun (S := mst) G (process_message E C) (flush E C interval percent) rs cfg max closes refuses (d_new addrs links mp_init) es.
Proof.
  intros NN E plugins G interval percent cfg max closes refuses config ls rs rws links CE ext instance addrs h l xs Hb Hr Hl Hh Hx Hu C w.
  destruct (reported_fine E C G (mp_plain E plugins) (mp_gauge_fine E plugins) interval percent cfg max closes refuses config ls rs rws Hb Hr CE ext instance
    (d_new addrs links mp_init) h l Hl Hh) as (es & H1 & H2 & H3 & _); [split; [eauto|exact Hu]|].
  split; [exact H3|]. exists es. split; [exact H1|exact H2].
Qed.
Print Assumptions C98_all_written.
(** The same daemon: each flush that gets through sends again every value ever reported. *)
Theorem C98_resent : forall (NN : Num) E plugins G interval percent cfg max closes refuses config ls rs rws links CE ext instance addrs h l xs i p s' out,
  build_rules G true config [] = (ls, Ok rs) -> rules_of config rws -> length links = length ls ->
  1000 <= interval -> 1000 <= i ->
  reported instance h l -> Forall2 (sound_item CE) l xs -> Forall (fun x => unmatched rws (gauge_text CE (fst x) (snd x))) l ->
  let C := mp_cls E plugins in
  let w := orun (S := mst) G (process_message E C) (flush E C interval percent) rs cfg max closes refuses CE ext instance
    (o_new (d_new addrs links mp_init)) h in
  (forall m, In m (d_order (o_daemon w)) -> unmatched rws m) ->
  grun (flush E C i p) (d_proc (o_daemon w)) = (s', out, None) ->
  exists ts samples before after,
    ntrunc (e_clock E (w_clk (p_w (d_proc (o_daemon w))))) = Ok ts /\
    picks (fun m '(v, key) => gauge_sample m key v) (d_order (o_daemon w)) samples /\
    out = before ++ map (gauge_line ts) samples ++ after /\ xs `sublist_of` samples.
Proof.
  intros NN E plugins G interval percent cfg max closes refuses config ls rs rws links CE ext instance addrs h l xs i p s' out Hb Hr Hl Hi Hi' Hh Hx Hu C w Hm Hf.
  exact (proj2 (own_resent E plugins G interval percent cfg max closes refuses config ls rs rws links Hb Hr Hl CE ext instance addrs h l xs i p s' out Hi Hi' Hh Hx Hu Hm Hf)).
Qed.
Print Assumptions C98_resent.
(** So what a flush sends grows with the time the daemon has been running. *)
Theorem C98_grows : forall (NN : Num) E plugins G interval percent cfg max closes refuses config ls rs rws links CE ext instance addrs h l xs i p s' out,
  build_rules G true config [] = (ls, Ok rs) -> rules_of config rws -> length links = length ls ->
  1000 <= interval -> 1000 <= i ->
  reported instance h l -> Forall2 (sound_item CE) l xs -> Forall (fun x => unmatched rws (gauge_text CE (fst x) (snd x))) l ->
  let C := mp_cls E plugins in
  let w := orun (S := mst) G (process_message E C) (flush E C interval percent) rs cfg max closes refuses CE ext instance
    (o_new (d_new addrs links mp_init)) h in
  (forall m, In m (d_order (o_daemon w)) -> unmatched rws m) ->
  grun (flush E C i p) (d_proc (o_daemon w)) = (s', out, None) ->
  (length l <= length out)%nat.
Proof.
  intros NN E plugins G interval percent cfg max closes refuses config ls rs rws links CE ext instance addrs h l xs i p s' out Hb Hr Hl Hi Hi' Hh Hx Hu C w Hm Hf.
  destruct (C98_resent NN E plugins G interval percent cfg max closes refuses config ls rs rws links CE ext instance addrs h l xs i p s' out Hb Hr Hl Hi Hi' Hh Hx Hu Hm Hf)
    as (ts & samples & before & after & _ & _ & -> & Hs).
  rewrite (Forall2_length _ _ _ Hx), !app_length, map_length. apply sublist_length in Hs. etransitivity; [exact Hs|]. rewrite Nat.add_comm, <- Nat.add_assoc. apply Nat.le_add_r.
Qed.
Print Assumptions C98_grows.
(** With the configurable processor: all written, and each flush sends every name reported
    once, with the last value received for it. *)
Theorem C98_latest : forall (NN : Num) E prefix internal plugins G interval percent cfg max closes refuses config ls rs rws links CE ext instance addrs h l xs,
  build_rules G true config [] = (ls, Ok rs) -> rules_of config rws -> length links = length ls ->
  reported instance h l -> Forall2 (sound_item CE) l xs -> Forall (fun x => unmatched rws (gauge_text CE (fst x) (snd x))) l ->
  let C := cp_cls E prefix internal plugins in
  let w := orun (S := Configurable.cst) G (process_message E C) (flush E C interval percent) rs cfg max closes refuses CE ext instance
    (o_new (d_new addrs links cp_init)) h in
  o_logged w = failures h /\ map (fun i => gauge_text CE (fst i) (snd i)) l `sublist_of` d_order (o_daemon w) /\
  forall i p s' out, (forall m, In m (d_order (o_daemon w)) -> unmatched rws m) ->
    grun (cflush E prefix internal plugins i p) (d_proc (o_daemon w)) = (s', out, None) ->
    exists ts before vs after,
      out = before ++ map (fun '(k, v) => DP (under prefix k ++ B ".value") (VF v) ts) vs ++ after /\
      NoDup (vs.*1) /\ (forall key v, (key, v) ∈ vs <-> last_value (B "g") key (d_order (o_daemon w)) v) /\
      forall x key, (x, key) ∈ xs -> exists v, (key, v) ∈ vs.
Proof.
  intros NN E prefix internal plugins G interval percent cfg max closes refuses config ls rs rws links CE ext instance addrs h l xs Hb Hr Hl Hh Hx Hu C w.
  destruct (own_kept E prefix internal plugins G interval percent cfg max closes refuses config ls rs rws links Hb Hr Hl CE ext instance addrs h l xs Hh Hx Hu) as (H1 & H2 & _).
  split; [exact H1|]. split; [exact H2|]. intros i p s' out.
  exact (own_latest E prefix internal plugins G interval percent cfg max closes refuses config ls rs rws links Hb Hr Hl CE ext instance addrs h l xs i p s' out Hh Hx Hu).
Qed.
Print Assumptions C98_latest.
(** And the listing of metric names fails from then on. *)
Theorem C98_listing : forall (NN : Num) E prefix internal plugins G interval percent cfg max closes refuses config ls rs rws links CE ext instance addrs h l xs x key,
  build_rules G true config [] = (ls, Ok rs) -> rules_of config rws -> length links = length ls ->
  reported instance h l -> Forall2 (sound_item CE) l xs -> Forall (fun x => unmatched rws (gauge_text CE (fst x) (snd x))) l ->
  let C := cp_cls E prefix internal plugins in
  let w := orun (S := Configurable.cst) G (process_message E C) (flush E C interval percent) rs cfg max closes refuses CE ext instance
    (o_new (d_new addrs links cp_init)) h in
  (forall m, In m (d_order (o_daemon w)) -> unmatched rws m) ->
  (x, key) ∈ xs -> length key <> 2%nat ->
  cp_metric_names (d_proc (o_daemon w)) = Exn ValueError.
Proof.
  intros NN E prefix internal plugins G interval percent cfg max closes refuses config ls rs rws links CE ext instance addrs h l xs x key Hb Hr Hl.
  exact (own_listing E prefix internal plugins G interval percent cfg max closes refuses config ls rs rws links Hb Hr Hl CE ext instance addrs h l xs x key).
Qed.
Print Assumptions C98_listing.

Definition own_history : list (oevent (NN := demo_num)) :=
  [OReport (Ok [(B "rss", VInt 3); (B "vms", VInt 4)]); ODaemon (DNet (SDatagram (B "u") (B "a:3|c"))); ODaemon (DNet (SRun 0));
   OReport (Exn OtherError); ODelay (VInt 0); OReport (Ok [(B "rss", VInt 5)])].
Definition own_values : list (str * val (NN := demo_num)) :=
  [(B "host.rss", VInt 3); (B "host.vms", VInt 4); (B "delay", VInt 0); (B "host.rss", VInt 5)].
Definition lit (n : Z) : num (Num := demo_num) := nlit (Num := demo_num) (FDec false n 0).
Definition own_read : list (num (Num := demo_num) * str) :=
  [(lit 3, B "host.rss"); (lit 4, B "host.vms"); (lit 0, B "delay"); (lit 5, B "host.rss")].
Lemma own_reported : reported (B "host") own_history own_values.
Proof.
  apply (rp_report _ (take 5 own_history) (take 3 own_values) [(B "rss", VInt 5)] [B "host.rss"]);
    [|repeat constructor; discriminate].
  apply (rp_delay _ (take 4 own_history) (take 2 own_values)).
  apply (rp_failed _ (take 3 own_history) (take 2 own_values)).
  apply (rp_event _ (take 2 own_history) (take 2 own_values)). apply (rp_event _ (take 1 own_history) (take 2 own_values)).
  apply (rp_report _ [] [] [(B "rss", VInt 3); (B "vms", VInt 4)] [B "host.rss"; B "host.vms"]); [constructor|].
  repeat constructor; discriminate.
Qed.
Definition clean_text (q : str) : bool :=
  forallb (fun c => (N_of_ascii c <? 128)%N && negb (Ascii.eqb c ":")) q && negb (existsb (fun c => match q with a :: _ => Ascii.eqb a c | [] => false end) ws_chars).
Lemma clean_by q : clean_text q = true -> clean_name q.
Proof.
  intros H. apply andb_prop in H as [H1 H2]. rewrite forallb_forall in H1. apply negb_true_iff in H2.
  split; [|split].
  - intros H. specialize (H1 _ H). apply andb_prop in H1 as [_ H1]. rewrite Ascii.eqb_refl in H1. discriminate.
  - intros c q' -> H. assert (existsb (fun c0 => Ascii.eqb c c0) ws_chars = true); [|congruence].
    apply existsb_exists. exists c. split; [exact H|apply Ascii.eqb_refl].
  - intros c H. specialize (H1 _ H). apply andb_prop in H1 as [H1 _]. apply N.ltb_lt, H1.
Qed.
Lemma own_sound : Forall2 (sound_item demo_cenv) own_values own_read.
Proof.
  repeat constructor; try (apply clean_by; vm_compute; reflexivity); cbn [fst];
    (apply (reads_by (NN := demo_num)); vm_compute; reflexivity).
Qed.
Definition own_whole {S} inner fl (p : S) (h : list (oevent (NN := demo_num))) : whole (S := S) :=
  orun (S := S) toy_engine inner fl [] demo_mon 100 false (fun _ _ => None) demo_cenv false (B "host") (o_new (d_new [B "t"] [] p)) h.
Definition own_compliant := own_whole (S := mst) (process_message demo_env (mp_cls demo_env [])) (flush demo_env (mp_cls demo_env []) 10000 90) mp_init.
Definition own_configurable := own_whole (S := Configurable.cst) (process_message demo_env (cp_cls demo_env (B "pre") [] []))
  (flush demo_env (cp_cls demo_env (B "pre") [] []) 10000 90) cp_init.
Lemma no_rules m : unmatched [] m.
Proof. intros t k fs _. constructor. Qed.
(** four values reported; both values of host.rss are in the flush *)
Example C98_case :
  build_rules toy_engine true [] [] = ([], Ok []) /\ rules_of [] [] /\
  reported (B "host") own_history own_values /\ Forall2 (sound_item demo_cenv) own_values own_read /\
  Forall (fun x => unmatched [] (gauge_text demo_cenv (fst x) (snd x))) own_values /\
  let w := own_compliant own_history in
  (forall m, In m (d_order (o_daemon w)) -> unmatched [] m) /\
  o_logged w = [OtherError] /\
  d_order (o_daemon w) = [B "host.rss:3|g"; B "host.vms:4|g"; B "a:3|c"; B "delay:0|g"; B "host.rss:5|g"] /\
  let '(_, out, o) := grun (flush demo_env (mp_cls demo_env []) 10000 90) (d_proc (o_daemon w)) in
  o = None /\ length (filter (fun d => dp_name d = B "stats.gauge.host.rss.value") out) = 2%nat.
Proof.
  split; [vm_compute; reflexivity|]. split; [apply rules_by; vm_compute; reflexivity|]. split; [exact own_reported|].
  split; [exact own_sound|]. split; [repeat constructor; apply no_rules|]. cbv zeta.
  split; [intros m _; apply no_rules|]. split; [vm_compute; reflexivity|]. split; [vm_compute; reflexivity|].
  vm_compute. split; reflexivity.
Qed.
(** the same history, configurable: one value; the listing fails *)
Example C98_latest_case :
  let w := own_configurable own_history in
  o_logged w = [OtherError] /\
  d_order (o_daemon w) = [B "host.rss:3|g"; B "host.vms:4|g"; B "a:3|c"; B "delay:0|g"; B "host.rss:5|g"] /\
  cp_metric_names (d_proc (o_daemon w)) = Exn ValueError /\
  let '(_, out, o) := grun (cflush demo_env (B "pre") [] [] 10000 90) (d_proc (o_daemon w)) in
  o = None /\ length (filter (fun d => dp_name d = B "pre.host.rss.value") out) = 1%nat.
Proof.
  cbv zeta. split; [vm_compute; reflexivity|]. split; [vm_compute; reflexivity|]. split; [vm_compute; reflexivity|].
  vm_compute. split; reflexivity.
Qed.
(** a name that is not ASCII cuts the report; the next report is made *)
Example C98_cut_case :
  let w := own_compliant [OReport (Ok [(B "rss", VInt 3); ([ascii_of_nat 200], VInt 4); (B "vms", VInt 5)]); OReport (Ok [(B "vms", VInt 6)])] in
  o_logged w = [UnicodeDecodeError] /\ d_order (o_daemon w) = [B "host.rss:3|g"; B "host.vms:6|g"].
Proof. split; vm_compute; reflexivity. Qed.

(** C99.  The daemon with the configurable processor.  Whatever is done with it, in any
    order: the processor's state and what was sent are those of a history of messages
    received and flushes of the processor alone (C25-C30, C85), in which the same
    numbers arrive under the same names as at the router. *)
Theorem C99_refines : forall (NN : Num) E prefix internal plugins G interval percent cfg max closes refuses config ls rs rws links addrs es,
  build_rules G true config [] = (ls, Ok rs) -> rules_of config rws -> length links = length ls ->
  let C := cp_cls E prefix internal plugins in
  let d := drun (S := Configurable.cst) G (process_message E C) (flush E C interval percent) rs cfg max closes refuses (d_new addrs links cp_init) es in
  (forall m, In m (d_order d) -> unmatched rws m) ->
  exists es', d_proc d = creached E prefix internal plugins es' /\
    map (fun c => snd (fst c)) (d_calls d)
      = g_out (gsys_run (creceive E prefix internal plugins) (cflush E prefix internal plugins) es' (gsys_init cp_init)) /\
    forall t key l, picks (ConfFacts.value_line t key) (lines es') l <-> picks (ConfFacts.value_line t key) (d_order d) l.
Proof.
  intros NN E prefix internal plugins G interval percent cfg max closes refuses config ls rs rws links addrs es Hb Hr Hl.
  exact (conf_refines E prefix internal plugins G interval percent cfg max closes refuses config ls rs rws links Hb Hr Hl addrs es).
Qed.
Print Assumptions C99_refines.
(** Every flush sends for each counter the last value handed over, truncated, under the
    configured prefix. *)
Theorem C99_counters : forall (NN : Num) E prefix internal plugins G interval percent cfg max closes refuses config ls rs rws links addrs es i p s' out o ts,
  build_rules G true config [] = (ls, Ok rs) -> rules_of config rws -> length links = length ls ->
  let C := cp_cls E prefix internal plugins in
  let d := drun (S := Configurable.cst) G (process_message E C) (flush E C interval percent) rs cfg max closes refuses (d_new addrs links cp_init) es in
  (forall m, In m (d_order d) -> unmatched rws m) ->
  ntrunc (e_clock E (w_clk (p_w (d_proc d)))) = Ok ts ->
  (forall key v, last_value (B "c") key (d_order d) v -> exists z, ntrunc v = Ok z) ->
  grun (cflush E prefix internal plugins i p) (d_proc d) = (s', out, o) ->
  exists zs rest, NoDup (zs.*1) /\
    (forall key z, (key, z) ∈ zs <-> exists v, last_value (B "c") key (d_order d) v /\ ntrunc v = Ok z) /\
    out = map (fun '(k, z) => DP (under prefix k ++ B ".count") (VI z) ts) zs ++ rest.
Proof.
  intros NN E prefix internal plugins G interval percent cfg max closes refuses config ls rs rws links addrs es i p s' out o ts Hb Hr Hl.
  exact (conf_counters E prefix internal plugins G interval percent cfg max closes refuses config ls rs rws links Hb Hr Hl addrs es i p s' out o ts).
Qed.
Print Assumptions C99_counters.
Theorem C99_gauges : forall (NN : Num) E prefix internal plugins G interval percent cfg max closes refuses config ls rs rws links addrs es i p s' out,
  build_rules G true config [] = (ls, Ok rs) -> rules_of config rws -> length links = length ls ->
  let C := cp_cls E prefix internal plugins in
  let d := drun (S := Configurable.cst) G (process_message E C) (flush E C interval percent) rs cfg max closes refuses (d_new addrs links cp_init) es in
  (forall m, In m (d_order d) -> unmatched rws m) ->
  grun (cflush E prefix internal plugins i p) (d_proc d) = (s', out, None) ->
  exists ts before vs after,
    ntrunc (e_clock E (w_clk (p_w (d_proc d)))) = Ok ts /\
    out = before ++ map (fun '(k, v) => DP (under prefix k ++ B ".value") (VF v) ts) vs ++ after /\
    NoDup (vs.*1) /\ (forall key v, (key, v) ∈ vs <-> last_value (B "g") key (d_order d) v).
Proof.
  intros NN E prefix internal plugins G interval percent cfg max closes refuses config ls rs rws links addrs es i p s' out Hb Hr Hl.
  exact (conf_gauges E prefix internal plugins G interval percent cfg max closes refuses config ls rs rws links Hb Hr Hl addrs es i p s' out).
Qed.
Print Assumptions C99_gauges.
(** One counter whose last value is not a number (or infinite) fails every flush, and
    nothing but counters is sent. *)
Theorem C99_bad_counter : forall (NN : Num) E prefix internal plugins G interval percent cfg max closes refuses config ls rs rws links addrs es i p ts key v e,
  build_rules G true config [] = (ls, Ok rs) -> rules_of config rws -> length links = length ls ->
  let C := cp_cls E prefix internal plugins in
  let d := drun (S := Configurable.cst) G (process_message E C) (flush E C interval percent) rs cfg max closes refuses (d_new addrs links cp_init) es in
  (forall m, In m (d_order d) -> unmatched rws m) ->
  ntrunc (e_clock E (w_clk (p_w (d_proc d)))) = Ok ts ->
  last_value (B "c") key (d_order d) v -> ntrunc v = Exn e ->
  exists s' (zs : list (str * Z)) e', grun (cflush E prefix internal plugins i p) (d_proc d) =
      (s', map (fun '(k, z) => DP (under prefix k ++ B ".count") (VI z) ts) zs, Some e') /\
    forall k z, (k, z) ∈ zs -> exists x, last_value (B "c") k (d_order d) x /\ ntrunc x = Ok z.
Proof.
  intros NN E prefix internal plugins G interval percent cfg max closes refuses config ls rs rws links addrs es i p ts key v e Hb Hr Hl.
  exact (conf_bad_counter E prefix internal plugins G interval percent cfg max closes refuses config ls rs rws links Hb Hr Hl addrs es i p ts key v e).
Qed.
Print Assumptions C99_bad_counter.
(** Every name sent is under one of the two prefixes. *)
Theorem C99_names : forall (NN : Num) E prefix internal plugins G interval percent cfg max closes refuses config ls rs rws links addrs es,
  build_rules G true config [] = (ls, Ok rs) -> rules_of config rws -> length links = length ls ->
  let C := cp_cls E prefix internal plugins in
  let d := drun (S := Configurable.cst) G (process_message E C) (flush E C interval percent) rs cfg max closes refuses (d_new addrs links cp_init) es in
  (forall m, In m (d_order d) -> unmatched rws m) ->
  Forall (fun x => conf_name prefix (internal_prefix prefix internal) (known plugins) (dp_name x)) (map (fun c => snd (fst c)) (d_calls d)).
Proof.
  intros NN E prefix internal plugins G interval percent cfg max closes refuses config ls rs rws links addrs es Hb Hr Hl.
  exact (conf_names E prefix internal plugins G interval percent cfg max closes refuses config ls rs rws links Hb Hr Hl addrs es).
Qed.
Print Assumptions C99_names.

Definition conf_daemon (es : list devent) : daemon :=
  drun (S := Configurable.cst) toy_engine (process_message demo_env (cp_cls demo_env (B "pre") [] []))
    (flush demo_env (cp_cls demo_env (B "pre") [] []) 10000 90) [] demo_mon 100 false carbon (d_new [B "t"] [] cp_init) es.
(** two updates of one counter: the second counts; a counter that is not a number spoils it *)
Example C99_case : let d := conf_daemon demo_devents in
  d_order d = [B "a:3|c"; B "own x:1|g"; B "b:2|c"; B "a:4|c"] /\ length (d_calls d) = 2%nat /\
  (let '(_, out, o) := grun (cflush demo_env (B "pre") [] [] 10000 90) (d_proc d) in
   o = None /\ existsb (fun x => str_eqb (dp_name x) (B "pre.a.count") && match dp_value x with VI z => z =? 4 | _ => false end) out = true) /\
  let d' := conf_daemon (demo_devents ++ [DInternal (B "z:nan|c")]) in
  (exists v, last_value (NN := demo_num) (B "c") (B "z") (d_order d') v /\ ntrunc v = Exn ValueError) /\
  let '(_, out, o) := grun (cflush demo_env (B "pre") [] [] 10000 90) (d_proc d') in
  o = Some ValueError /\ forallb (fun x => bool_decide (B ".count" `suffix_of` dp_name x)) out = true.
Proof.
  cbv zeta. split; [vm_compute; reflexivity|]. split; [vm_compute; reflexivity|]. split; [vm_compute; split; reflexivity|].
  split; [|vm_compute; split; reflexivity].
  exists (nlit (Num := demo_num) FNan). split; [|reflexivity]. exists [nlit (Num := demo_num) FNan]. split; [|reflexivity].
  replace (d_order (conf_daemon (demo_devents ++ [DInternal (B "z:nan|c")])))
    with [B "a:3|c"; B "own x:1|g"; B "b:2|c"; B "a:4|c"; B "z:nan|c"] by (vm_compute; reflexivity).
  do 4 (apply picks_miss; [apply view_none; vm_compute; reflexivity|]). apply picks_hit; [apply view_iff; vm_compute; reflexivity|]. constructor.
Qed.
