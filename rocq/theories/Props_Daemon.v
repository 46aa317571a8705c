(** The daemon as assembled by createService, from what arrives to what is sent to carbon
    (C95). *)
From Verif Require Import Base StrFacts Num NumFacts Env Stats Glob Metrics Gen GenFacts Processor
  LineSpec LineFacts FloatFacts ProcFacts ProcSpec ReceiveFacts ReceiveFacts2 ReceiveFacts3 PlugFacts Demo
  Sched FlushInv FlushOk SchedFacts XQFacts FlushDerived
  Client Router RouterSpec RouterFacts RouterProps Server ServerSpec FrameFacts ServerFacts Daemon DaemonFacts DaemonDone.
Open Scope Z_scope.

(** C95.  Lines arrive by UDP and TCP in any chunks and interleaving, the daemon writes its
    own, the reactor runs what is scheduled in any order, flushes start, overlap and are
    stepped in any order, carbon refuses what it likes, redirects connect and disconnect.
    The rules match nothing that arrives (in particular: there are none).  Per counter:
    what was sent, plus what suspended and refused flushes still hold, plus what is stored,
    plus what the lines still scheduled will add, is what the lines that arrived add up to. *)
Theorem C95_conservation : forall (NN : Num) (NL : NumLaw NN) (NX : NumExact NN) E plugins G interval percent cfg max refuses
  config ls rs rws links addrs es out key,
  build_rules G true config [] = (ls, Ok rs) -> rules_of config rws -> length links = length ls -> 1000 <= interval ->
  arrivals max (map (fun a => (a, [])) addrs) (nets es) out ->
  Forall (unmatched rws) (metrics_in cfg out ++ own es) ->
  let C := mp_cls E plugins in
  let d := drun G (process_message E C) (flush E C interval percent) rs cfg max false refuses (d_new addrs links mp_init) es in
  exists waiting accepted,
    picks (contribution key) (v_pending (d_srv d)) waiting /\
    picks (contribution key) (metrics_in cfg out ++ own es) accepted /\
    nadd (nadd (counts_in key (map (fun c => snd (fst c)) (d_calls d)))
      (nadd (counts_in key (flat_map pending (map snd (d_live d) ++ d_gone d)))
            (default n0 (p_counter (d_proc d) !! key)))) (nsum waiting)
    = nsum accepted.
Proof.
  intros NN NL NX E plugins G interval percent cfg max refuses config ls rs rws links addrs es out key Hb Hr Hl Hi Ha Hu C d.
  exact (daemon_arrived E plugins G interval percent cfg max refuses config ls rs rws links Hb Hr Hl Hi addrs es out key Ha Hu).
Qed.
Print Assumptions C95_conservation.
(** Once the daemon is idle, one more flush that carbon accepts leaves nothing behind. *)
Theorem C95_all_sent : forall sq (E : env (NN := XQ sq)) plugins G interval percent cfg max refuses config ls rs rws links addrs es out key,
  build_rules G true config [] = (ls, Ok rs) -> rules_of config rws -> length links = length ls ->
  1000 <= interval -> 26 <= percent <= 100 -> (forall n, exists q, e_clock E n = Fin q) ->
  (forall n v, refuses n v = None) ->
  arrivals max (map (fun a => (a, [])) addrs) (nets es) out ->
  Forall (unmatched rws) (metrics_in cfg out ++ own es) ->
  let C := mp_cls E plugins in
  let run := drun G (process_message E C) (flush E C interval percent) rs cfg max false refuses (d_new addrs links mp_init) in
  v_pending (d_srv (run es)) = [] -> d_live (run es) = [] ->
  exists n accepted, let d := run (es ++ DFlush :: repeat (DStep 0) n) in
    d_live d = [] /\ picks (contribution key) (metrics_in cfg out ++ own es) accepted /\
    counts_in key (map (fun c => snd (fst c)) (d_calls d)) = nsum accepted.
Proof. exact all_sent. Qed.
Print Assumptions C95_all_sent.
(** Rules that make at most one metric of each line: the counts are those of what the rules
    make of the lines handled so far; every line that arrived is handled or scheduled. *)
Theorem C95_routed : forall (NN : Num) (NL : NumLaw NN) (NX : NumExact NN) E plugins G interval percent cfg max refuses
  config ls rs rws links addrs es out key,
  build_rules G true config [] = (ls, Ok rs) -> rules_of config rws -> length links = length ls -> 1000 <= interval ->
  arrivals max (map (fun a => (a, [])) addrs) (nets es) out ->
  (forall m, In m (metrics_in cfg out ++ own es) -> exists ts, delivers G rws m ts) ->
  let C := mp_cls E plugins in
  let d := drun G (process_message E C) (flush E C interval percent) rs cfg max false refuses (d_new addrs links mp_init) es in
  exists handled waiting tss accepted,
    handled ++ waiting ≡ₚ metrics_in cfg out ++ own es /\ waiting = v_pending (d_srv d) /\
    Forall2 (delivers G rws) handled tss /\ picks (contribution key) (concat tss) accepted /\
    nadd (counts_in key (map (fun c => snd (fst c)) (d_calls d)))
      (nadd (counts_in key (flat_map pending (map snd (d_live d) ++ d_gone d)))
            (default n0 (p_counter (d_proc d) !! key)))
    = nsum accepted.
Proof.
  intros NN NL NX E plugins G interval percent cfg max refuses config ls rs rws links addrs es out key Hb Hr Hl Hi Ha Hm C d.
  exact (daemon_conservation E plugins G interval percent cfg max refuses config ls rs rws links Hb Hr Hl Hi addrs es out key Ha Hm).
Qed.
Print Assumptions C95_routed.
(** Pings are answered, in order and to their senders, whatever the processor does. *)
Theorem C95_replies : forall (NN : Num) S G inner (fl : gen S) rs cfg max refuses addrs links p0 es out,
  arrivals max (map (fun a => (a, [])) addrs) (nets es) out ->
  let d := drun G inner fl rs cfg max false refuses (d_new addrs links p0) es in
  v_replies (d_srv d) = map (fun x => (fst x, m_response cfg)) (List.filter (fun x => str_eqb (snd x) (m_message cfg)) out) /\
  d_order d ++ v_pending (d_srv d) ≡ₚ metrics_in cfg out ++ own es.
Proof. intros NN S G inner fl rs cfg max refuses. exact (daemon_network G inner fl rs cfg max refuses). Qed.
Print Assumptions C95_replies.
(** Whatever arrives: every name sent is made of the carbon-safe characters, except the
    user's own label of an SLI condition. *)
Theorem C95_names : forall (NN : Num) E plugins G interval percent cfg max closes refuses config ls rs rws links addrs es,
  build_rules G true config [] = (ls, Ok rs) -> rules_of config rws -> length links = length ls -> 1000 <= interval ->
  let C := mp_cls E plugins in
  let d := drun G (process_message E C) (flush E C interval percent) rs cfg max closes refuses (d_new addrs links mp_init) es in
  (forall m, In m (d_order d) -> exists ts, delivers G rws m ts) ->
  Forall (fun x => all_in name_chars (dp_name x) \/ exists key label, dp_name x = B "stats.SLI." ++ key ++ B ".count_" ++ label)
    (map (fun c => snd (fst c)) (d_calls d)).
Proof. intros NN E plugins G interval percent cfg max closes refuses config ls rs rws links addrs es Hb Hr Hl Hi C d.
  exact (daemon_names E plugins G interval percent cfg max closes refuses config ls rs rws links addrs es Hb Hr Hl Hi).
Qed.
Print Assumptions C95_names.

Definition demo_mon : mon := Mon (B "ping") (B "pong").
Definition drop_config : str := B "metric_type g => drop".
Definition demo_devents : list devent :=
  [DNet (SDatagram (B "u") (B "a:3|c")); DNet (SChunk 0 (B "b:2|c" ++ [c_cr])); DNet (SRun 0); DFlush; DStep 0;
   DNet (SChunk 0 ([c_nl] ++ B "ping" ++ CRLF)); DStep 0; DNet (SDatagram (B "u") (B "a:4|c")); DInternal (B "own x:1|g");
   DNet (SRun 0); DNet (SRun 0); DNet (SDatagram (B "u") (B "a:5|c"))].
Definition demo_out : list (str * str) := [(B "u", B "a:3|c"); (B "t", B "b:2|c"); (B "t", B "ping"); (B "u", B "a:4|c"); (B "u", B "a:5|c")].
Lemma demo_arrivals : arrivals 100 (map (fun a => (a, [])) [B "t"]) (nets demo_devents) demo_out.
Proof.
  cbn [nets demo_devents flat_map app map]. constructor.
  apply (ar_chunk _ _ _ (B "t") [] _ [] [] [] (B "b:2|c" ++ [c_cr])); try (apply lines_of_iff; split; vm_compute; reflexivity);
    [reflexivity|constructor|apply Nat.leb_le; reflexivity|]. constructor.
  apply (ar_chunk _ _ _ (B "t") (B "b:2|c" ++ [c_cr]) _ [] (B "b:2|c" ++ [c_cr]) [B "b:2|c"; B "ping"] []);
    try (apply lines_of_iff; split; vm_compute; reflexivity);
    [reflexivity|repeat constructor; apply Nat.leb_le; reflexivity|apply Nat.leb_le; reflexivity|]. repeat constructor.
Qed.
Definition carbon (n : nat) (d : dp (NN := demo_num)) : option exn := if (n =? 1)%nat then Some OtherError else None.
Definition demo_daemon (refuses : nat -> dp (NN := demo_num) -> option exn) (rs : list (rule toy_engine)) (es : list devent) : daemon :=
  drun toy_engine (process_message demo_env (mp_cls demo_env [])) (flush demo_env (mp_cls demo_env []) 10000 90) rs demo_mon 100 false refuses
    (d_new [B "t"] [] mp_init) es.
Definition amount (x : num (Num := demo_num)) (z : Z) : bool := neqb (Num := demo_num) x (nofZ (Num := demo_num) z).
(** 3 sent, 0 held by the refused flush, 4 stored, 5 scheduled; 12 arrived *)
Example C95_case : arrivals 100 (map (fun a => (a, [])) [B "t"]) (nets demo_devents) demo_out /\
  build_rules toy_engine true [] [] = ([], Ok []) /\ rules_of [] [] /\
  Forall (unmatched []) (metrics_in demo_mon demo_out ++ own demo_devents) /\
  let d := demo_daemon carbon [] demo_devents in
  v_pending (d_srv d) = [B "a:5|c"] /\
  amount (counts_in (NN := demo_num) (B "a") (map (fun c => snd (fst c)) (d_calls d))) 3 = true /\
  amount (default n0 (p_counter (d_proc d) !! B "a")) 4 = true /\ length (d_gone d) = 1%nat.
Proof.
  split; [exact demo_arrivals|]. split; [vm_compute; reflexivity|]. split; [apply rules_by; vm_compute; reflexivity|].
  split; [repeat constructor; intros t k fs _; constructor|]. cbv zeta. repeat split; vm_compute; reflexivity.
Qed.
Definition idle_events : list devent :=
  [DNet (SDatagram (B "u") (B "a:3|c")); DNet (SDatagram (B "u") (B "a:4|c")); DNet (SRun 1); DNet (SRun 0)].
Example C95_idle_case : let d := demo_daemon (fun _ _ => None) [] idle_events in
  v_pending (d_srv d) = [] /\ length (d_live d) = 0%nat /\ amount (default n0 (p_counter (d_proc d) !! B "a")) 7 = true /\
  arrivals 100 (map (fun a => (a, [])) [B "t"]) (nets idle_events) [(B "u", B "a:3|c"); (B "u", B "a:4|c")].
Proof. split; [vm_compute; reflexivity|]. split; [vm_compute; reflexivity|]. split; [vm_compute; reflexivity|]. repeat constructor. Qed.
(** gauges are dropped, the counters are handed on *)
Definition drop_rules : list rule_text := [([B "metric_type"; B "g"], [B "drop"])].
Example C95_routed_case : exists rs, build_rules toy_engine true drop_config [] = ([], Ok rs) /\ rules_of drop_config drop_rules /\
  (forall m, In m (metrics_in demo_mon demo_out ++ own demo_devents) -> exists ts, delivers toy_engine drop_rules m ts) /\
  delivers toy_engine drop_rules (B "own x:1|g") [].
Proof.
  eexists. split; [vm_compute; reflexivity|]. split; [apply rules_by; vm_compute; reflexivity|].
  assert (Hg : delivers toy_engine drop_rules (B "own x:1|g") []).
  { eapply (dl_none _ _ _ (B "g") (B "own_x") [B "1"; B "g"] []); [line|].
    apply (drop_routes toy_engine [] [B "metric_type"; B "g"] [] _ [(B "g", B "own_x", [B "1"; B "g"])] []); [constructor|].
    constructor; [|constructor]. apply ma_in. left. reflexivity. }
  split; [|exact Hg].
  assert (Hc : forall m k fs, typed_line m (B "c") k fs -> exists ts, delivers toy_engine drop_rules m ts).
  { intros m k fs Ht. apply skipped. intros t' k' fs' Ht'. destruct (typed_line_fun _ _ _ _ _ _ _ Ht Ht') as (<- & <- & <-).
    constructor; [|constructor]. apply ma_out. intros [H|[]]. discriminate H. }
  intros m Hm. change (metrics_in demo_mon demo_out ++ own demo_devents) with [B "a:3|c"; B "b:2|c"; B "a:4|c"; B "a:5|c"; B "own x:1|g"] in Hm.
  destruct Hm as [<-|[<-|[<-|[<-|[<-|[]]]]]]; [..|eauto].
  - apply (Hc _ (B "a") [B "3"; B "c"]). line.
  - apply (Hc _ (B "b") [B "2"; B "c"]). line.
  - apply (Hc _ (B "a") [B "4"; B "c"]). line.
  - apply (Hc _ (B "a") [B "5"; B "c"]). line.
Qed.
