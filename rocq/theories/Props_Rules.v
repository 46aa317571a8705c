(** The assembled daemon with any routing rules at all (C105). *)
From Verif Require Import Base StrFacts Num NumFacts Env Stats Glob Metrics Gen GenFacts Processor
  LineSpec LineFacts FloatFacts ProcFacts ProcSpec ReceiveFacts ReceiveFacts2 ReceiveFacts3 PlugFacts Demo
  Sched FlushInv FlushOk SchedFacts XQFacts FlushDerived
  Client Router RouterSpec RouterFacts RouterProps Server ServerSpec FrameFacts ServerFacts Daemon DaemonFacts
  MetricSpec MetricDaemon MetricProps Props_Daemon.
Open Scope Z_scope.

(** C105.  A daemon as in C95, with any accepted configuration: rules that rename to
    anything, duplicate, change types, drop, redirect.  Every line that arrived is handled or
    scheduled; the rules turn each handled line into a list of metrics; per counter name,
    what was sent, plus what suspended and refused flushes hold, plus what is stored, is what
    these metrics count for. *)
Theorem C105_conservation : forall (NN : Num) (NL : NumLaw NN) (NX : NumExact NN) E plugins G interval percent cfg max refuses
  config ls rs rws links addrs es out key,
  build_rules G true config [] = (ls, Ok rs) -> rules_of config rws -> length links = length ls -> 1000 <= interval ->
  arrivals max (map (fun a => (a, [])) addrs) (nets es) out ->
  let C := mp_cls E plugins in
  let d := drun G (process_message E C) (flush E C interval percent) rs cfg max false refuses (d_new addrs links mp_init) es in
  exists handled mss xs,
    handled ++ v_pending (d_srv d) ≡ₚ metrics_in cfg out ++ own es /\
    Forall2 (hands G rws) handled mss /\ Forall2 (worth key) (concat mss) xs /\
    nadd (counts_in key (map (fun c => snd (fst c)) (d_calls d)))
      (nadd (counts_in key (flat_map pending (map snd (d_live d) ++ d_gone d)))
            (default n0 (p_counter (d_proc d) !! key)))
    = nsum xs.
Proof.
  intros NN NL NX E plugins G interval percent cfg max refuses config ls rs rws links addrs es out key Hb Hr Hl Hi Ha C d.
  exact (any_rules_arrived E plugins G interval percent cfg max refuses config ls rs rws links Hb Hr Hl Hi addrs es out key Ha).
Qed.
Print Assumptions C105_conservation.
(** What a line is turned into exists and is unique as long as the rules leave it with
    built-in types; so is what a metric counts for. *)
Theorem C105_hands : forall (NN : Num) (NL : NumLaw NN) (G : engine) config ls rs rws m,
  build_rules G true config [] = (ls, Ok rs) -> rules_of config rws ->
  (exists ms, hands G rws m ms) /\
  ((forall t k fs out sent, typed_line m t k fs -> routes G 0 rws [(t, k, fs)] out sent -> Forall (fun x => builtin (fst (fst x))) out) ->
   forall ms ms', hands G rws m ms -> hands G rws m ms' -> ms = ms').
Proof.
  intros NN NL G config ls rs rws m Hb Hr. split; [exact (hands_exist G config ls rs rws m Hb Hr)|].
  intros H ms ms' H1 H2. exact (hands_fun G rws m ms ms' H1 H H2).
Qed.
Print Assumptions C105_hands.
Theorem C105_worth : forall (NN : Num) key m x y, worth key m x -> worth key m y -> x = y.
Proof. exact @worth_fun. Qed.
Print Assumptions C105_worth.
(** Names: whatever characters the rules stay within (beyond the carbon-safe ones), the names
    sent stay within, except the user's own label of an SLI condition. *)
Theorem C105_names : forall (NN : Num) (NL : NumLaw NN) E plugins G interval percent cfg max closes refuses config ls rs rws links addrs es
  (good : ascii -> Prop),
  build_rules G true config [] = (ls, Ok rs) -> rules_of config rws -> length links = length ls -> 1000 <= interval ->
  (forall c, In c name_chars -> good c) ->
  let C := mp_cls E plugins in
  let d := drun G (process_message E C) (flush E C interval percent) rs cfg max closes refuses (d_new addrs links mp_init) es in
  (forall m t k fs out sent t' k' fs', In m (d_order d) -> typed_line m t k fs -> routes G 0 rws [(t, k, fs)] out sent ->
     In (t', k', fs') out -> Forall good k') ->
  Forall (fun x => Forall good (dp_name x) \/ exists key label, dp_name x = B "stats.SLI." ++ key ++ B ".count_" ++ label)
    (map (fun c => snd (fst c)) (d_calls d)).
Proof. exact @rules_names. Qed.
Print Assumptions C105_names.

(** [a] is also counted as [b!] : 3 sent under each, 4 stored under each *)
Definition dup_config : str := B "metric_type c => rewrite a b! dup".
Definition dup_rules : list rule_text := [([B "metric_type"; B "c"], [B "rewrite"; B "a"; B "b!"; B "dup"])].
Definition dup_events : list devent :=
  [DNet (SDatagram (B "u") (B "a:3|c")); DNet (SRun 0); DFlush; DStep 0; DStep 0; DStep 0; DStep 0; DStep 0; DStep 0; DStep 0;
   DNet (SDatagram (B "u") (B "a:4|c")); DNet (SRun 0)].
Example C105_case : exists rs, build_rules toy_engine true dup_config [] = ([], Ok rs) /\ rules_of dup_config dup_rules /\
  arrivals 100 (map (fun a => (a, [])) [B "t"]) (nets dup_events) [(B "u", B "a:3|c"); (B "u", B "a:4|c")] /\
  hands (NN := demo_num) toy_engine dup_rules (B "a:3|c") [(B "c", B "a", [B "3"; B "c"]); (B "c", B "b!", [B "3"; B "c"])] /\
  let d := demo_daemon (fun _ _ => None) rs dup_events in
  forallb (fun k => amount (counts_in (NN := demo_num) k (map (fun c => snd (fst c)) (d_calls d))) 3 &&
                    amount (default n0 (p_counter (d_proc d) !! k)) 4) [B "a"; B "b!"] = true.
Proof.
  eexists. split; [vm_compute; reflexivity|]. split; [apply rules_by; vm_compute; reflexivity|]. split; [repeat constructor|].
  split; [|vm_compute; reflexivity].
  eapply (hd_out _ _ _ (B "c") (B "a") [B "3"; B "c"] [(B "c", B "a", [B "3"; B "c"]); (B "c", B "b!", [B "3"; B "c"])] []); [line| |].
  - apply (ro_rule toy_engine 0 _ _ _ [(B "c", B "a", [B "3"; B "c"]); (B "c", B "b!", [B "3"; B "c"])] _ [] []); [|constructor].
    apply (aa_cons _ _ _ _ [_; _] [] [] []); [|constructor]. apply ap_hit; [constructor; vm_compute; tauto|].
    eapply ef_rewrite_dup; reflexivity.
  - repeat (apply cut_next; [intros H; inversion H|]). constructor.
Qed.
(** so rules may send names that are not carbon-safe: the claim of C95_names needs its
    hypothesis *)
Theorem C105_names_refuted : exists config rs,
  build_rules toy_engine true config [] = ([], Ok rs) /\
  let d := demo_daemon (fun _ _ => None) rs dup_events in
  exists x, In x (map (fun c => snd (fst c)) (d_calls d)) /\ ~ all_in name_chars (dp_name x) /\
            dp_name x = B "stats_counts.b!".
Proof.
  exists dup_config. eexists. split; [vm_compute; reflexivity|]. cbv zeta.
  match goal with |- exists x, In x ?l /\ _ => assert (H : existsb (fun x => str_eqb (dp_name x) (B "stats_counts.b!")) l = true) by (vm_compute; reflexivity) end.
  apply existsb_exists in H as (x & Hx & Hn). apply str_eqb_eq in Hn. exists x. split; [exact Hx|]. split; [|exact Hn].
  rewrite Hn. intros Ha. assert (Hc : In "!"%char name_chars) by (apply Ha, has_In; reflexivity).
  apply has_In in Hc. vm_compute in Hc. discriminate Hc.
Qed.
Print Assumptions C105_names_refuted.
