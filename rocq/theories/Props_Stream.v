(** Two daemons, the first redirecting to the second over TCP (C110, continued).
    [connections f]: the connections the redirect has had, in order; [stream j es]: the bytes that arrive on
    connection [j] of the second daemon; [lines_read es js lss]: the complete lines of those streams
    (RelayStream.v, ServerSpec.v). *)
From Verif Require Import Base StrFacts Num NumFacts Env Stats Glob Metrics Gen GenFacts Processor
  LineSpec LineFacts FloatFacts ProcFacts ProcSpec ReceiveFacts ReceiveFacts2 ReceiveFacts3 PlugFacts Demo
  Sched FlushInv FlushOk SchedFacts XQFacts
  Client ClientFacts Router RouterSpec RouterFacts RouterProps Server ServerSpec FrameFacts ServerFacts Daemon DaemonFacts
  Links LinkFacts Cluster ClusterFacts Relay RelaySpec RelayFacts RelayTcp RelayTier RelayStream Props_Daemon Props_Relay.
Open Scope Z_scope.

(** C110.  Redirect [i] of daemon [a] goes over TCP to daemon [b].  Of what each connection carried, [b]
    receives some beginning, cut into chunks in any way, on a connection of its own.  Per counter: what [b]
    sent, holds, stores and has scheduled, plus what was under way when its connection ended and what was dropped
    because there was no connection or it was paused, is what was forwarded, plus what [b] received
    otherwise and reported itself.  Nothing is under way if the streams arrived whole; nothing is dropped
    if the redirect was connected before the first line and is not paused. *)
Theorem C110_tcp_tier : forall (NN : Num) (NL : NumLaw NN) (NX : NumExact NN) (G : engine) (a b : site) N is_ip config ls rs rws
  i (h port : str) addrs es f addrs' es' out js key,
  build_rules G true config [] = (ls, Ok rs) -> rules_of config rws -> redirects_of rws !! i = Some (true, h, port) ->
  let fr := front G a N is_ip ls rs addrs es in
  d_links fr !! i = Some (LTcp f) ->
  (forall m ts, In m (d_order fr) -> forwards G rws i m ts -> Forall (fun t => ~ has_crlf t) ts) ->
  1000 <= s_interval b -> (forall x, ~ contribution key (m_message (s_mon b)) x) ->
  arrivals (s_max b) (map (fun a => (a, [])) addrs') (nets es') out ->
  NoDup js -> Forall (fun j => (j < length addrs')%nat) js ->
  Forall2 (fun p j => stream j (nets es') `prefix_of` concat (tp_wire p)) (connections f) js ->
  exists tss gss oss lost dropped x a_lost a_dropped a_sent a_other a_own,
    Forall2 (forwards G rws i) (d_order fr) tss /\
    lines_read (nets es') js gss /\ lines_read (nets es') (List.filter (fun k => bool_decide (k ∉ js)) (seq 0 (length addrs'))) oss /\
    concat tss ≡ₚ concat gss ++ lost ++ dropped /\
    (Forall2 (fun p j => stream j (nets es') = concat (tp_wire p)) (connections f) js -> lost = []) /\
    (forall es1 es2, es = es1 ++ es2 -> d_order (front G a N is_ip ls rs addrs es1) = [] -> is_open (happened i es1) ->
       (forall now, ~ In (KPause now) (happened i es2)) -> dropped = []) /\
    node_holds key (back G b addrs' es') x /\
    amount key lost a_lost /\ amount key dropped a_dropped /\ amount key (concat tss) a_sent /\
    amount key (datagrams (nets es') ++ concat oss) a_other /\ amount key (own es') a_own /\
    nadd x (nadd a_lost a_dropped) = nadd a_sent (nadd a_other a_own).
Proof.
  intros NN NL NX G a b N is_ip config ls rs rws i h port addrs es f addrs' es' out js key Hb Hr Hi fr.
  destruct (nth_link G config rws ls rs Hb Hr i true h port Hi) as (q & Hl & _).
  exact (tcp_tier G a b N is_ip config ls rs rws Hb Hr i h q addrs es f addrs' es' out js key Hl).
Qed.
Print Assumptions C110_tcp_tier.
(** With a first rule that redirects everything: what was forwarded is what arrived at [a] or was its own,
    less what [a] has not handled; lines that contain CRLF excluded (C42). *)
Theorem C110_tcp_copy : forall (NN : Num) (NL : NumLaw NN) (NX : NumExact NN) (G : engine) (a b : site) N is_ip config ls rs
  (h port : str) post addrs es f inA addrs' es' out js key,
  let rws := ([B "any"], [B "redirect_tcp"; h; port]) :: post in
  build_rules G true config [] = (ls, Ok rs) -> rules_of config rws ->
  let fr := front G a N is_ip ls rs addrs es in
  d_links fr !! 0%nat = Some (LTcp f) ->
  arrivals (s_max a) (map (fun a => (a, [])) addrs) (fnets es) inA -> (forall m, In m (d_order fr) -> ~ has_crlf m) ->
  1000 <= s_interval b -> (forall x, ~ contribution key (m_message (s_mon a)) x) -> (forall x, ~ contribution key (m_message (s_mon b)) x) ->
  arrivals (s_max b) (map (fun a => (a, [])) addrs') (nets es') out ->
  NoDup js -> Forall (fun j => (j < length addrs')%nat) js ->
  Forall2 (fun p j => stream j (nets es') `prefix_of` concat (tp_wire p)) (connections f) js ->
  exists oss lost dropped x a_lost a_dropped a_pending a_in a_other a_own,
    lines_read (nets es') (List.filter (fun k => bool_decide (k ∉ js)) (seq 0 (length addrs'))) oss /\
    (Forall2 (fun p j => stream j (nets es') = concat (tp_wire p)) (connections f) js -> lost = []) /\
    (forall es1 es2, es = es1 ++ es2 -> d_order (front G a N is_ip ls rs addrs es1) = [] -> is_open (happened 0 es1) ->
       (forall now, ~ In (KPause now) (happened 0 es2)) -> dropped = []) /\
    node_holds key (back G b addrs' es') x /\
    amount key lost a_lost /\ amount key dropped a_dropped /\ amount key (v_pending (d_srv fr)) a_pending /\
    amount key (map snd inA ++ fown es) a_in /\
    amount key (datagrams (nets es') ++ concat oss) a_other /\ amount key (own es') a_own /\
    nadd x (nadd a_lost (nadd a_dropped a_pending)) = nadd a_in (nadd a_other a_own).
Proof.
  intros NN NL NX G a b N is_ip config ls rs h port post addrs es f inA addrs' es' out js key rws Hb Hr fr.
  destruct (nth_link G config rws ls rs Hb Hr 0 true h port eq_refl) as (q & Hl & _).
  exact (tcp_copy G a b N is_ip config ls rs rws Hb Hr h port post q addrs es f inA addrs' es' out js key eq_refl Hl).
Qed.
Print Assumptions C110_tcp_copy.
(** What reaches a server, connection by connection: the lines that arrive are the datagrams and the
    complete lines of each stream. *)
Theorem C110_streams : forall max addrs es out, arrivals max (map (fun a => (a, [])) addrs) es out ->
  exists lss, lines_read es (seq 0 (length addrs)) lss /\ map snd out ≡ₚ datagrams es ++ concat lss.
Proof.
  intros max addrs es out H. eexists. split; [apply lines_read_done|]. rewrite <- new_lines. eapply arrived_lines, H.
Qed.
Print Assumptions C110_streams.

(** two connections: the first is lost while a line is under way, the second arrives whole *)
Definition stream_config : str := B "any => redirect_tcp t 2".
Definition stream_ls : list lspec := fst (build_rules toy_engine true stream_config []).
Definition stream_rs : list (rule toy_engine) := match snd (build_rules toy_engine true stream_config []) with Ok rs => rs | _ => [] end.
Definition stream_events : list fevent :=
  [FOwn (B "x:1|c"); FLink 0 KBuild; FNet (SDatagram (B "u") (B "a b:3|c")); FNet (SDatagram (B "u") (B "a_b:4|c")); FNet (SRun 0); FNet (SRun 0);
   FLink 0 KBuild; FOwn (B "a_b:1|c"); FNet (SDatagram (B "u") (B "a b:8|c"))].
Definition stream_front : @daemon demo_num (@mst demo_num) := front (NN := demo_num) toy_engine relay_site relay_net (fun _ => false) stream_ls stream_rs [] stream_events.
Definition stream_events' : list devent :=
  [DNet (SChunk 1 (B "a_b:3|c" ++ [c_cr])); DNet (SChunk 0 (B "z:1|c" ++ CRLF)); DNet (SChunk 1 ([c_nl] ++ B "a_b:4")); DNet (SChunk 2 (B "a_b:1|c" ++ CRLF));
   DNet (SRun 0); DNet (SRun 0); DNet (SRun 0)].
Definition stream_back : @daemon demo_num (@mst demo_num) := back (NN := demo_num) toy_engine relay_site [B "o"; B "v"; B "w"] stream_events'.
Example C110_stream_case : build_rules toy_engine true stream_config [] = (stream_ls, Ok stream_rs) /\
  rules_of stream_config [([B "any"], [B "redirect_tcp"; B "t"; B "2"])] /\
  (exists f, d_links stream_front !! 0%nat = Some (LTcp f) /\
    Forall2 (fun p j => stream j (nets stream_events') `prefix_of` concat (tp_wire p)) (connections f) [1%nat; 2%nat]) /\
  arrivals 100 [] (fnets stream_events) [(B "u", B "a b:3|c"); (B "u", B "a_b:4|c"); (B "u", B "a b:8|c")] /\
  (forall m, In m (d_order stream_front) -> ~ has_crlf m) /\
  arrivals 100 [(B "o", []); (B "v", []); (B "w", [])] (nets stream_events') [(B "o", B "z:1|c"); (B "v", B "a_b:3|c"); (B "w", B "a_b:1|c")] /\
  d_order stream_front = [B "x:1|c"; B "a b:3|c"; B "a_b:4|c"; B "a_b:1|c"] /\ v_pending (d_srv stream_front) = [B "a b:8|c"] /\
  Props_Daemon.amount (default n0 (p_counter (d_proc stream_back) !! B "a_b")) 4 = true.
Proof.
  split; [vm_compute; reflexivity|]. split; [apply rules_by; vm_compute; reflexivity|]. split.
  { eexists. split; [vm_compute; reflexivity|]. cbn [connections tf_old tf_proto app].
    constructor; [exists (B "|c" ++ CRLF); vm_compute; reflexivity|]. constructor; [exists []; vm_compute; reflexivity|]. constructor. }
  split; [apply datagram_arrivals; [vm_compute; reflexivity|repeat constructor]|]. split.
  { assert (E : d_order stream_front = [B "x:1|c"; B "a b:3|c"; B "a_b:4|c"; B "a_b:1|c"]) by (vm_compute; reflexivity). rewrite E.
    assert (A : forall m, done m = [] -> ~ has_crlf m).
    { intros m H Hc. rewrite has_crlf_iff in Hc. destruct (cut_cases m) as [[Hn _]|(u & v & _ & _ & Ec & _)]; [contradiction|].
      unfold done in H. rewrite Ec in H. pose proof (cut_nonempty v) as Hv. destruct (cut v); [contradiction|discriminate]. }
    intros m [<-|[<-|[<-|[<-|[]]]]]; apply A; vm_compute; reflexivity. }
  split.
  { unfold stream_events'. cbn [nets flat_map app].
    apply (ar_chunk _ _ _ (B "v") [] _ [] [] [] (B "a_b:3|c" ++ [c_cr])); try (apply lines_of_iff; split; vm_compute; reflexivity);
      [reflexivity|constructor|apply Nat.leb_le; reflexivity|].
    apply (ar_chunk _ _ _ (B "o") [] _ [] [] [B "z:1|c"] []); try (apply lines_of_iff; split; vm_compute; reflexivity);
      [reflexivity|repeat constructor; apply Nat.leb_le; reflexivity|apply Nat.leb_le; reflexivity|].
    apply (ar_chunk _ _ _ (B "v") (B "a_b:3|c" ++ [c_cr]) _ [] (B "a_b:3|c" ++ [c_cr]) [B "a_b:3|c"] (B "a_b:4")); try (apply lines_of_iff; split; vm_compute; reflexivity);
      [reflexivity|repeat constructor; apply Nat.leb_le; reflexivity|apply Nat.leb_le; reflexivity|].
    apply (ar_chunk _ _ _ (B "w") [] _ [] [] [B "a_b:1|c"] []); try (apply lines_of_iff; split; vm_compute; reflexivity);
      [reflexivity|repeat constructor; apply Nat.leb_le; reflexivity|apply Nat.leb_le; reflexivity|]. repeat constructor. }
  split; [vm_compute; reflexivity|]. split; vm_compute; reflexivity.
Qed.
