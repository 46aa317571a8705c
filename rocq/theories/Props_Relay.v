(** A daemon that redirects to others, and two tiers of daemons (C110). *)
From Verif Require Import Base StrFacts Num NumFacts Env Stats Glob Metrics Gen GenFacts Processor
  LineSpec LineFacts FloatFacts ProcFacts ProcSpec ReceiveFacts ReceiveFacts2 ReceiveFacts3 PlugFacts Demo
  Sched FlushInv FlushOk SchedFacts XQFacts
  Client ClientFacts Router RouterSpec RouterFacts RouterProps Server ServerSpec FrameFacts ServerFacts Daemon DaemonFacts
  Links LinkFacts Cluster ClusterFacts Relay RelaySpec RelayFacts RelayTcp RelayTier Props_Daemon.
Open Scope Z_scope.
Notation amount := ClusterFacts.amount.

(** C110.  Whatever the line and whatever the rules do with it (also when one of them raises
    an exception), exactly one sequence of texts is written to the redirects for it, and each
    redirect is given its texts, in order. *)
Theorem C110_line : forall (G : engine) rws m s s', line_sends G rws m s -> line_sends G rws m s' -> s = s'.
Proof. intros G rws m s s'. exact (line_sends_fun G rws m s s'). Qed.
Print Assumptions C110_line.
Theorem C110_written : forall (G : engine) S (inner : str -> str -> str -> list str -> M S unit) config ls rs rws (s : @rst S) m i,
  build_rules G true config [] = (ls, Ok rs) -> rules_of config rws -> length (r_links s) = length ls ->
  exists ts, forwards G rws i m ts /\ r_links (fst (r_process G inner rs m s)) !! i = RouterFacts.written ts <$> r_links s !! i.
Proof. intros G S inner config ls rs rws s m i. exact (process_forwards G inner config ls rs rws s m i). Qed.
Print Assumptions C110_written.

(** A daemon with any rules receives, schedules, flushes and refuses as it likes, while its
    redirects are resolved, connected, stopped, paused and resumed in any order.  What the client
    of a UDP redirect has sent, scheduled and queued is, in this order, a part of what the rules
    forward to it for the lines handled, in their order; nothing is missing unless more
    than 1000 texts were forwarded; and datagrams go to addresses the host has (or had). *)
Theorem C110_udp : forall (NN : Num) S (G : engine) (inner : str -> str -> str -> list str -> M S unit) (fl : gen S)
  cfg max closes refuses (N : nat -> unet) is_ip config ls rs rws i (h port : str) addrs p es,
  build_rules G true config [] = (ls, Ok rs) -> rules_of config rws -> redirects_of rws !! i = Some (false, h, port) ->
  let d := frun G inner fl rs cfg max closes refuses N (d_new addrs (map (new_link is_ip) ls) p) es in
  exists u tss, d_links d !! i = Some (LUdp u) /\ Forall2 (forwards G rws i) (d_order d) tss /\
    sublist (passed_on u ++ held u) (concat tss) /\
    ((length (concat tss) <= 1000)%nat -> passed_on u ++ held u = concat tss) /\
    (length (u_queue u) <= 1000)%nat /\
    Forall (fun x => In (snd (fst x)) ((if is_ip h then [h] else []) ++ ips (happened i es))) (u_sent u).
Proof.
  intros NN S G inner fl cfg max closes refuses N is_ip config ls rs rws i h port addrs p es Hb Hr Hi.
  destruct (nth_link G config rws ls rs Hb Hr i false h port Hi) as (q & Hl & _).
  destruct (udp_forwarded G inner fl cfg max closes refuses N is_ip config ls rs rws Hb Hr i h q Hl addrs p es) as (u & tss & H1 & H2 & H3 & H4 & H5 & H6).
  exists u, tss. rewrite items_split in H3, H4. repeat (split; [assumption|]). exact H6.
Qed.
Print Assumptions C110_udp.
(** A redirect that is resolved and started before the first line, and is not stopped, loses
    nothing, whatever the number: all is sent or scheduled, in order, and nothing waits. *)
Theorem C110_udp_up : forall (NN : Num) S (G : engine) (inner : str -> str -> str -> list str -> M S unit) (fl : gen S)
  cfg max closes refuses (N : nat -> unet) is_ip config ls rs rws i (h port : str) addrs p es es',
  build_rules G true config [] = (ls, Ok rs) -> rules_of config rws -> redirects_of rws !! i = Some (false, h, port) ->
  let run := frun G inner fl rs cfg max closes refuses N (d_new addrs (map (new_link is_ip) ls) p) in
  d_order (run es) = [] -> is_ip h = true \/ ips (happened i es) <> [] -> is_started (happened i es) -> ~ In KStop (happened i es') ->
  exists u tss, d_links (run (es ++ es')) !! i = Some (LUdp u) /\ Forall2 (forwards G rws i) (d_order (run (es ++ es'))) tss /\
    u_queue u = [] /\ map fst (map snd (u_sent u) ++ map snd (u_sched u)) = concat tss.
Proof.
  intros NN S G inner fl cfg max closes refuses N is_ip config ls rs rws i h port addrs p es es' Hb Hr Hi run.
  destruct (nth_link G config rws ls rs Hb Hr i false h port Hi) as (q & Hl & _).
  exact (udp_up G inner fl cfg max closes refuses N is_ip config ls rs rws Hb Hr i h q Hl addrs p es es').
Qed.
Print Assumptions C110_udp_up.
(** From any moment on, the connections of a TCP redirect carry a part, in order, of what is
    forwarded for the lines handled from then on, each text with its CRLF.  All of it if it is
    connected and is not paused; none of it if it is not connected, or was paused and does
    not connect again (also when the transport resumes it). *)
Theorem C110_tcp : forall (NN : Num) S (G : engine) (inner : str -> str -> str -> list str -> M S unit) (fl : gen S)
  cfg max closes refuses (N : nat -> unet) is_ip config ls rs rws i (h port : str) addrs p es es',
  build_rules G true config [] = (ls, Ok rs) -> rules_of config rws -> redirects_of rws !! i = Some (true, h, port) ->
  let run := frun G inner fl rs cfg max closes refuses N (d_new addrs (map (new_link is_ip) ls) p) in
  exists f f' ms tss kept new, d_links (run es) !! i = Some (LTcp f) /\ d_links (run (es ++ es')) !! i = Some (LTcp f') /\
    d_order (run (es ++ es')) = d_order (run es) ++ ms /\ Forall2 (forwards G rws i) ms tss /\ sublist kept (concat tss) /\
    carried f' = carried f ++ new /\
    Forall2 (fun t w => ((exists v, t = v ++ CRLF) -> w = t) /\ (~ (exists v, t = v ++ CRLF) -> w = t ++ CRLF)) kept new /\
    (is_open (happened i es) -> (forall now, ~ In (KPause now) (happened i es')) -> kept = concat tss) /\
    (is_shut (happened i es) -> ~ In KBuild (happened i es') -> kept = []).
Proof.
  intros NN S G inner fl cfg max closes refuses N is_ip config ls rs rws i h port addrs p es es' Hb Hr Hi run.
  destruct (nth_link G config rws ls rs Hb Hr i true h port Hi) as (q & Hl & _).
  destruct (tcp_forwarded G inner fl cfg max closes refuses N is_ip config ls rs rws Hb Hr i h q Hl addrs p es es')
    as (f & f' & ms & tss & kept & H1 & H2 & H3 & H4 & H5 & H6 & H7 & H8 & H9).
  exists f, f', ms, tss, kept, (map on_wire kept). repeat (split; [assumption|]). split; [|split; assumption].
  assert (Hk : Forall sendable kept).
  { rewrite Forall_forall in H5 |- *. intros t Ht. apply H5. eapply elem_of_submseteq; [exact Ht|]. apply sublist_submseteq, H6. }
  clear -Hk. induction Hk as [|t kept Ht _ IH]; [constructor|]. cbn [map]. constructor; [apply on_wire_spec, Ht|exact IH].
Qed.
Print Assumptions C110_tcp.

(** Two tiers.  The daemon [a] redirects over UDP, the daemon [b] has no rules.  Per counter:
    what [b] sent, holds, stores and has scheduled, plus what the network lost, what the
    client of the redirect still holds, and what it dropped, is what the rules of [a] forward
    for the lines [a] handled, plus copies, plus other senders' lines, plus [b]'s own. *)
Theorem C110_tier : forall (NN : Num) (NL : NumLaw NN) (NX : NumExact NN) (G : engine) (a b : site) N is_ip config ls rs rws
  i (h port : str) addrs es u addrs' es' out got other lost extra key,
  build_rules G true config [] = (ls, Ok rs) -> rules_of config rws -> redirects_of rws !! i = Some (false, h, port) ->
  let fr := front G a N is_ip ls rs addrs es in
  d_links fr !! i = Some (LUdp u) ->
  1000 <= s_interval b -> (forall x, ~ contribution key (m_message (s_mon b)) x) ->
  arrivals (s_max b) (map (fun a => (a, [])) addrs') (nets es') out ->
  map snd out ≡ₚ got ++ other -> got ++ lost ≡ₚ passed_on u ++ extra ->
  exists tss dropped x a_lost a_held a_dropped a_sent a_extra a_other a_own,
    Forall2 (forwards G rws i) (d_order fr) tss /\
    concat tss ≡ₚ passed_on u ++ held u ++ dropped /\ ((length (concat tss) <= 1000)%nat -> dropped = []) /\
    node_holds key (back G b addrs' es') x /\
    amount key lost a_lost /\ amount key (held u) a_held /\ amount key dropped a_dropped /\
    amount key (concat tss) a_sent /\ amount key extra a_extra /\ amount key other a_other /\ amount key (own es') a_own /\
    nadd x (nadd a_lost (nadd a_held a_dropped)) = nadd a_sent (nadd a_extra (nadd a_other a_own)).
Proof.
  intros NN NL NX G a b N is_ip config ls rs rws i h port addrs es u addrs' es' out got other lost extra key Hb Hr Hi fr.
  destruct (nth_link G config rws ls rs Hb Hr i false h port Hi) as (q & Hl & _).
  exact (tier G a b N is_ip config ls rs rws Hb Hr i h q addrs es u addrs' es' out got other lost extra key Hl).
Qed.
Print Assumptions C110_tier.
(** If the first rule of [a] redirects everything to [b]: per counter, what [b] sent, holds,
    stores and has scheduled, plus what was lost, is held, was dropped, and what [a] has received
    but not handled, is what [a] received and reported itself, plus copies, plus what [b]
    received from others and reported itself. *)
Theorem C110_copy : forall (NN : Num) (NL : NumLaw NN) (NX : NumExact NN) (G : engine) (a b : site) N is_ip config ls rs
  (h port : str) post addrs es u inA addrs' es' out got other lost extra key,
  let rws := ([B "any"], [B "redirect_udp"; h; port]) :: post in
  build_rules G true config [] = (ls, Ok rs) -> rules_of config rws ->
  let fr := front G a N is_ip ls rs addrs es in
  arrivals (s_max a) (map (fun a => (a, [])) addrs) (fnets es) inA -> d_links fr !! 0%nat = Some (LUdp u) ->
  1000 <= s_interval b -> (forall x, ~ contribution key (m_message (s_mon a)) x) -> (forall x, ~ contribution key (m_message (s_mon b)) x) ->
  arrivals (s_max b) (map (fun a => (a, [])) addrs') (nets es') out ->
  map snd out ≡ₚ got ++ other -> got ++ lost ≡ₚ passed_on u ++ extra ->
  exists dropped x a_lost a_held a_dropped a_pending a_in a_extra a_other a_own,
    ((length (d_order fr) <= 1000)%nat -> dropped = []) /\ node_holds key (back G b addrs' es') x /\
    amount key lost a_lost /\ amount key (held u) a_held /\ amount key dropped a_dropped /\
    amount key (v_pending (d_srv fr)) a_pending /\
    amount key (map snd inA ++ fown es) a_in /\ amount key extra a_extra /\ amount key other a_other /\ amount key (own es') a_own /\
    nadd x (nadd a_lost (nadd a_held (nadd a_dropped a_pending))) = nadd a_in (nadd a_extra (nadd a_other a_own)).
Proof.
  intros NN NL NX G a b N is_ip config ls rs h port post addrs es u inA addrs' es' out got other lost extra key rws Hb Hr fr.
  destruct (nth_link G config rws ls rs Hb Hr 0 false h port eq_refl) as (q & Hl & _).
  exact (tier_copy G a b N is_ip config ls rs rws Hb Hr h port post q addrs es u inA addrs' es' out got other lost extra key eq_refl Hl).
Qed.
Print Assumptions C110_copy.

(** ** Cases *)
Definition relay_config : str := B "any => redirect_udp h 1
metric_type g => drop
any => redirect_tcp t 2".
Definition relay_rules : list rule_text :=
  [([B "any"], [B "redirect_udp"; B "h"; B "1"]); ([B "metric_type"; B "g"], [B "drop"]); ([B "any"], [B "redirect_tcp"; B "t"; B "2"])].
Definition relay_net : nat -> unet := fun _ => Unet (fun _ => Sent 1) (fun _ => None).
Definition relay_site : site (NN := demo_num) := Site demo_num demo_env [] 10000 90 demo_mon 100 (fun _ _ => None).
Definition relay_ls : list lspec := fst (build_rules toy_engine true relay_config []).
Definition relay_rs : list (rule toy_engine) := match snd (build_rules toy_engine true relay_config []) with Ok rs => rs | _ => [] end.
Definition relay_events : list fevent :=
  [FLink 0 (KStart 7); FLink 0 (KResolved (B "1.2.3.4")); FLink 1 KBuild;
   FNet (SDatagram (B "u") (B "a b:3|c")); FNet (SDatagram (B "u") (B "ping")); FNet (SDatagram (B "u") (B "b:2|g")); FNet (SRun 0);
   FOwn (B "a_b:4|c"); FNet (SRun 0); FLink 1 (KPause 5); FLink 1 (KResume 6); FOwn (B "nonsense"); FOwn (B "a_b:1|c"); FLink 0 KTurn; FLink 0 KTurn;
   FFlush; FStep 0; FNet (SDatagram (B "u") (B "a b:8|c"))].
Definition relay_in : list (str * str) := [(B "u", B "a b:3|c"); (B "u", B "ping"); (B "u", B "b:2|g"); (B "u", B "a b:8|c")].
Definition relay_front : @daemon demo_num (@mst demo_num) := front (NN := demo_num) toy_engine relay_site relay_net (fun _ => false) relay_ls relay_rs [] relay_events.
(** the second tier gets one of the two datagrams that have left, twice, and another's *)
Definition relay_events' : list devent :=
  [DNet (SDatagram (B "v") (B "a_b:3|c")); DNet (SDatagram (B "w") (B "a_b:9|c")); DNet (SDatagram (B "v") (B "a_b:3|c"));
   DNet (SRun 0); DInternal (B "own:1|c"); DNet (SRun 0)].
Definition relay_out : list (str * str) := [(B "v", B "a_b:3|c"); (B "w", B "a_b:9|c"); (B "v", B "a_b:3|c")].
Definition relay_back : @daemon demo_num (@mst demo_num) := back (NN := demo_num) toy_engine relay_site [] relay_events'.
Lemma relay_built : build_rules toy_engine true relay_config [] = (relay_ls, Ok relay_rs).
Proof. vm_compute. reflexivity. Qed.
Lemma relay_of : rules_of relay_config relay_rules.
Proof. apply rules_by. vm_compute. reflexivity. Qed.
Lemma datagram_arrivals max bufs : forall evs (l : list (str * str)), 
  flat_map (fun e => match e with SDatagram a m => [(a, m)] | _ => [] end) evs = l ->
  Forall (fun e => match e with SDatagram _ _ | SRun _ => True | _ => False end) evs -> arrivals max bufs evs l.
Proof.
  intros evs l <- H. induction H as [|e evs He _ IH]; [constructor|]. destruct e; cbn [flat_map app]; try destruct He; constructor; exact IH.
Qed.
Definition udp_of (d : @daemon demo_num (@mst demo_num)) (i : nat) : option (list str * list str) :=
  match d_links d !! i with Some (LUdp u) => Some (passed_on u, held u) | _ => None end.
Definition tcp_of (d : @daemon demo_num (@mst demo_num)) (i : nat) : option (list str) :=
  match d_links d !! i with Some (LTcp f) => Some (carried f) | _ => None end.
Example C110_case : build_rules toy_engine true relay_config [] = (relay_ls, Ok relay_rs) /\ rules_of relay_config relay_rules /\
  redirects_of relay_rules = [(false, B "h", B "1"); (true, B "t", B "2")] /\
  arrivals 100 [] (fnets relay_events) relay_in /\ arrivals 100 [] (nets relay_events') relay_out /\
  (forall x, ~ contribution (NN := demo_num) (B "a_b") (m_message demo_mon) x) /\
  d_order relay_front = [B "a b:3|c"; B "a_b:4|c"; B "b:2|g"; B "nonsense"; B "a_b:1|c"] /\ v_pending (d_srv relay_front) = [B "a b:8|c"] /\
  udp_of relay_front 0 = Some ([B "a_b:3|c"; B "a_b:4|c"], [B "b:2|g"; B "a_b:1|c"]) /\
  tcp_of relay_front 1 = Some [B "a_b:3|c" ++ CRLF; B "a_b:4|c" ++ CRLF] /\
  map snd relay_out ≡ₚ [B "a_b:3|c"; B "a_b:3|c"] ++ [B "a_b:9|c"] /\
  [B "a_b:3|c"; B "a_b:3|c"] ++ [B "a_b:4|c"] ≡ₚ [B "a_b:3|c"; B "a_b:4|c"] ++ [B "a_b:3|c"] /\
  v_pending (d_srv relay_back) = [B "a_b:3|c"] /\ Props_Daemon.amount (default n0 (p_counter (d_proc relay_back) !! B "a_b")) 12 = true /\
  is_open (happened 1 (firstn 4 relay_events)) /\ is_shut (happened 1 relay_events) /\
  is_started (happened 0 (firstn 3 relay_events)) /\ ips (happened 0 (firstn 3 relay_events)) <> [].
Proof.
  split; [exact relay_built|]. split; [exact relay_of|]. split; [vm_compute; reflexivity|].
  split; [apply datagram_arrivals; [vm_compute; reflexivity|repeat constructor]|].
  split; [apply datagram_arrivals; [vm_compute; reflexivity|repeat constructor]|].
  split; [intros x; apply no_colon_none; vm_compute; reflexivity|].
  split; [vm_compute; reflexivity|]. split; [vm_compute; reflexivity|]. split; [vm_compute; reflexivity|]. split; [vm_compute; reflexivity|].
  split; [apply (perm_skip (B "a_b:3|c")), perm_swap|]. split; [apply (perm_skip (B "a_b:3|c")), perm_swap|].
  split; [vm_compute; reflexivity|]. split; [vm_compute; reflexivity|].
  split; [exists [], []; split; [reflexivity|intros now []]|].
  split; [right; exists [KBuild], 5, [KResume 6]; split; [reflexivity|intros [H|[]]; discriminate]|].
  split; [exists [], 7%nat, [KResolved (B "1.2.3.4")]; split; [reflexivity|intros [H|[]]; discriminate]|]. vm_compute. discriminate.
Qed.
