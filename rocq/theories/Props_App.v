(** Applications, a network and a daemon (C114). *)
From Verif Require Import Base StrFacts Num NumFacts Env Stats Glob Metrics Gen GenFacts Processor
  LineSpec LineFacts FloatFacts ProcFacts ProcSpec ReceiveFacts ReceiveFacts2 ReceiveFacts3 PlugFacts Demo
  ClientMetrics ClientMetricsSpec ClientMetricsFacts ClientMetricsFun ClientServer ClientTotals
  Sched SchedFacts XQFacts TimerSched TimerDaemon TimerDouble
  Client ClientFacts Router RouterSpec RouterFacts Server ServerSpec ServerFacts Daemon DaemonFacts Cluster ClusterFacts
  RelayTier App AppFacts Props_Metrics Props_Daemon RouterProps Props_Links Props_Relay.
From stdpp Require Import list.
Open Scope Z_scope.
Notation amount := ClusterFacts.amount.

(** C114.  An application makes any calls of the API, while its client is resolved, connected,
    disconnected and served by the reactor in any order.  Every text the calls wrote has been
    passed to a transport, is held by the client, or was dropped; the texts passed on and held
    are in the order of the calls; and none is dropped if at each call the client's queue had room. *)
Theorem C114_client : forall (NA : Num) (a : application) h, quiet (ap_cfg a) ->
  let u := snd (arun a h) in
  sublist (passed_on u ++ held u) (said a h) /\
  (exists dropped, said a h ≡ₚ passed_on u ++ held u ++ dropped /\ (roomy a h -> dropped = [])) /\
  (roomy a h -> passed_on u ++ held u = said a h) /\
  ((length (api_calls h) <= uc_limit (ap_cfg a))%nat -> roomy a h) /\
  said a h = cl_out (fst (arun a h)).
Proof.
  intros NA a h Q u. subst u. rewrite <- items_split. split; [exact (app_sublist a Q h)|]. split; [exact (app_accounts a Q h)|].
  split; [exact (app_roomy a Q h)|]. split; [exact (few_roomy a Q h)|]. unfold said. rewrite arun_metrics. reflexivity.
Qed.
Print Assumptions C114_client.

(** Any number of applications and a daemon.  Of what the clients passed on and of copies, the
    network delivers [got] and loses [lost]; the daemon receives [got], and lines of others.
    Per counter: what the daemon sent, holds, stores and has scheduled, plus what was lost, what
    the clients hold, and what they dropped, is what the calls wrote, plus copies, plus
    other senders' lines, plus the daemon's own. *)
Theorem C114_conservation : forall (NA : Num) (fleet : list (application (NA := NA) * list aevent)) (NN : Num) (NL : NumLaw NN) (NX : NumExact NN)
  G (s : site) addrs es out got other lost extra key,
  Forall (fun p => quiet (ap_cfg (fst p))) fleet ->
  1000 <= s_interval s -> (forall x, ~ contribution key (m_message (s_mon s)) x) ->
  arrivals (s_max s) (map (fun a => (a, [])) addrs) (nets es) out ->
  map snd out ≡ₚ got ++ other -> got ++ lost ≡ₚ flat_map sent_by fleet ++ extra ->
  exists dropped x a_lost a_held a_dropped a_said a_extra a_other a_own,
    (Forall (fun p => roomy (fst p) (snd p)) fleet -> dropped = []) /\ node_holds key (back G s addrs es) x /\
    amount key lost a_lost /\ amount key (flat_map held_by fleet) a_held /\ amount key dropped a_dropped /\
    amount key (flat_map said_by fleet) a_said /\ amount key extra a_extra /\ amount key other a_other /\ amount key (own es) a_own /\
    nadd x (nadd a_lost (nadd a_held a_dropped)) = nadd a_said (nadd a_extra (nadd a_other a_own)).
Proof.
  intros NA fleet NN NL NX G s addrs es out got other lost extra key Hq Hi Hm Ha Ho Hn.
  exact (fleet_counters fleet Hq _ _ _ _ _ Ho Hn G s addrs es out key Hi Hm Ha eq_refl).
Qed.
Print Assumptions C114_conservation.

(** If the calls are unsampled increments, decrements and timings with integers, [ls] lists their
    names and values, and the amount written is the sum of the increments less the decrements. *)
Theorem C114_counters : forall (NA : Num) (fleet : list (application (NA := NA) * list aevent)) ls (NN : Num) (NL : NumLaw NN) (NX : NumExact NN) (NI : NumInt NN)
  G (s : site) addrs es out got other lost extra key,
  Forall (fun p => quiet (ap_cfg (fst p))) fleet ->
  Forall (fun p => m_ext (ap_met (fst p)) = false /\ m_conn (ap_met (fst p)) = true) fleet ->
  Forall2 (fun p l => Forall2 (tells (ap_met (fst p))) (api_calls (snd p)) l) fleet ls ->
  1000 <= s_interval s -> (forall x, ~ contribution key (m_message (s_mon s)) x) ->
  arrivals (s_max s) (map (fun a => (a, [])) addrs) (nets es) out ->
  map snd out ≡ₚ got ++ other -> got ++ lost ≡ₚ flat_map sent_by fleet ++ extra ->
  exists dropped x a_lost a_held a_dropped a_extra a_other a_own,
    (Forall (fun p => roomy (fst p) (snd p)) fleet -> dropped = []) /\ node_holds key (back G s addrs es) x /\
    amount key lost a_lost /\ amount key (flat_map held_by fleet) a_held /\ amount key dropped a_dropped /\
    amount key extra a_extra /\ amount key other a_other /\ amount key (own es) a_own /\
    nadd x (nadd a_lost (nadd a_held a_dropped)) = nadd (nofZ (summed key (concat ls))) (nadd a_extra (nadd a_other a_own)).
Proof.
  intros NA fleet ls NN NL NX NI G s addrs es out got other lost extra key Hq Hm Hl Hi Hmon Ha Ho Hn.
  destruct (fleet_counters fleet Hq _ _ _ _ _ Ho Hn G s addrs es out key Hi Hmon Ha eq_refl)
    as (dropped & x & y1 & y2 & y3 & y4 & y5 & y6 & y7 & F1 & F2 & F3 & F4 & F5 & F6 & F7 & F8 & F9 & F10).
  destruct (fleet_said fleet ls Hm Hl) as [Hs Hc]. rewrite Hs in F6.
  rewrite (amount_fun key _ _ _ F6 (tell_amount key (concat ls) Hc)) in F10.
  exists dropped, x, y1, y2, y3, y5, y6, y7. repeat (split; [assumption|]). exact F10.
Qed.
Print Assumptions C114_counters.
(** If the daemon received exactly what was written, each once, and nothing else, what it sent,
    holds, stores and has scheduled is the sum. *)
Theorem C114_delivered : forall (NA : Num) (fleet : list (application (NA := NA) * list aevent)) ls (NN : Num) (NL : NumLaw NN) (NX : NumExact NN) (NI : NumInt NN)
  G (s : site) addrs es out key,
  Forall (fun p => quiet (ap_cfg (fst p))) fleet ->
  Forall (fun p => m_ext (ap_met (fst p)) = false /\ m_conn (ap_met (fst p)) = true) fleet ->
  Forall2 (fun p l => Forall2 (tells (ap_met (fst p))) (api_calls (snd p)) l) fleet ls ->
  1000 <= s_interval s -> (forall x, ~ contribution key (m_message (s_mon s)) x) ->
  arrivals (s_max s) (map (fun a => (a, [])) addrs) (nets es) out -> own es = [] ->
  Forall (fun p => roomy (fst p) (snd p)) fleet -> Forall (fun p => held_by p = []) fleet ->
  map snd out ≡ₚ flat_map sent_by fleet ->
  node_holds key (back G s addrs es) (nofZ (summed key (concat ls))).
Proof.
  intros NA fleet ls NN NL NX NI G s addrs es out key Hq Hm Hl Hi Hmon Ha Ho Hr Hh Hn.
  destruct (C114_counters NA fleet ls NN NL NX NI G s addrs es out (map snd out) [] [] [] key Hq Hm Hl Hi Hmon Ha)
    as (dropped & x & y1 & y2 & y3 & y5 & y6 & y7 & F1 & F2 & F3 & F4 & F5 & F6 & F7 & F8 & F9).
  { rewrite app_nil_r. reflexivity. } { rewrite !app_nil_r. exact Hn. }
  rewrite (F1 Hr) in F5. rewrite Ho in F8.
  assert (Hh' : flat_map held_by fleet = []) by (clear -Hh; induction Hh as [|p ps Hp _ IH]; [reflexivity|]; cbn [flat_map]; rewrite Hp; exact IH).
  rewrite Hh' in F4.
  assert (Z0 : forall y, amount key [] y -> y = n0) by (intros y (l & Hp & ->); inversion Hp; reflexivity).
  rewrite (Z0 _ F3), (Z0 _ F4), (Z0 _ F5), (Z0 _ F6), (Z0 _ F7), (Z0 _ F8) in F9. rewrite !nadd_0_l in F9. rewrite !(nadd_comm _ n0), !nadd_0_l in F9. rewrite <- F9. exact F2.
Qed.
Print Assumptions C114_delivered.

(** The durations: each is in one batch of which the daemon reports the statistics (C112), is
    stored, or scheduled, or was lost, or is held by its client, or was dropped. *)
Theorem C114_timings : forall (NA : Num) (fleet : list (application (NA := NA) * list aevent)) ls sq (E : env (NN := XQ sq)) plugins G
  interval percent cfg max refuses addrs es out got other lost extra key foreign,
  Forall (fun p => quiet (ap_cfg (fst p))) fleet ->
  Forall (fun p => m_ext (ap_met (fst p)) = false /\ m_conn (ap_met (fst p)) = true) fleet ->
  Forall2 (fun p l => Forall2 (tells (ap_met (fst p))) (api_calls (snd p)) l) fleet ls ->
  26 <= percent <= 100 -> (forall x, ~ timer_sample (NN := XQ sq) (m_message cfg) key x) ->
  arrivals max (map (fun a => (a, [])) addrs) (nets es) out ->
  map snd out ≡ₚ got ++ other -> got ++ lost ≡ₚ flat_map sent_by fleet ++ extra ->
  picks (fun m => timer_sample (NN := XQ sq) m key) (extra ++ other ++ own es) foreign -> Forall (fun x => x <> NaN) foreign ->
  let C := mp_cls E plugins in
  let d := drun (NN := XQ sq) G (process_message E C) (flush E C interval percent) [] cfg max false refuses (d_new addrs [] mp_init) es in
  exists dropped batches groups rest scheduled v_lost v_held v_dropped,
    (Forall (fun p => roomy (fst p) (snd p)) fleet -> dropped = []) /\
    picks (fun m => timer_sample (NN := XQ sq) m key) (v_pending (d_srv d)) scheduled /\
    picks (fun m => timer_sample (NN := XQ sq) m key) lost v_lost /\
    picks (fun m => timer_sample (NN := XQ sq) m key) (flat_map held_by fleet) v_held /\
    picks (fun m => timer_sample (NN := XQ sq) m key) dropped v_dropped /\
    (concat batches ++ default [] (p_timer (d_proc d) !! key) ++ scheduled) ++ v_lost ++ v_held ++ v_dropped
      ≡ₚ map nofZ (durations key (concat ls)) ++ foreign /\
    Forall2 (reports (NN := XQ sq) (fun p => p = percent) key) batches groups /\
    map (fun c => snd (fst c)) (d_calls d) ++ flat_map pending (map snd (d_live d) ++ d_gone d) ≡ₚ concat groups ++ rest /\
    Forall (alien (TimerSched.counted (metrics_in cfg out ++ own es)) key) rest.
Proof.
  intros NA fleet ls sq E plugins G interval percent cfg max refuses addrs es out got other lost extra key foreign Hq Hm Hl Hp Hmon Ha Ho Hn Hf Hr.
  exact (fleet_timers fleet Hq _ _ _ _ _ Ho Hn sq E plugins G interval percent cfg max refuses addrs es out key ls foreign Hp Hmon Ha eq_refl Hm Hl Hf Hr).
Qed.
Print Assumptions C114_timings.

(** ** Cases: two applications *)
Definition app_of (limit : nat) : application (NA := demo_num) :=
  App demo_cenv (demo_conf false) (Ucfg limit None None) (Unet (fun _ => Sent 1) (fun _ => None)) (fun _ => false) (B "h").
(** the first counts 5, times 2s, counts down 7, before its host is known, with room for two;
    then counts 1 *)
Definition app_h1 : list (aevent (NA := demo_num)) :=
  [ACall (CIncrement (Some (B "x")) (VInt 5) (VInt 1)); ACall (CTiming (Some (B "x")) (Some (VInt 2)) (VInt 1));
   ACall (CDecrement (Some (B "x")) (VInt 7) (VInt 1)); AStart 3; AResolved (B "1.2.3.4"); ATurn; ATurn;
   ACall (CIncrement (Some (B "x")) (VInt 1) (VInt 1))].
Definition app_l1 : list (str * bool * Z) := [(B "app.x", false, 5); (B "app.x", true, 2000); (B "app.x", false, -7); (B "app.x", false, 1)].
(** the second counts 10 twice *)
Definition app_h2 : list (aevent (NA := demo_num)) :=
  [AStart 4; AResolved (B "1.2.3.4"); ACall (CIncrement (Some (B "x")) (VInt 10) (VInt 1)); ATurn;
   ACall (CIncrement (Some (B "x")) (VInt 10) (VInt 1)); ATurn; AStop].
Definition app_l2 : list (str * bool * Z) := [(B "app.x", false, 10); (B "app.x", false, 10)].
Definition app_fleet : list (application (NA := demo_num) * list aevent) := [(app_of 2, app_h1); (app_of 1000, app_h2)].
(** the network loses the duration and duplicates one 10; another sender counts 100 *)
Definition app_events : list devent :=
  [DNet (SDatagram (B "v") (B "app.x:10|c")); DNet (SDatagram (B "u") (B "app.x:5|c")); DNet (SDatagram (B "w") (B "app.x:100|c"));
   DNet (SRun 0); DNet (SRun 0); DFlush; DStep 0; DNet (SDatagram (B "v") (B "app.x:10|c")); DNet (SRun 0); DNet (SRun 0); DNet (SDatagram (B "v") (B "app.x:10|c"))].
Definition app_out : list (str * str) :=
  [(B "v", B "app.x:10|c"); (B "u", B "app.x:5|c"); (B "w", B "app.x:100|c"); (B "v", B "app.x:10|c"); (B "v", B "app.x:10|c")].
Lemma app_tells : Forall2 (fun p l => Forall2 (tells (NA := demo_num) (ap_met (fst p))) (api_calls (NA := demo_num) (snd p)) l) app_fleet [app_l1; app_l2].
Proof.
  assert (Hi : forall z, tells (NA := demo_num) (demo_conf false) (CIncrement (Some (B "x")) (VInt z) (VInt 1)) (B "app.x", false, z))
    by (intros z; constructor; [apply demo_qualified|apply demo_clean]).
  constructor; [|constructor; [|constructor]].
  - constructor; [apply Hi|]. constructor; [apply (tl_time _ (Some (B "x")) (B "app.x") 2); [apply demo_qualified|apply demo_clean]|].
    constructor; [apply (tl_dec _ (Some (B "x")) (B "app.x") 7); [apply demo_qualified|apply demo_clean]|]. constructor; [apply Hi|constructor].
  - constructor; [apply Hi|]. constructor; [apply Hi|constructor].
Qed.
Example C114_case : Forall (fun p => quiet (ap_cfg (fst p))) app_fleet /\
  Forall (fun p => m_ext (ap_met (fst p)) = false /\ m_conn (ap_met (fst p)) = true) app_fleet /\
  Forall2 (fun p l => Forall2 (tells (NA := demo_num) (ap_met (fst p))) (api_calls (NA := demo_num) (snd p)) l) app_fleet [app_l1; app_l2] /\
  summed (B "app.x") (concat [app_l1; app_l2]) = 19 /\ durations (B "app.x") (concat [app_l1; app_l2]) = [2000] /\
  map sent_by app_fleet = [[B "app.x:5|c"; B "app.x:2000|ms"]; [B "app.x:10|c"; B "app.x:10|c"]] /\
  map held_by app_fleet = [[B "app.x:1|c"]; []] /\
  said (app_of 2) app_h1 = [B "app.x:5|c"; B "app.x:2000|ms"; B "app.x:-7|c"; B "app.x:1|c"] /\
  roomy (app_of 1000) app_h2 /\ ~ roomy (app_of 2) app_h1 /\
  arrivals 100 [] (nets app_events) app_out /\
  (forall x, ~ contribution (NN := demo_num) (B "app.x") (m_message demo_mon) x) /\
  (forall x, ~ timer_sample (NN := demo_num) (m_message demo_mon) (B "app.x") x) /\
  let got := [B "app.x:10|c"; B "app.x:5|c"; B "app.x:10|c"; B "app.x:10|c"] in
  map snd app_out ≡ₚ got ++ [B "app.x:100|c"] /\
  got ++ [B "app.x:2000|ms"] ≡ₚ flat_map sent_by app_fleet ++ [B "app.x:10|c"] /\
  let d := back (NN := demo_num) toy_engine relay_site [] app_events in
  v_pending (d_srv d) = [B "app.x:10|c"] /\ Props_Daemon.amount (default n0 (p_counter (d_proc d) !! B "app.x")) 110 = true.
Proof.
  split; [repeat constructor; discriminate|]. split; [repeat constructor|]. split; [exact app_tells|].
  split; [vm_compute; reflexivity|]. split; [vm_compute; reflexivity|]. split; [vm_compute; reflexivity|]. split; [vm_compute; reflexivity|].
  split; [vm_compute; reflexivity|].
  split; [apply few_roomy; [split; discriminate|cbn; lia]|].
  split. { intros H. specialize (H (firstn 2 app_h1) (CDecrement (Some (B "x")) (VInt 7) (VInt 1)) (skipn 3 app_h1) eq_refl). vm_compute in H. lia. }
  split; [apply datagram_arrivals; [vm_compute; reflexivity|repeat constructor]|].
  split; [intros x; apply no_colon_none; vm_compute; reflexivity|].
  split.
  { intros x (f0 & fs & (raw & ((a1 & b1 & He & _) & _) & _) & _).
    assert (Hin : In c_colon (m_message demo_mon)).
    { rewrite He. apply in_or_app. right. apply in_or_app. left. apply in_or_app. right. left. reflexivity. }
    apply has_In in Hin. discriminate. }
  cbv zeta.
  split; [apply perm_skip, perm_skip; etransitivity; [apply perm_swap|]; apply perm_skip, perm_swap|].
  split.
  { replace (flat_map sent_by app_fleet) with [B "app.x:5|c"; B "app.x:2000|ms"; B "app.x:10|c"; B "app.x:10|c"] by (vm_compute; reflexivity).
    etransitivity; [apply perm_swap|]. apply (perm_skip (B "app.x:5|c")). symmetry.
    apply (Permutation_cons_append [B "app.x:10|c"; B "app.x:10|c"; B "app.x:10|c"] (B "app.x:2000|ms")). }
  split; vm_compute; reflexivity.
Qed.
Definition app_events2 : list devent :=
  [DNet (SDatagram (B "v") (B "app.x:10|c")); DNet (SRun 0); DFlush; DStep 0; DNet (SDatagram (B "v") (B "app.x:10|c"))].
Example C114_delivered_case : let fleet := [(app_of 1000, app_h2)] in
  Forall2 (fun p l => Forall2 (tells (NA := demo_num) (ap_met (fst p))) (api_calls (NA := demo_num) (snd p)) l) fleet [app_l2] /\
  Forall (fun p => roomy (fst p) (snd p)) fleet /\ Forall (fun p => held_by p = []) fleet /\ own app_events2 = [] /\
  arrivals 100 [] (nets app_events2) [(B "v", B "app.x:10|c"); (B "v", B "app.x:10|c")] /\
  map snd [(B "v", B "app.x:10|c"); (B "v", B "app.x:10|c")] ≡ₚ flat_map sent_by fleet /\ summed (B "app.x") (concat [app_l2]) = 20.
Proof.
  cbv zeta. split; [pose proof app_tells as H; inversion H; assumption|].
  split; [constructor; [apply few_roomy; [split; discriminate|cbn; lia]|constructor]|].
  split; [constructor; [vm_compute; reflexivity|constructor]|]. split; [reflexivity|].
  split; [apply datagram_arrivals; [vm_compute; reflexivity|repeat constructor]|].
  split; [|vm_compute; reflexivity].
  replace (flat_map sent_by [(app_of 1000, app_h2)]) with [B "app.x:10|c"; B "app.x:10|c"] by (vm_compute; reflexivity). reflexivity.
Qed.
