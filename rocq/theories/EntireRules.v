(** The service of a command line, with the processor it chose and any routing rules. *)
From Verif Require Import Base StrFacts Num NumFacts Env Stats Metrics Gen GenFacts Processor Configurable LineSpec ProcSpec Sched SchedFacts ReceiveFacts ReceiveFacts3 FlushSpec FlushInv FlushDerived
  CSched ConfFacts ConfInv ConfDerived LogFacts
  Client Router RouterSpec RouterFacts RouterProps Server ServerSpec Service ServiceSpec ServiceFacts
  ClientMetrics Daemon DaemonFacts CDaemon Own OwnSpec OwnFacts OwnFacts2 OwnFacts3 Assembly AssemblySpec AssemblyFacts Entire MetricSpec MetricDaemon DaemonSim.

Section whole.
Context `{NN : Num} (G : engine) (E : env) (plugins : list factory) (max : nat) (closes : bool) (refuses : nat -> dp -> option exn)
  (CE : cenv) (is_ip : str -> bool) (addrs : list str).
Definition compliant_run (a : assembly G) (h : list oevent) : whole (S := mst) :=
  let C := mp_cls E plugins in
  service_run G (process_message E C) (flush E C) mp_init a max closes refuses CE is_ip addrs h.
Definition conf_run (mp ip : str) (a : assembly G) (h : list oevent) : whole (S := Configurable.cst) :=
  let C := cp_cls E mp ip plugins in
  service_run G (process_message E C) (flush E C) cp_init a max closes refuses CE is_ip addrs h.
Definition logging_run (mp ip : str) (a : assembly G) (h : list oevent) : whole (S := Configurable.cst) :=
  let C := cp_cls E mp ip plugins in
  service_run G (lp_process_message E C) (lp_flush E C) cp_init a max closes refuses CE is_ip addrs h.
(** the calls of carbon's sendDatapoint made by the service: its processor is the one that
    createService chose, service.py:272-299 *)
Definition carbon_calls (a : assembly G) (h : list oevent) : list dp :=
  map (fun c => snd (fst c))
    match a_class _ a with
    | Compliant => d_calls (o_daemon (compliant_run a h))
    | Conf mp ip => d_calls (o_daemon (conf_run mp ip a h))
    | Logging mp ip => d_calls (o_daemon (logging_run mp ip a h))
    end.
End whole.

Section facts.
Context `{NN : Num} (G : engine) (files : str -> list section) (args : list (flag * str)) (node : str) (a : assembly G).
Context (Hw : well_formed files) (D : described G files args node a).

Lemma is_compliant c : value_of files args (B "statsd-compliance") (OI c) -> c <> 0 ->
  value_of files args (B "dump-mode") (OI 0) -> a_class _ a = Compliant.
Proof.
  intros Hc Hz Hd. destruct (ds_class _ _ _ _ _ D) as (x & p & dump & compliance & _ & _ & H1 & H2 & H3 & _).
  pose proof (value_fun files args Hw _ _ _ Hc H2) as [= <-]. pose proof (value_fun files args Hw _ _ _ Hd H1) as [= <-].
  destruct H3 as [(_ & _ & H)|[(_ & H & _)|[(H & _)|(H & _)]]]; [exact H|lia..].
Qed.

Lemma entire_routed (NL : NumLaw NN) (NX : NumExact NN) E plugins is_ip max closes refuses CE addrs h out key :
  1000 <= a_flush _ a -> addrs = [] \/ closes = false ->
  arrivals max (map (fun a => (a, [])) addrs) (heard h) out ->
  let d := o_daemon (compliant_run G E plugins max closes refuses CE is_ip addrs a h) in
  exists text rws es handled mss xs,
    value_of files args (B "routing") (OS text) /\ rules_of text rws /\ written CE (a_instance _ a) h es /\
    handled ++ v_pending (d_srv d) ≡ₚ metrics_in (a_mon _ a) out ++ own es /\
    Forall2 (hands G rws) handled mss /\ Forall2 (worth key) (concat mss) xs /\
    nadd (counts_in key (map (fun c => snd (fst c)) (d_calls d)))
      (nadd (counts_in key (flat_map pending (map snd (d_live d) ++ d_gone d)))
            (default n0 (p_counter (d_proc d) !! key)))
    = nsum xs.
Proof.
  intros Hi Hc Ha d. destruct (ds_routing _ _ _ _ _ D) as (text & Ht & Hb). set (C := mp_cls E plugins).
  pose proof Hb as Hb'. apply build_rules_iff in Hb' as (rws & Hr & _).
  destruct (written_history G (process_message E C) (flush E C (a_flush _ a) 90) (a_rules _ a) (a_mon _ a) max closes refuses CE (a_ext _ a) (a_instance _ a)
    (d_new addrs (service_links G is_ip a) mp_init) h) as (es & Hes & Hd).
  assert (Hd' : d = drun (S := mst) G (process_message E C) (flush E C (a_flush _ a) 90) (a_rules _ a) (a_mon _ a) max false refuses
    (d_new addrs (service_links G is_ip a) mp_init) es).
  { refine (eq_trans Hd _). destruct Hc as [->| ->]; [|reflexivity]. apply udp_run. reflexivity. }
  rewrite <- (written_nets _ _ _ _ Hes) in Ha.
  destruct (any_rules_arrived E plugins G (a_flush _ a) 90 (a_mon _ a) max refuses text (a_links _ a) (a_rules _ a) rws (service_links G is_ip a)
    Hb Hr ltac:(apply map_length) Hi addrs es out key Ha) as (handled & mss & xs & H1 & H2 & H3 & H4).
  exists text, rws, es, handled, mss, xs. rewrite Hd'. auto 10.
Qed.
Lemma is_dump c d : value_of files args (B "statsd-compliance") (OI c) -> c <> 0 ->
  value_of files args (B "dump-mode") (OI d) -> d <> 0 -> a_class _ a = Logging [] [].
Proof.
  intros Hc Hz Hd Hy. destruct (ds_class _ _ _ _ _ D) as (x & p & dump & compliance & _ & _ & H1 & H2 & H3 & _).
  pose proof (value_fun files args Hw _ _ _ Hc H2) as [= <-]. pose proof (value_fun files args Hw _ _ _ Hd H1) as [= <-].
  destruct H3 as [(_ & H & _)|[(_ & _ & H)|[(H & _)|(H & _)]]]; [lia|exact H|lia..].
Qed.
(** the configurable processor *)
Lemma entire_conf E plugins is_ip max closes refuses CE addrs mp ip h :
  value_of files args (B "routing") (OS []) ->
  let C := cp_cls E mp ip plugins in
  exists es, written CE (a_instance _ a) h es /\ build_rules G true [] [] = (a_links _ a, Ok (a_rules _ a)) /\
    o_daemon (conf_run G E plugins max closes refuses CE is_ip addrs mp ip a h) =
    drun (S := Configurable.cst) G (process_message E C) (flush E C (a_flush _ a) 90) (a_rules _ a) (a_mon _ a) max closes refuses
      (d_new addrs (service_links G is_ip a) cp_init) es.
Proof.
  intros Hro C. destruct (ds_routing _ _ _ _ _ D) as (text & Ht & Hb).
  assert (text = []) as -> by (pose proof (value_fun files args Hw _ _ _ Hro Ht); congruence).
  destruct (written_history G (process_message E C) (flush E C (a_flush _ a) 90) (a_rules _ a) (a_mon _ a) max closes refuses CE (a_ext _ a) (a_instance _ a)
    (d_new addrs (service_links G is_ip a) (cp_init (NN := NN))) h) as (es & Hes & Hd).
  exists es. auto.
Qed.
Lemma no_rules_match m : unmatched [] m.
Proof. intros t k fs _. constructor. Qed.
Lemma entire_conf_names E plugins is_ip max closes refuses CE addrs mp ip h :
  value_of files args (B "routing") (OS []) ->
  Forall (fun x => conf_name mp (internal_prefix mp ip) (known plugins) (dp_name x))
    (map (fun c => snd (fst c)) (d_calls (o_daemon (conf_run G E plugins max closes refuses CE is_ip addrs mp ip a h)))).
Proof.
  intros Hro. destruct (entire_conf E plugins is_ip max closes refuses CE addrs mp ip h Hro) as (es & _ & Hb & ->).
  apply (conf_names E mp ip plugins G (a_flush _ a) 90 (a_mon _ a) max closes refuses [] (a_links _ a) (a_rules _ a) [] (service_links G is_ip a)
    Hb ltac:(apply rules_by; reflexivity) ltac:(apply map_length) addrs es). intros m _. apply no_rules_match.
Qed.
Lemma entire_conf_values E plugins is_ip max closes refuses CE addrs mp ip h i p s' out :
  value_of files args (B "routing") (OS []) ->
  let d := o_daemon (conf_run G E plugins max closes refuses CE is_ip addrs mp ip a h) in
  (forall key v, last_value (B "c") key (d_order d) v -> exists z, ntrunc v = Ok z) ->
  grun (cflush E mp ip plugins i p) (d_proc d) = (s', out, None) ->
  exists ts zs rest before vs after, ntrunc (e_clock E (w_clk (p_w (d_proc d)))) = Ok ts /\
    NoDup (zs.*1) /\ (forall key z, (key, z) ∈ zs <-> exists v, last_value (B "c") key (d_order d) v /\ ntrunc v = Ok z) /\
    NoDup (vs.*1) /\ (forall key v, (key, v) ∈ vs <-> last_value (B "g") key (d_order d) v) /\
    out = map (fun '(k, z) => DP (under mp k ++ B ".count") (VI z) ts) zs ++ rest /\
    out = before ++ map (fun '(k, v) => DP (under mp k ++ B ".value") (VF v) ts) vs ++ after.
Proof.
  intros Hro d Hz Hg. destruct (entire_conf E plugins is_ip max closes refuses CE addrs mp ip h Hro) as (es & _ & Hb & Hd).
  pose proof (conf_gauges E mp ip plugins G (a_flush _ a) 90 (a_mon _ a) max closes refuses [] (a_links _ a) (a_rules _ a) [] (service_links G is_ip a)
    Hb ltac:(apply rules_by; reflexivity) ltac:(apply map_length) addrs es i p s' out ltac:(intros m _; apply no_rules_match)) as Hga.
  pose proof (fun ts => conf_counters E mp ip plugins G (a_flush _ a) 90 (a_mon _ a) max closes refuses [] (a_links _ a) (a_rules _ a) [] (service_links G is_ip a)
    Hb ltac:(apply rules_by; reflexivity) ltac:(apply map_length) addrs es i p s' out None ts ltac:(intros m _; apply no_rules_match)) as Hco.
  cbv zeta in Hga, Hco. rewrite <- Hd in Hga, Hco. fold d in Hga, Hco.
  destruct (Hga Hg) as (ts & before & vs & after & Hts & Ho & Hnv & Hv). destruct (Hco ts Hts Hz Hg) as (zs & rest & Hnz & Hzs & Ho').
  exists ts, zs, rest, before, vs, after. auto 10.
Qed.
End facts.

(** ** dump mode *)
(** the datapoints of a log, oldest first *)
Definition logged_out `{NN : Num} (x : list logent) : list dp := flat_map (fun e => match e with LOut d => [d] | LIn _ => [] end) (rev x).
Section logging.
Context `{NN : Num} (G : engine) (E : env) (mp ip : str) (plugins : list factory).
Notation C := (cp_cls E mp ip plugins).
Definition with_log (out : list dp) (p p' : Configurable.cst) : Prop := exists x, p' = set_info x p /\ logged_out x = out.
Lemma logged_in out m t k fs p1 p2 : with_log out p1 p2 ->
  with_log out (fst (process_message E C m t k fs p1)) (fst (lp_process_message E C m t k fs p2)) /\
  snd (process_message E C m t k fs p1) = snd (lp_process_message E C m t k fs p2).
Proof.
  intros (x & -> & Hx).
  assert (He : lp_process_message E C m t k fs (set_info x p1) = process_message E C m t k fs (set_info (LIn m :: x) p1)) by reflexivity.
  rewrite He, (mfree_process_message E mp ip plugins m t k fs (LIn m :: x) p1). cbn [fst snd]. split; [|reflexivity].
  exists (LIn m :: x). split; [reflexivity|]. unfold logged_out in *. cbn [rev]. rewrite flat_map_app, Hx. cbn. apply app_nil_r.
Qed.
Lemma logged_next out g1 g2 p1 p2 : lrel g1 g2 -> with_log out p1 p2 ->
  match gnext g1 p1, gnext g2 p2 with
  | (q1, Yielded v1 h1), (q2, Yielded v2 h2) => with_log (out ++ [v1]) q1 q2 /\ v1 = v2 /\ lrel h1 h2
  | (q1, Finished), (q2, Finished) => with_log out q1 q2
  | (q1, Raised e1), (q2, Raised e2) => with_log out q1 q2 /\ e1 = e2
  | _, _ => False
  end.
Proof.
  intros Hg (x & -> & Hx). pose proof (lnext g1 g2 x p1 Hg) as H. unfold Configurable.cst in *. destruct (gnext g1 p1) as [q1 [v1 h1| |e1]].
  - destruct H as (h2 & Hh & ->). split; [|auto]. exists (LOut v1 :: x). split; [reflexivity|].
    unfold logged_out in *. cbn [rev]. rewrite flat_map_app, Hx. reflexivity.
  - rewrite H. exists x. auto.
  - rewrite H. split; [exists x; auto|reflexivity].
Qed.
Lemma logging_same (a : assembly G) max closes refuses CE is_ip addrs h :
  let w := conf_run G E plugins max closes refuses CE is_ip addrs mp ip a h in
  let w' := logging_run G E plugins max closes refuses CE is_ip addrs mp ip a h in
  orel with_log lrel w w'.
Proof.
  intros w w'. apply (orel_run with_log lrel G (process_message E C) (lp_process_message E C) (flush E C (a_flush _ a) 90) (lp_flush E C (a_flush _ a) 90)).
  - intros. apply logged_in. assumption.
  - split; [apply cflush_free|left; reflexivity].
  - intros. apply logged_next; assumption.
  - split; [reflexivity|]. split; [|reflexivity]. apply drel_new. exists []. split; reflexivity.
Qed.
Lemma logging_run_spec (a : assembly G) max closes refuses CE is_ip addrs h :
  let d := o_daemon (conf_run G E plugins max closes refuses CE is_ip addrs mp ip a h) in
  let d' := o_daemon (logging_run G E plugins max closes refuses CE is_ip addrs mp ip a h) in
  d_calls d' = d_calls d /\ d_ended d' = d_ended d /\ d_order d' = d_order d /\
  v_replies (d_srv d') = v_replies (d_srv d) /\ v_runs (d_srv d') = v_runs (d_srv d) /\ r_links (v_proc (d_srv d')) = r_links (v_proc (d_srv d)) /\
  logged_out (p_info (d_proc d')) = map (fun c => snd (fst c)) (d_calls d').
Proof.
  intros d d'. destruct (logging_same a max closes refuses CE is_ip addrs h) as (_ & [H1 (V1 & V2 & (V3 & V4 & V5) & V6) H3 H4 H5 H6 H7 H8 H9] & _).
  fold d in H1, V1, V2, V3, V4, V5, V6, H3, H4, H5, H6, H7, H8, H9. fold d' in H1, V1, V2, V3, V4, V5, V6, H3, H4, H5, H6, H7, H8, H9. destruct V3 as (x & Hx & Ho). unfold d_proc. unfold Configurable.cst in *. rewrite Hx. cbn [p_info set_info]. rewrite Ho. unfold passed.
  rewrite <- H8. auto 10.
Qed.
End logging.

(** without compliance, dumping or not *)
Section either.
Context `{NN : Num} (G : engine) (files : str -> list section) (args : list (flag * str)) (node : str) (a : assembly G).
Context (Hw : well_formed files) (D : described G files args node a).
Lemma either_conf x p : value_of files args (B "statsd-compliance") (OI 0) -> value_of files args (B "prefix") x -> maybe_str x p ->
  let mp := default (B "statsd") p in let ip := mp ++ B "." ++ a_instance _ a ++ B "." in
  a_class _ a = Conf mp ip \/ a_class _ a = Logging mp ip.
Proof.
  intros Hc Hx Hp mp ip. destruct (ds_class _ _ _ _ _ D) as (x' & p' & dump & compliance & H0 & Hp' & H1 & H2 & H3 & _).
  pose proof (value_fun files args Hw _ _ _ Hc H2) as [= <-].
  pose proof (value_fun files args Hw _ _ _ Hx H0) as ->. unfold maybe_str in *.
  assert (p' = p) as -> by (destruct p, p'; congruence).
  destruct H3 as [(H & _)|[(H & _)|[(_ & _ & H)|(_ & _ & H)]]]; [lia|lia|left; exact H|right; exact H].
Qed.
Lemma carbon_either E plugins max closes refuses CE is_ip addrs mp ip h : a_class _ a = Conf mp ip \/ a_class _ a = Logging mp ip ->
  carbon_calls G E plugins max closes refuses CE is_ip addrs a h =
  map (fun c => snd (fst c)) (d_calls (o_daemon (conf_run G E plugins max closes refuses CE is_ip addrs mp ip a h))).
Proof.
  intros H. unfold carbon_calls. destruct H as [-> | ->]; [reflexivity|].
  destruct (logging_run_spec G E mp ip plugins a max closes refuses CE is_ip addrs h) as [-> _]. reflexivity.
Qed.
Lemma entire_any_names E plugins is_ip max closes refuses CE addrs h x p :
  value_of files args (B "statsd-compliance") (OI 0) -> value_of files args (B "routing") (OS []) ->
  value_of files args (B "prefix") x -> maybe_str x p ->
  let mp := default (B "statsd") p in
  Forall (fun y => conf_name mp (internal_prefix mp (mp ++ B "." ++ a_instance _ a ++ B ".")) (known plugins) (dp_name y))
    (carbon_calls G E plugins max closes refuses CE is_ip addrs a h).
Proof.
  intros Hs Hr Hx Hm mp. rewrite (carbon_either E plugins max closes refuses CE is_ip addrs mp _ h (either_conf x p Hs Hx Hm)).
  exact (entire_conf_names G files args node a Hw D E plugins is_ip max closes refuses CE addrs mp _ h Hr).
Qed.
End either.
