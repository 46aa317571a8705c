(** The source of every datapoint: the whole daemon, the service of a command line. *)
From Coq Require Qcanon.
From Verif Require Import Base StrFacts Num NumFacts Env Stats Glob Metrics Gen GenFacts Processor
  LineSpec LineFacts FloatFacts ProcFacts ProcSpec ReceiveFacts ReceiveFacts2 ReceiveFacts3 PlugFacts
  Sched FlushInv FlushOk SchedFacts FlushSpec
  Client RouterSpec Router RouterFacts RouterProps Server ServerSpec ServerFacts Service ServiceSpec ServiceFacts
  ClientMetrics Daemon DaemonFacts Own OwnSpec OwnFacts Assembly AssemblySpec AssemblyFacts Entire DoubleDaemon TimerSched TimerDaemon Provenance.
Open Scope Z_scope.

Section daemon.
Context `{NN : Num} (E : env) (plugins : list factory) (G : engine) (interval percent : Z) (cfg : mon) (max : nat) (refuses : nat -> dp -> option exn).
Context (config : str) (ls : list lspec) (rs : list (rule G)) (rws : list rule_text) (links : list rlink).
Context (Hb : build_rules G true config [] = (ls, Ok rs)) (Hr : rules_of config rws) (Hl : length links = length ls).
Notation C := (mp_cls E plugins).
Notation run := (drun (S := mst) G (process_message E C) (flush E C interval percent) rs cfg max false refuses).
Notation outgoing d := (map (fun c => snd (fst c)) (d_calls d)).

Lemma daemon_from addrs es out :
  arrivals max (map (fun a => (a, [])) addrs) (nets es) out ->
  (forall m, In m (metrics_in cfg out ++ own es) -> exists ts, delivers G rws m ts) ->
  let d := run (d_new addrs links mp_init) es in
  exists handled tss,
    handled ++ v_pending (d_srv d) ≡ₚ metrics_in cfg out ++ own es /\ Forall2 (delivers G rws) handled tss /\
    Forall (comes_from plugins (concat tss)) (outgoing d ++ flat_map pending (map snd (d_live d) ++ d_gone d)).
Proof using Hb Hl Hr.
  intros Ha Hdel d.
  destruct (daemon_network G (process_message E C) (flush E C interval percent) rs cfg max refuses addrs links mp_init es out Ha) as [_ Hpm].
  cbv zeta in Hpm. change (drun G _ _ rs cfg max false refuses _ es) with d in Hpm.
  destruct (daemon_refines E plugins G interval percent cfg max false refuses config ls rs rws Hb Hr addrs links es Hl) as (y & tss & evs & Hs).
  { intros m Hin. apply Hdel. eapply Permutation_in; [exact Hpm|]. apply in_or_app. left. exact Hin. }
  fold d in Hs. destruct Hs as [H1 H2 H3 H4 H5 H6 H7 H8 H9 H10].
  exists (d_order d), tss. split; [exact Hpm|]. split; [exact H9|].
  rewrite H2, H3, H4, <- H8, H6. apply sent_from.
Qed.

(** the same lines, other texts *)
Lemma comes_mono h h' d : (forall m t k fs, In m h -> typed_line m t k fs -> exists m', In m' h' /\ typed_line m' t k fs) ->
  comes_from plugins h d -> comes_from plugins h' d.
Proof using Type.
  intros H Hd. destruct Hd as [m k fs v ts Hm Ht|m k fs v ts Hm Ht|m k x p suf v ts Hm (f0 & fs & Ht & Hx) Hs|m k v ts Hm (f0 & fs & Ht & Hx)|
    m k x suf v ts Hm (f0 & fs & Ht & Hx) Hs|m k fs suf v ts Hm Ht Hf|m k fs suf v ts Hm Ht Hf|n ts|kind suf v ts Hk Hs|m t k fs suf v ts Hm Ht Hs];
    try (destruct (H m _ _ _ Hm Ht) as (m' & Hm' & Ht')).
  - eapply cf_rate; eassumption.
  - eapply cf_count; eassumption.
  - eapply (cf_timer plugins h' m' k x p); [exact Hm'|exists f0, fs; auto|exact Hs].
  - eapply cf_gauge; [exact Hm'|exists f0, fs; auto].
  - eapply (cf_meter plugins h' m' k x); [exact Hm'|exists f0, fs; auto|exact Hs].
  - eapply cf_sli; eassumption.
  - eapply cf_distinct; eassumption.
  - apply cf_stats.
  - apply cf_flush; assumption.
  - eapply cf_receive; eassumption.
Qed.
Lemma delivered_typed ms tss : Forall (unmatched rws) ms -> Forall2 (delivers G rws) ms tss ->
  forall m t k fs, In m (concat tss) -> typed_line m t k fs -> exists m', In m' ms /\ typed_line m' t k fs.
Proof using Type.
  intros Hu H. induction H as [|m0 ts ms tss Hd _ IH]; intros m t k fs Hm Ht; [destruct Hm|].
  apply Forall_cons in Hu as [Hu0 Hu]. cbn [concat] in Hm. apply in_app_or in Hm. destruct Hm as [Hm|Hm].
  - destruct (same_typed G rws m0 ts Hu0 Hd) as [[-> _]|(m' & -> & Hs)]; [destruct Hm|]. destruct Hm as [<-|[]].
    exists m0. split; [left; reflexivity|apply Hs, Ht].
  - destruct (IH Hu m t k fs Hm Ht) as (m' & Hm' & Ht'). exists m'. split; [right; exact Hm'|exact Ht'].
Qed.
Lemma daemon_from_same addrs es out :
  arrivals max (map (fun a => (a, [])) addrs) (nets es) out ->
  Forall (unmatched rws) (metrics_in cfg out ++ own es) ->
  let d := run (d_new addrs links mp_init) es in
  Forall (comes_from plugins (metrics_in cfg out ++ own es)) (outgoing d ++ flat_map pending (map snd (d_live d) ++ d_gone d)).
Proof using Hb Hl Hr.
  intros Ha Hun d. destruct (daemon_from addrs es out Ha) as (handled & tss & H1 & H2 & H3).
  { intros m Hm. apply skipped. rewrite Forall_forall in Hun. apply Hun, elem_of_list_In. exact Hm. }
  fold d in H1, H3. eapply Forall_impl; [exact H3|]. intros x. apply comes_mono. intros m t k fs Hm Ht.
  assert (Hu : Forall (unmatched rws) handled) by (rewrite <- H1 in Hun; apply Forall_app in Hun as [Hun _]; exact Hun).
  destruct (delivered_typed handled tss Hu H2 m t k fs Hm Ht) as (m' & Hm' & Ht'). exists m'. split; [|exact Ht'].
  eapply Permutation_in; [exact H1|]. apply in_or_app. left. exact Hm'.
Qed.
End daemon.

Lemma service_from `{NN : Num} (E : env) plugins G files args node a is_ip max closes refuses CE addrs h out :
  well_formed files -> described G files args node a -> value_of files args (B "routing") (OS []) ->
  addrs = [] \/ closes = false ->
  arrivals max (map (fun a => (a, [])) addrs) (heard h) out ->
  let C := mp_cls E plugins in
  let d := o_daemon (service_run (S := mst) G (process_message E C) (flush E C) mp_init a max closes refuses CE is_ip addrs h) in
  exists es, written CE (a_instance _ a) h es /\
    Forall (comes_from plugins (metrics_in (a_mon _ a) out ++ own es)) (map (fun c => snd (fst c)) (d_calls d) ++ flat_map pending (map snd (d_live d) ++ d_gone d)).
Proof.
  intros Hw D Hro Hc Ha C d. destruct (ds_routing _ _ _ _ _ D) as (text & Ht & Hb).
  assert (text = []) as ->. { pose proof (value_fun files args Hw _ _ _ Hro Ht). congruence. }
  destruct (written_history G (process_message E C) (flush E C (a_flush _ a) 90) (a_rules _ a) (a_mon _ a) max closes refuses CE (a_ext _ a) (a_instance _ a)
    (d_new addrs (service_links G is_ip a) mp_init) h) as (es & Hes & Hd).
  assert (Hd' : d = drun (S := mst) G (process_message E C) (flush E C (a_flush _ a) 90) (a_rules _ a) (a_mon _ a) max false refuses
    (d_new addrs (service_links G is_ip a) mp_init) es).
  { refine (eq_trans Hd _). destruct Hc as [->| ->]; [|reflexivity]. apply udp_run. reflexivity. }
  rewrite <- (written_nets _ _ _ _ Hes) in Ha.
  exists es. split; [exact Hes|]. rewrite Hd'.
  apply (daemon_from_same E plugins G (a_flush _ a) 90 (a_mon _ a) max refuses [] (a_links _ a) (a_rules _ a) [] (service_links G is_ip a)
    Hb ltac:(apply rules_by; reflexivity) ltac:(apply map_length) addrs es out Ha).
  apply Forall_forall. intros m _ t k fs _. constructor.
Qed.
