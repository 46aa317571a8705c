(** From the command line to carbon: the service of Assembly.v running as the daemon of Own.v. *)
From Verif Require Import Base StrFacts Num NumFacts Env Stats Metrics Gen GenFacts Processor Configurable LineSpec ProcSpec Sched SchedFacts ReceiveFacts ReceiveFacts3 FlushSpec FlushInv FlushDerived
  Client Router RouterSpec RouterFacts RouterProps Server ServerSpec Service ServiceSpec ServiceFacts
  ClientMetrics Daemon DaemonFacts Own OwnSpec OwnFacts Assembly AssemblySpec AssemblyFacts.

(** what the network does in a history *)
Definition heard `{NN : Num} (h : list (oevent (NN := NN))) : list sevent :=
  flat_map (fun e => match e with ODaemon (DNet e) => [e] | _ => [] end) h.

Section entire.
Context `{NN : Num} {S : Type} (G : engine).
(** a service as a daemon: flushes take the default percentile, processor.py:224 (the
    service passes only the interval, service.py:226); [is_ip] as in Client.v *)
Definition service_links (is_ip : str -> bool) (a : assembly G) : list rlink := map (new_link is_ip) (a_links _ a).
Definition service_run (inner : str -> str -> str -> list str -> M S unit) (fl : Z -> Z -> gen S) (p0 : S) (a : assembly G)
  (max : nat) (closes : bool) (refuses : nat -> dp -> option exn) (CE : cenv) (is_ip : str -> bool) (addrs : list str)
  (h : list oevent) : whole (S := S) :=
  orun G inner (fl (a_flush _ a) 90) (a_rules _ a) (a_mon _ a) max closes refuses CE (a_ext _ a) (a_instance _ a)
    (o_new (d_new addrs (service_links is_ip a) p0)) h.
End entire.

Section facts.
Context `{NN : Num}.
Lemma nets_app es es' : nets (es ++ es') = nets es ++ nets es'.
Proof. unfold nets. rewrite flat_map_app. reflexivity. Qed.
Lemma nets_internal ms : nets (map DInternal ms) = [].
Proof. induction ms; [reflexivity|assumption]. Qed.
Lemma written_nets CE instance h es : written CE instance h es -> nets es = heard h.
Proof.
  intros H. induction H as [|h es e H IH|h es some rest ms H IH Hf|h es e H IH|h es v H IH|h es v H IH Hc];
    unfold heard in *; rewrite ?flat_map_app, ?nets_app; cbn [flat_map app]; rewrite ?app_nil_r; [reflexivity|..]; rewrite ?IH, ?nets_internal, ?app_nil_r; auto.
  - f_equal. destruct e; reflexivity.
Qed.
(** without TCP connections it does not matter what ends them *)
Lemma udp_step {S} G inner (fl : gen S) rs cfg max closes refuses d e : d_conns d = [] ->
  dstep G inner fl rs cfg max closes refuses d e = dstep G inner fl rs cfg max false refuses d e /\
  d_conns (dstep G inner fl rs cfg max closes refuses d e) = [].
Proof.
  intros H. destruct e as [e|m| |i l|i]; cbn [dstep].
  - rewrite H. destruct e as [addr data|i data|i]; cbn [sstep]; rewrite ?lookup_nil; split; reflexivity.
  - destruct (r_process _ _ _ _ _). split; [reflexivity|exact H].
  - split; [reflexivity|exact H].
  - split; [reflexivity|exact H].
  - destruct (d_live d !! i) as [[k g]|]; [|split; [reflexivity|exact H]]. destruct (gnext g (d_proc d)) as [p [v g'| |e]];
      [destruct (refuses _ v)|..]; (split; [reflexivity|exact H]).
Qed.
Lemma udp_run {S} G inner (fl : gen S) rs cfg max closes refuses es : forall d, d_conns d = [] ->
  drun G inner fl rs cfg max closes refuses d es = drun G inner fl rs cfg max false refuses d es.
Proof.
  unfold drun. induction es as [|e es IH]; intros d H; [reflexivity|]. cbn [fold_left].
  destruct (udp_step G inner fl rs cfg max closes refuses d e H) as [E Hd]. rewrite <- E. apply IH. exact Hd.
Qed.

Lemma entire (NL : NumLaw NN) (NX : NumExact NN) E plugins G files args node a is_ip max closes refuses CE addrs h out key :
  well_formed files -> described G files args node a -> value_of files args (B "routing") (OS []) -> 1000 <= a_flush _ a ->
  addrs = [] \/ closes = false ->
  arrivals max (map (fun a => (a, [])) addrs) (heard h) out ->
  let C := mp_cls E plugins in
  let d := o_daemon (service_run (S := mst) G (process_message E C) (flush E C) mp_init a max closes refuses CE is_ip addrs h) in
  exists es waiting accepted, written CE (a_instance _ a) h es /\
    picks (contribution key) (v_pending (d_srv d)) waiting /\
    picks (contribution key) (metrics_in (a_mon _ a) out ++ own es) accepted /\
    nadd (nadd (counts_in key (map (fun c => snd (fst c)) (d_calls d)))
      (nadd (counts_in key (flat_map pending (map snd (d_live d) ++ d_gone d)))
            (default n0 (p_counter (d_proc d) !! key)))) (nsum waiting)
    = nsum accepted.
Proof.
  intros Hw D Hro Hi Hc Ha C d. destruct (ds_routing _ _ _ _ _ D) as (text & Ht & Hb).
  assert (text = []) as ->. { pose proof (value_fun files args Hw _ _ _ Hro Ht). congruence. }
  destruct (written_history G (process_message E C) (flush E C (a_flush _ a) 90) (a_rules _ a) (a_mon _ a) max closes refuses CE (a_ext _ a) (a_instance _ a)
    (d_new addrs (service_links G is_ip a) mp_init) h) as (es & Hes & Hd).
  assert (Hd' : d = drun (S := mst) G (process_message E C) (flush E C (a_flush _ a) 90) (a_rules _ a) (a_mon _ a) max false refuses
    (d_new addrs (service_links G is_ip a) mp_init) es).
  { refine (eq_trans Hd _). destruct Hc as [->| ->]; [|reflexivity]. apply udp_run. reflexivity. }
  rewrite <- (written_nets _ _ _ _ Hes) in Ha.
  destruct (daemon_arrived E plugins G (a_flush _ a) 90 (a_mon _ a) max refuses [] (a_links _ a) (a_rules _ a) [] (service_links G is_ip a)
    Hb ltac:(apply rules_by; reflexivity) ltac:(apply map_length) Hi addrs es out key Ha) as (waiting & accepted & H1 & H2 & H3).
  { apply Forall_forall. intros m _ t k fs _. constructor. }
  exists es, waiting, accepted. split; [exact Hes|]. rewrite Hd'. auto.
Qed.
End facts.
