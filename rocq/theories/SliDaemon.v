(** SLI metrics of a whole service: from the rules of its file and the lines that arrive to
    the values handed to carbon. *)
From Verif Require Import Base StrFacts Num NumFacts Env Stats Glob Metrics Gen GenFacts Processor Configurable LineSpec LineFacts ProcSpec
  SliConfig SliFacts SysRun SliSched Plugins SliRules Sched SchedFacts ReceiveFacts ReceiveFacts3 FlushSpec FlushInv FlushDerived
  Client Router RouterSpec RouterFacts RouterProps Server ServerSpec Service ServiceSpec ServiceFacts
  ClientMetrics Daemon DaemonFacts Own OwnSpec OwnFacts Assembly AssemblySpec AssemblyFacts Entire.

(** a text whose reading is that of another contributes what the other does *)
Definition same_line (m m' : str) : Prop := forall t k fs, typed_line m t k fs <-> typed_line m' t k fs.
Definition by_line {A} (P : str -> A -> Prop) : Prop :=
  (forall m a, P m a -> exists t k fs, typed_line m t k fs) /\ forall m m' a, same_line m m' -> P m a -> P m' a.

Section unmatched.
Context (G : engine) (rws : list rule_text).
Lemma delivered_same m ts : unmatched rws m -> delivers G rws m ts ->
  (ts = [] /\ forall t k fs, ~ typed_line m t k fs) \/ exists x, ts = [x] /\ same_line x m.
Proof.
  intros Hu Hd. destruct Hd as [Hn|t k fs Ht Hn|t k fs sent Ht Hro|t k fs t' k' fs' sent Ht Hro Ht'].
  - left. auto.
  - exfalso. apply Hn. do 2 eexists. apply routes_skip, Hu, Ht.
  - destruct (routes_fun G _ _ _ _ _ _ _ Hro (routes_skip G _ rws (Hu _ _ _ Ht) 0)) as [Ho _]. discriminate.
  - right. eexists. split; [reflexivity|]. destruct (routes_fun G _ _ _ _ _ _ _ Hro (routes_skip G _ rws (Hu _ _ _ Ht) 0)) as [Ho _]. injection Ho as -> -> ->.
    intros t1 k1 fs1. split; intros H.
    + destruct (typed_line_fun _ _ _ _ _ _ _ H Ht') as (-> & -> & ->). exact Ht.
    + destruct (typed_line_fun _ _ _ _ _ _ _ H Ht) as (-> & -> & ->). exact Ht'.
Qed.
Lemma delivered_picks {A} (P : str -> A -> Prop) ms tss : by_line P -> Forall (unmatched rws) ms -> Forall2 (delivers G rws) ms tss ->
  forall l, picks P (concat tss) l -> picks P ms l.
Proof.
  intros [HP1 HP2] Hu H. induction H as [|m ts ms tss Hd _ IH]; intros l Hp; [exact Hp|].
  inversion_clear Hu as [|? ? Hm Hu']. cbn [concat] in Hp.
  destruct (delivered_same m ts Hm Hd) as [[-> Hn]|(x & -> & Hs)].
  - apply picks_miss; [|apply IH; assumption]. intros a Ha. destruct (HP1 _ _ Ha) as (t & k & fs & Ht). exact (Hn _ _ _ Ht).
  - assert (Hs' : same_line m x) by (intros t k fs; symmetry; apply Hs). cbn [app] in Hp.
    inversion Hp as [|? a ? l' Ha Hk|? ? ? Ha Hk]; subst; [apply picks_hit|apply picks_miss]; auto.
    + exact (HP2 _ _ _ Hs Ha).
    + intros a Hx. apply (Ha a). exact (HP2 _ _ _ Hs' Hx).
Qed.
Lemma delivered_forall (P : str -> Prop) ms tss : (forall m m', same_line m m' -> P m -> P m') -> Forall (unmatched rws) ms ->
  Forall2 (delivers G rws) ms tss -> Forall P ms -> Forall P (concat tss).
Proof.
  intros HP Hu H. induction H as [|m ts ms tss Hd _ IH]; intros Hf; [constructor|].
  inversion_clear Hu as [|? ? Hm Hu']. inversion_clear Hf as [|? ? Hpm Hf']. cbn [concat]. apply Forall_app. split; [|auto].
  destruct (delivered_same m ts Hm Hd) as [[-> _]|(x & -> & Hs)]; [constructor|]. constructor; [|constructor].
  apply (HP m); [|exact Hpm]. intros t k fs. symmetry. apply Hs.
Qed.
End unmatched.

Lemma sli_by_line `{NN : Num} key : by_line (sli_line key).
Proof.
  split.
  - intros m a [m' fields x Ht Hr]. eauto.
  - intros m m' a Hs Hx. inversion Hx as [m0 fields x Ht Hr]; subst. apply Hs in Ht. econstructor; eassumption.
Qed.
Lemma sli_line_fun `{NN : Num} key m a b : sli_line key m a -> sli_line key m b -> a = b.
Proof.
  intros [m1 f1 x1 H1 R1] H. inversion H as [m2 f2 x2 H2 R2]; subst. destruct (typed_line_fun _ _ _ _ _ _ _ H1 H2) as (_ & _ & <-).
  apply sample_of_iff in R1, R2. congruence.
Qed.
(** one condition for every label that has a rule applying to the path: one of those rules *)
Definition chosen_by `{NN : Num} (ls : list str) (path : str) (cs : gmap str Metrics.cond) : Prop :=
  forall label, (forall c, cs !! label = Some c -> SliFacts.applies ls path label c) /\
                ((exists c, SliFacts.applies ls path label c) -> exists c, cs !! label = Some c).
(** no line of the other plugin for the name; no counter of that very name *)
Definition never_distinct (key m : str) : Prop := forall fields, ~ typed_line m (B "pd") key fields.

Section daemon.
Context `{NN : Num} (E : env) (G : engine).
Context (ps : list stock) (cfg0 : sconfig) (ks : list str) (ls0 : list str).
Context (Hps : ps ≡ₚ [StockSli; StockDistinct]) (Hh : holds cfg0 ls0) (Hks : ks ≡ₚ (map_to_list cfg0).*1).
Notation plugins := (stock_factories ps cfg0 ks).
Notation C := (mp_cls E plugins).
Context (interval percent : Z) (cfg : mon) (max : nat) (refuses : nat -> dp -> option exn).
Context (config : str) (ls : list lspec) (rs : list (rule G)) (rws : list rule_text) (links : list rlink).
Context (Hb : build_rules G true config [] = (ls, Ok rs)) (Hr : rules_of config rws) (Hl : length links = length ls).
Notation run := (drun (S := mst) G (process_message E C) (flush E C interval percent) rs cfg max false refuses).
Notation sent d := (map (fun c => snd (fst c)) (d_calls d)).

Lemma stock_own_type key m : never_distinct key m -> own_type plugins key m.
Proof using Hps.
  intros Hn t fields f Ht _ Hp. destruct (stock_table ps cfg0 ks Hps) as (_ & _ & H). destruct (H _ _ Hp) as [->| ->]; [reflexivity|].
  exfalso. exact (Hn _ Ht).
Qed.
Lemma daemon_sli addrs es out key :
  arrivals max (map (fun a => (a, [])) addrs) (nets es) out ->
  Forall (unmatched rws) (metrics_in cfg out ++ own es) ->
  Forall (never_distinct key) (metrics_in cfg out ++ own es) ->
  let d := run (d_new addrs links mp_init) es in
  let path := B "stats.SLI." ++ key in
  let told part := sum_under (path ++ c_dot :: part) (sent d ++ flat_map pending (map snd (d_live d) ++ d_gone d)) in
  let free part := Forall (no_counter key part) (metrics_in cfg out ++ own es) in
  exists cs, chosen_by ls0 path cs /\ exists waiting accepted old kept,
    picks (sli_line key) (v_pending (d_srv d)) waiting /\
    picks (sli_line key) (metrics_in cfg out ++ own es) accepted /\
    accepted ≡ₚ old ++ kept ++ waiting /\
    match p_plug (d_proc d) !! key with
    | Some (PSli x) => sl_count x = Z.of_nat (length kept) /\ sl_error x = Z.of_nat (length (errors kept)) /\
        forall label, sl_counts x !! label = (fun c => Z.of_nat (length (passing c kept))) <$> cs !! label
    | Some (PDist _) => False
    | None => old = [] /\ kept = []
    end /\
    (free (B "count") -> told (B "count") = Z.of_nat (length old)) /\
    (free (B "error") -> told (B "error") = Z.of_nat (length (errors old))) /\
    (forall label c, cs !! label = Some c -> free (B "count_" ++ label) ->
       told (B "count_" ++ label) = Z.of_nat (length (passing c old))).
Proof using Hps Hh Hks Hb Hr Hl.
  intros Ha Hu Hn d path told free.
  destruct (daemon_network G (process_message E C) (flush E C interval percent) rs cfg max refuses addrs links mp_init es out Ha) as [_ Hp].
  cbv zeta in Hp. change (drun G _ _ rs cfg max false refuses _ es) with d in Hp.
  destruct (daemon_refines E plugins G interval percent cfg max false refuses config ls rs rws Hb Hr addrs links es Hl) as (y & tss & evs & Hs).
  { intros m Hin. rewrite Forall_forall in Hu. apply (skipped G rws). apply Hu. rewrite <- Hp. apply elem_of_app. left. apply elem_of_list_In. exact Hin. }
  fold d in Hs. destruct Hs as [H1 H2 H3 H4 H5 H6 H7 H8 H9].
  assert (Hfirst : forall P : str -> Prop, Forall P (metrics_in cfg out ++ own es) -> Forall P (d_order d)).
  { intros P HP. rewrite <- Hp in HP. apply Forall_app in HP as [HP _]. exact HP. }
  assert (Hfwd : forall P : str -> Prop, (forall m m', same_line m m' -> P m -> P m') -> Forall P (metrics_in cfg out ++ own es) -> Forall P (lines evs)).
  { intros P HP Hf. rewrite H8. exact (delivered_forall G rws P (d_order d) tss HP (Hfirst _ Hu) H9 (Hfirst _ Hf)). }
  destruct (holds_conditions cfg0 ls0 ks path Hh Hks) as (cs & Hcs & Hlab).
  destruct (stock_table ps cfg0 ks Hps) as (Hf & _).
  destruct (sli_conserved E plugins (config_of cfg0 ks) key cs Hf Hcs (holds_dots cfg0 ls0 ks Hh) evs) as (acc & old & kept & Hpk & Hacc & Hst & Hcount & Herr & Hlabel).
  { apply Hfwd; [|apply (Forall_impl _ _ _ Hn), stock_own_type]. intros m m' Hm Ho t fields f Ht. apply Ho with (fields := fields), Hm, Ht. }
  cbv zeta in Hst, Hcount, Herr, Hlabel. rewrite <- H6 in Hst, Hcount, Herr, Hlabel.
  assert (Hfree : forall part, free part -> Forall (no_counter key part) (lines evs)).
  { intros part Hfr. apply Hfwd; [|exact Hfr]. intros m m' Hm Hc fields Ht. apply (Hc fields), Hm, Ht. }
  assert (Htold : forall part, came_to key y part = told part).
  { intros part. unfold came_to, told. rewrite H2, H3, H4. reflexivity. }
  rewrite H8 in Hpk. pose proof (delivered_picks G rws (sli_line key) (d_order d) tss (sli_by_line key) (Hfirst _ Hu) H9 _ Hpk) as Hpo.
  pose proof (all_samples_picks key (v_pending (d_srv d))) as Hw.
  pose proof (all_samples_picks key (metrics_in cfg out ++ own es)) as Hall.
  exists cs. split.
  { intros label. split; [apply Hlab|]. intros Hex. destruct (cs !! label) as [c|] eqn:Ec; [eauto|]. exfalso. apply (proj2 (Hlab label) Hex), Ec. }
  exists (all_samples key (v_pending (d_srv d))), (all_samples key (metrics_in cfg out ++ own es)), old, kept.
  split; [exact Hw|]. split; [exact Hall|]. split.
  { rewrite app_assoc, <- Hacc. symmetry. eapply picks_perm; [intros m a b; apply sli_line_fun|exact Hp| |exact Hall]. apply picks_join; assumption. }
  split.
  { rewrite H1. destruct (p_plug (y_st y) !! key) as [[x|x]|]; [|exact Hst|].
    - destruct Hst as (_ & _ & Hx & Hc & He). split; [exact Hc|]. split; [exact He|]. intros label. rewrite Hx, lookup_fmap. reflexivity.
    - rewrite Hst in Hacc. symmetry in Hacc. apply app_eq_nil in Hacc. exact Hacc. }
  split; [intros Hfr; rewrite <- Htold; apply Hcount, Hfree, Hfr|]. split; [intros Hfr; rewrite <- Htold; apply Herr, Hfree, Hfr|].
  intros label c Ec Hfr. rewrite <- Htold. exact (Hlabel label c Ec (Hfree _ Hfr)).
Qed.
End daemon.

Section service.
Context `{NN : Num}.
(** [earlier]: what services of the same process were configured with before *)
Lemma service_sli E G files args o node log_info info a is_ip max closes refuses CE addrs h out key ps earlier r ks ls0 :
  well_formed files -> parse_options files args = Ok o -> rules_given files args r -> ps ≡ₚ [StockSli; StockDistinct] ->
  installed (earlier ++ [r]) ls0 ->
  let before := fold_left (fun c r => fst (sli_configure c r)) earlier ∅ in
  create G (fun o => snd (configure_plugins ps o before)) node o log_info = (info, Ok a) ->
  let cfg := fst (configure_plugins ps o before) in
  ks ≡ₚ (map_to_list cfg).*1 ->
  value_of files args (B "routing") (OS []) -> addrs = [] \/ closes = false ->
  arrivals max (map (fun a => (a, [])) addrs) (heard h) out ->
  let C := mp_cls E (stock_factories ps cfg ks) in
  let d := o_daemon (service_run (S := mst) G (process_message E C) (flush E C) mp_init a max closes refuses CE is_ip addrs h) in
  exists es, written CE (a_instance _ a) h es /\
  let arrived := metrics_in (a_mon _ a) out ++ own es in
  let path := B "stats.SLI." ++ key in
  let told part := sum_under (path ++ c_dot :: part)
    (map (fun c => snd (fst c)) (d_calls d) ++ flat_map pending (map snd (d_live d) ++ d_gone d)) in
  let free part := Forall (no_counter key part) arrived in
  (Forall (never_distinct key) arrived ->
  exists cs, chosen_by ls0 path cs /\ exists waiting accepted old kept,
    picks (sli_line key) (v_pending (d_srv d)) waiting /\
    picks (sli_line key) arrived accepted /\
    accepted ≡ₚ old ++ kept ++ waiting /\
    match p_plug (d_proc d) !! key with
    | Some (PSli x) => sl_count x = Z.of_nat (length kept) /\ sl_error x = Z.of_nat (length (errors kept)) /\
        forall label, sl_counts x !! label = (fun c => Z.of_nat (length (passing c kept))) <$> cs !! label
    | Some (PDist _) => False
    | None => old = [] /\ kept = []
    end /\
    (free (B "count") -> told (B "count") = Z.of_nat (length old)) /\
    (free (B "error") -> told (B "error") = Z.of_nat (length (errors old))) /\
    (forall label c, cs !! label = Some c -> free (B "count_" ++ label) ->
       told (B "count_" ++ label) = Z.of_nat (length (passing c old)))).
Proof.
  intros Hw Hp Hr Hps Hi before Hc cfg Hks Hro Hcl Ha C d.
  assert (Hh : holds cfg ls0).
  { destruct (installed_all earlier) as (ls & Hi' & Hh). destruct (configure_holds _ _ _ r Hi' Hh) as (ls' & Hi2 & Hh2 & _).
    rewrite (installed_fun _ _ _ Hi Hi2). unfold cfg. rewrite (loop_sli files args o before r ps Hw Hp Hr Hps). exact Hh2. }
  assert (D : described G files args node a).
  { destruct (created_spec G files args Hw _ node o Hp log_info info (Ok a) Hc) as [(e & _ & H)|[(_ & dd & _ & _ & _ & H)|(_ & _ & [(t & e & _ & _ & H)|(a' & H & D)])]];
      try discriminate. injection H as <-. exact D. }
  destruct (ds_routing _ _ _ _ _ D) as (text & Ht & Hb).
  assert (text = []) as ->. { pose proof (value_fun files args Hw _ _ _ Hro Ht). congruence. }
  destruct (written_history G (process_message E C) (flush E C (a_flush _ a) 90) (a_rules _ a) (a_mon _ a) max closes refuses CE (a_ext _ a) (a_instance _ a)
    (d_new addrs (service_links G is_ip a) mp_init) h) as (es & Hes & Hd).
  assert (Hd' : d = drun (S := mst) G (process_message E C) (flush E C (a_flush _ a) 90) (a_rules _ a) (a_mon _ a) max false refuses
    (d_new addrs (service_links G is_ip a) mp_init) es).
  { refine (eq_trans Hd _). destruct Hcl as [->| ->]; [|reflexivity]. apply udp_run. reflexivity. }
  rewrite <- (written_nets _ _ _ _ Hes) in Ha.
  exists es. split; [exact Hes|]. intros arrived path told free Hn.
  pose proof (daemon_sli E G ps cfg ks ls0 Hps Hh Hks (a_flush _ a) 90 (a_mon _ a) max refuses [] (a_links _ a) (a_rules _ a) [] (service_links G is_ip a)
    Hb ltac:(apply rules_by; reflexivity) ltac:(apply map_length) addrs es out key Ha) as H.
  unfold told. rewrite Hd'. apply H; [|exact Hn]. apply Forall_forall. intros m _ t k fs _. constructor.
Qed.
End service.
