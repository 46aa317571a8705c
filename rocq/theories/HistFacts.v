(** Gauges, metric names and meter totals over whole histories: flushing, in any
    interleaving, changes none of them. *)
From Verif Require Import Base StrFacts Num Env Stats Glob Metrics Gen GenFacts Processor
  LineSpec LineFacts FloatFacts ProcFacts ProcSpec ReceiveFacts ReceiveFacts2 ReceiveFacts3 PlugFacts Sched StepFacts.

Section hist.
Context `{NN : Num} (E : env) (plugins : list factory).
Notation C := (mp_cls E plugins).
Notation receive := (receive E plugins).
Notation receive_all := (receive_all E plugins).
Notation run es := (y_st (sys_run E plugins es sys_init)).
Notation any := (fun _ _ : meter => True).

Lemma receive_all_snoc ms m s : receive_all (ms ++ [m]) s = receive m (receive_all ms s).
Proof. rewrite receive_all_app. reflexivity. Qed.

(** *** gauges (C17) *)
Lemma gauges_kept es : exists l, picks (fun m '(v, key) => gauge_sample m key v) (lines es) l /\
  p_gauge (run es) = l.
Proof.
  destruct (gauge_history E plugins (lines es) mp_init) as (l & Hl & Hg). exists l. split; [exact Hl|].
  cbn [mp_init empty_state p_gauge app] in Hg. rewrite <- Hg.
  apply (sys_history E plugins any) with (P := fun ls (s : mst) => p_gauge s = p_gauge (receive_all ls mp_init));
    auto.
  - intros ls m s H. rewrite receive_all_snoc, !gauge_one, H. reflexivity.
  - intros ls s s' H (H1 & _). congruence.
Qed.

(** *** names (C22) *)
Definition plug_touch (m key : str) : Prop :=
  exists t fields f, typed_line m t key fields /\ ~ builtin t /\ plugin_table plugins !! t = Some f /\
    match f with
    | FSli config => exists cs, sli_conditions (B "stats.SLI." ++ key) config ∅ = Ok cs
    | FDistinct => True
    end.
Definition recorded (m key : str) : Prop :=
  counter_touch m key \/ (exists d, timer_sample m key d) \/ (exists v, gauge_sample m key v) \/
  (exists v, meter_sample m key v) \/ plug_touch m key.

Lemma counter_dom m key (s : mst) :
  key ∈ dom (p_counter (receive m s)) <-> key ∈ dom (p_counter s) \/ counter_touch m key.
Proof.
  rewrite !elem_of_dom, counter_step. rewrite <- counter_view_touch.
  destruct (counter_view m key) as [[v r]|] eqn:Ev.
  - split; [intros _; right; eauto|]. intros _. unfold counter_add.
    destruct (rate_of r) as [x|]; [destruct (neqb x n0)|]; cbn [fst];
      destruct (p_counter s !! key) eqn:Ek; rewrite ?lookup_insert, ?Ek; eauto.
  - split; [auto|]. intros [H|(v & r & H)]; [exact H|discriminate].
Qed.
Lemma timer_dom m key (s : mst) :
  key ∈ dom (p_timer (receive m s)) <-> key ∈ dom (p_timer s) \/ exists d, timer_sample m key d.
Proof.
  rewrite !elem_of_dom, timer_one. destruct (view (B "ms") m key) as [d|] eqn:Ev.
  - split; [intros _; right; exists d; apply view_iff; exact Ev|eauto].
  - split; [auto|]. intros [H|(d & H)]; [exact H|]. apply view_iff in H. congruence.
Qed.
Lemma meter_dom m key (s : mst) :
  key ∈ dom (p_meter (receive m s)) <-> key ∈ dom (p_meter s) \/ exists v, meter_sample m key v.
Proof.
  rewrite !elem_of_dom, meter_one. destruct (view (B "m") m key) as [d|] eqn:Ev.
  - split; [intros _; right; exists d; apply view_iff; exact Ev|eauto].
  - split; [auto|]. intros [H|(d & H)]; [exact H|]. apply view_iff in H. congruence.
Qed.
Lemma plug_dom m key (s : mst) :
  key ∈ dom (p_plug (receive m s)) <-> key ∈ dom (p_plug s) \/ plug_touch m key.
Proof.
  rewrite !elem_of_dom. destruct (decode m) as [[[t raw] fields]|] eqn:Hd.
  2:{ unfold ReceiveFacts.receive. rewrite process_proj by apply proj_plug. rewrite Hd. split; [auto|].
      intros [H|(t & fields & f & Hl & _)]; [exact H|]. apply typed_line_decode in Hl. destruct Hl as (raw & Hl & _). congruence. }
  assert (Hl : typed_line m t (normalize_key raw) fields) by (apply typed_line_decode; eauto).
  assert (Hfun : plug_touch m key -> key = normalize_key raw /\ ~ builtin t /\ exists f, plugin_table plugins !! t = Some f /\
    match f with FSli config => exists cs, sli_conditions (B "stats.SLI." ++ key) config ∅ = Ok cs | FDistinct => True end).
  { intros (t' & fs & f & Hl' & Hb & Hf & Hm). destruct (typed_line_fun _ _ _ _ _ _ _ Hl Hl') as (-> & -> & _). eauto. }
  destruct (decide (key = normalize_key raw)) as [->|Hne].
  2:{ rewrite (plug_step E plugins m t raw fields s key Hd Hne). split; [auto|]. intros [H|H]; [exact H|].
      apply Hfun in H. destruct H as [H _]. contradiction. }
  destruct (str_eqb t (B "c") || str_eqb t (B "ms") || str_eqb t (B "g") || str_eqb t (B "m")) eqn:Eb.
  { apply builtin_bool in Eb.
    destruct (isolation E plugins m t (normalize_key raw) fields s Hl) as (_ & _ & _ & _ & Hi).
    rewrite Hi by auto. split; [auto|]. intros [H|H]; [exact H|]. apply Hfun in H. tauto. }
  assert (Hb : ~ builtin t) by (rewrite builtin_bool, Eb; discriminate).
  destruct (plugin_table plugins !! t) as [f|] eqn:Hf.
  - rewrite (plug_one E plugins m t raw fields s f Hd Hb Hf).
    destruct (p_plug s !! normalize_key raw) as [p0|] eqn:Ep; [split; [eauto|eauto]|].
    assert (Hx : plug_touch m (normalize_key raw) <->
      match f with FSli config => exists cs, sli_conditions (B "stats.SLI." ++ normalize_key raw) config ∅ = Ok cs | FDistinct => True end).
    { split.
      - intros H. apply Hfun in H. destruct H as (_ & _ & f' & H1 & H2). injection H1 as <-. exact H2.
      - intros H. exists t, fields, f. auto. }
    rewrite Hx. destruct f as [config|]; cbn [build_metric factory_name].
    + change (sli_path (B "stats." ++ B "SLI") (normalize_key raw)) with (B "stats.SLI." ++ normalize_key raw).
      destruct (sli_conditions _ config ∅) as [cs|e].
      * split; [eauto|]. intros _. eauto.
      * split; [intros [x Hx']; discriminate|]. intros [[x Hx']|[cs Hcs]]; discriminate.
    + unfold dmetric_new. destruct (distinct_new E 32 32 _) as [d w2]. split; [auto|]. intros _. eauto.
  - unfold ReceiveFacts.receive. rewrite process_proj by apply proj_plug. rewrite Hd.
    assert (known_type C t = false) as ->.
    { unfold known_type. rewrite Eb. cbn [c_plugins mp_cls]. rewrite Hf. reflexivity. }
    split; [auto|]. intros [H|H]; [exact H|]. apply Hfun in H. destruct H as (_ & _ & f & H & _). congruence.
Qed.
Lemma gauge_names m key (s : mst) :
  (exists v, In (v, key) (p_gauge (receive m s))) <-> (exists v, In (v, key) (p_gauge s)) \/ exists v, gauge_sample m key v.
Proof.
  rewrite gauge_one. split.
  - intros [v H]. apply in_app_or in H. destruct H as [H|H]; [eauto|]. right. exists v. apply gauge_of_iff.
    revert H. unfold gauge_of. destruct (decode m) as [[[t raw] [|f0 fs]]|]; try (intros []; fail).
    destruct (str_eqb t (B "g")); [|intros []]. destruct (float_of f0); [|intros []]. intros [[= <- <-]|[]]. reflexivity.
  - intros [[v H]|[v H]]; exists v; apply in_or_app; [auto|]. right. apply gauge_of_iff in H. rewrite H. left. reflexivity.
Qed.

Lemma names_exact es key :
  key ∈ mp_metric_names (run es) <-> exists m, In m (lines es) /\ recorded m key.
Proof.
  set (hits := fun (Q : str -> Prop) (ls : list str) => exists m, In m ls /\ Q m).
  assert (Hsnoc : forall Q ls m, hits Q (ls ++ [m]) <-> hits Q ls \/ Q m).
  { intros Q ls m. unfold hits. split.
    - intros (x & Hx & HQ). apply in_app_or in Hx. destruct Hx as [Hx|[<-|[]]]; eauto.
    - intros [(x & Hx & HQ)|HQ]; eexists; (split; [apply in_or_app|eassumption]); cbn; auto. }
  assert (Hinv : (fun ls (s : mst) =>
     (key ∈ dom (p_counter s) <-> hits (fun m => counter_touch m key) ls) /\
     (key ∈ dom (p_timer s) <-> hits (fun m => exists d, timer_sample m key d) ls) /\
     ((exists v, In (v, key) (p_gauge s)) <-> hits (fun m => exists v, gauge_sample m key v) ls) /\
     (key ∈ dom (p_meter s) <-> hits (fun m => exists v, meter_sample m key v) ls) /\
     (key ∈ dom (p_plug s) <-> hits (fun m => plug_touch m key) ls)) (lines es) (run es)).
  { apply (sys_history E plugins any); auto.
    - assert (Hnil : forall Q, hits Q [] <-> False) by (intros Q; split; [intros (x & [] & _)|intros []]).
      rewrite !Hnil. cbn [mp_init empty_state p_counter p_timer p_gauge p_meter p_plug]. rewrite !dom_empty_L.
      assert (He : forall x : str, x ∈ (∅ : gset str) <-> False) by (intros x; split; [intros Hx; exact (not_elem_of_empty x Hx)|intros []]).
      rewrite !He. cbn. split; [tauto|]. split; [tauto|]. split; [|tauto]. split; [intros [v []]|intros []].
    - intros ls m s (H1 & H2 & H3 & H4 & H5). rewrite !Hsnoc, <- H1, <- H2, <- H3, <- H4, <- H5.
      refine (conj _ (conj _ (conj _ (conj _ _)))); [apply counter_dom|apply timer_dom|apply gauge_names|apply meter_dom|apply plug_dom].
    - intros ls s s' H (F1 & F2 & F3 & F4 & F5 & _). rewrite F1, F2, F3, F4, F5. exact H. }
  cbv beta in Hinv. destruct Hinv as (H1 & H2 & H3 & H4 & H5). unfold mp_metric_names.
  rewrite !elem_of_union, H1, H2, H4, H5. rewrite elem_of_list_to_set.
  assert (H3' : key ∈ map snd (p_gauge (run es)) <-> hits (fun m => exists v, gauge_sample m key v) (lines es)).
  { rewrite <- H3. rewrite elem_of_list_In, in_map_iff. split.
    - intros ([v k] & <- & H). eauto.
    - intros [v H]. exists (v, key). auto. }
  rewrite H3'. unfold hits, recorded. split.
  - intros [[[[(m & Hm & H)|(m & Hm & H)]|(m & Hm & H)]|(m & Hm & H)]|(m & Hm & H)]; exists m; tauto.
  - intros (m & Hm & [H|[H|[H|[H|H]]]]); eauto 10.
Qed.
End hist.

(** *** meter totals (C18) *)
Section meters.
Context `{NN : Num} {NX : NumExact NN} (E : env) (plugins : list factory).
Notation run es := (y_st (sys_run E plugins es sys_init)).
(** what a meter has been given: reported part and the rest *)
Definition marked (m : meter) : num := nadd (me_count m) (me_value m).
Lemma marked_report m ts : marked (fst (meter_report m ts)) = marked m.
Proof using NX.
  unfold meter_report. destruct (neqb _ _); [reflexivity|]. destruct (pydiv _ _); [|reflexivity].
  unfold marked. cbn. rewrite (nadd_comm _ n0). apply nadd_0_l.
Qed.
Lemma marked_mark m v : marked (meter_mark m v) = nadd (marked m) v.
Proof using NX. unfold marked. cbn. rewrite nadd_assoc. reflexivity. Qed.
Lemma meters_conserved es key : exists l, picks (fun m => meter_sample m key) (lines es) l /\
  match p_meter (run es) !! key with
  | Some m => marked m = nsum l
  | None => l = []
  end.
Proof using NX.
  assert (Hex : forall ls, exists l, picks (fun m => meter_sample m key) ls l).
  { intros ls. destruct (meter_history E plugins ls mp_init key) as (l & Hl & _). eauto. }
  apply (sys_history E plugins (fun a b => marked b = marked a)) with
    (P := fun ls (s : mst) => exists l, picks (fun m => meter_sample m key) ls l /\
            match p_meter s !! key with Some m => marked m = nsum l | None => l = [] end); auto; try congruence.
  - intros m ts. apply marked_report.
  - exists []. split; [constructor|]. cbn. reflexivity.
  - assert (Hsnoc : forall ls l m, picks (fun m => meter_sample m key) ls l ->
      picks (fun m => meter_sample m key) (ls ++ [m]) (l ++ match view (B "m") m key with Some v => [v] | None => [] end)).
    { induction 1 as [|x a ls l Ha _ IH|x ls l Ha _ IH]; cbn [app].
      - destruct (view (B "m") m key) as [v|] eqn:Ev.
        + apply picks_hit; [apply view_iff; exact Ev|constructor].
        + apply picks_miss; [apply view_none; exact Ev|constructor].
      - apply picks_hit; assumption.
      - apply picks_miss; assumption. }
    intros ls m s (l & Hl & H). eexists. split; [apply (Hsnoc ls l m Hl)|]. rewrite meter_one.
    destruct (view (B "m") m key) as [v|]; [|rewrite app_nil_r; exact H].
    rewrite nsum_app. assert (Hv : nsum [v] = v) by (unfold nsum; cbn; apply nadd_0_l). rewrite Hv.
    destruct (p_meter s !! key) as [me|].
    + rewrite marked_mark, H. reflexivity.
    + subst l. rewrite marked_mark. f_equal. unfold meter_new, now. cbn. unfold marked. cbn. apply nadd_0_l.
  - intros ls s s' (l & Hl & H) (_ & _ & _ & _ & F5 & _ & _ & F8). exists l. split; [exact Hl|].
    destruct (p_meter s !! key) as [m|] eqn:Em.
    + destruct (F8 key m Em) as (m' & -> & Hm). congruence.
    + assert (Hn : p_meter s' !! key = None).
      { apply not_elem_of_dom. rewrite F5. apply not_elem_of_dom. exact Em. }
      rewrite Hn. exact H.
Qed.
End meters.
