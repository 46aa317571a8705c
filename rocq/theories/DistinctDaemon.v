(** The items of a distinct-count metric: every schedule, what the estimates depend on, the whole
    daemon, the service of a command line. *)
From Coq Require Qcanon.
From Verif Require Import Base StrFacts Num NumFacts Env Stats Glob Metrics Gen GenFacts Processor
  LineSpec LineFacts FloatFacts ProcFacts ProcSpec ReceiveFacts ReceiveFacts2 ReceiveFacts3 PlugFacts
  Sched FlushInv FlushOk SchedFacts FlushSpec HistFacts DistinctFacts OrderFacts DistinctMore
  Client RouterSpec Router RouterFacts RouterProps Server ServerSpec ServerFacts Service ServiceSpec ServiceFacts
  ClientMetrics Daemon DaemonFacts Own OwnSpec OwnFacts Assembly AssemblySpec AssemblyFacts Entire DoubleDaemon TimerSched TimerDaemon DistinctSched.
Open Scope Z_scope.

(** ** What the theorems speak about *)
Section spec.
Context `{NN : Num}.
(** the story of a metric for which the lines [ms] were received: each item kept is that of a line,
    at a reading of the clock of its own; [stored] holds all of them; what was sent consists of
    the reports, four estimates each about the items that came before the reading of the clock
    the report was made at, and of datapoints that are not the metric's *)
Definition distinct_story (E : env) (K : str -> Prop) (key : str) (ms : list str) (stored : option plug) (all : list dp) : Prop :=
  exists w hist reports rest,
    let d0 := empty_counter E w in
    picks (fun m => distinct_item m key) ms (map snd hist) /\ StronglySorted lt (map fst hist) /\
    stored = match hist with [] => None | _ => Some (PDist (DMetric key (B "stats.pdistinct.") (adds (at_times E hist) d0))) end /\
    all ≡ₚ concat (map snd reports) ++ rest /\ Forall (not_distincts K key) rest /\
    Forall (fun r : nat * Z * list dp => let '(i, ts, l) := r in four_estimates key d0 (at_times E (before i hist)) (e_clock E i) ts l) reports.
Definition never_sli (key : str) (ms : list str) : Prop := forall m fields, In m ms -> ~ typed_line m (B "sli") key fields.
End spec.

Section any.
Context `{NN : Num}.
Lemma table_distinct (plugins : list factory) : In FDistinct plugins -> plugin_table plugins !! B "pd" = Some FDistinct.
Proof.
  unfold plugin_table. assert (H : forall m : gmap str factory, In FDistinct plugins \/ m !! B "pd" = Some FDistinct ->
    fold_left (fun m f => <[factory_type f := f]> m) plugins m !! B "pd" = Some FDistinct); [|auto].
  induction plugins as [|f l IH]; intros m Hm; [destruct Hm as [[]|Hm]; exact Hm|]. cbn [fold_left]. apply IH.
  destruct Hm as [[->|Hm]|Hm]; [right; apply lookup_insert|left; exact Hm|]. right.
  destruct f; [rewrite lookup_insert_ne by (intros Hx; discriminate Hx); exact Hm|apply lookup_insert].
Qed.
Lemma distincts_schedule (E : env) plugins key es : In FDistinct plugins -> never_sli key (lines es) ->
  let y := sys_run E plugins es sys_init in
  distinct_story E (counted (lines es)) key (lines es) (p_plug (y_st y) !! key) (y_out y ++ flat_map pending (y_live y ++ y_gone y)).
Proof.
  intros Hf Hs y. destruct (distincts_kept E plugins (counted (lines es)) key (table_distinct plugins Hf) es) as (_ & _ & w & hist & rs & rest & [H1 H2 H3 H4 H5 H6 H7 H8 H9]).
  { apply Forall_forall. intros e He. apply elem_of_list_In in He. destruct e as [m|j p|j|j]; cbn; try exact I. split.
    - intros c fields Ht. exists m, fields. split; [apply in_lines, He|exact Ht].
    - intros fields Ht. eapply Hs; [apply in_lines, He|exact Ht]. }
  unfold metric, estimates_of, everything, sent in H4, H5, H7. fold y in H4, H5. exists w, hist, rs, rest. cbv zeta. split; [exact H1|]. split; [exact H2|]. split; [exact H4|]. split; [exact H5|]. split; [exact H6|].
  eapply Forall_impl; [exact H7|]. intros [[i ts] l] Hx. exact Hx.
Qed.

(** the items before a reading are a prefix *)
Lemma before_prefix i hist : StronglySorted lt (map fst hist) -> exists after, hist = before i hist ++ after.
Proof.
  induction hist as [|x hist IH]; intros H; [exists []; reflexivity|]. cbn [map] in H. apply StronglySorted_inv in H as [H1 H2].
  destruct (IH H1) as [after Ha]. unfold before in *. cbn [List.filter]. destruct (fst x <? i)%nat eqn:Ex.
  - exists after. cbn [app]. rewrite <- Ha. reflexivity.
  - assert (Hn : List.filter (fun x => (fst x <? i)%nat) hist = []).
    { apply Nat.ltb_ge in Ex. rewrite Forall_map in H2. clear - Ex H2. induction H2 as [|y hist Hy _ IH]; [reflexivity|]. cbn [List.filter].
      destruct (fst y <? i)%nat eqn:Ey; [apply Nat.ltb_lt in Ey; lia|exact IH]. }
    rewrite Hn. exists (x :: hist). reflexivity.
Qed.
(** one datapoint: the estimate is that of the items received up to some moment, at times the
    clock gave *)
Lemma distinct_point (E : env) plugins key es received d : In FDistinct plugins -> never_sli key (lines es) ->
  picks (fun m => distinct_item m key) (lines es) received -> ~ counted (lines es) (B "pdistinct." ++ key ++ B ".count") ->
  In d (y_out (sys_run E plugins es sys_init)) -> dp_name d = B "stats.pdistinct." ++ key ++ B ".count" ->
  exists w items after times c, received = items ++ after /\ length times = length items /\ StronglySorted lt times /\
    distinct_count (adds (combine (map (e_clock E) times) items) (empty_counter E w)) n0 = Ok c /\ dp_value d = VI c.
Proof.
  intros Hf Hs Hp Hn Hd Hname. destruct (distincts_schedule E plugins key es Hf Hs) as (w & hist & rs & rest & H1 & H2 & _ & H4 & H5 & H6).
  assert (Hr : received = map snd hist).
  { refine (picks_unique _ _ (lines es) _ _ Hp H1). intros m a b [f1 Ha] [f2 Hb]. destruct (typed_line_fun _ _ _ _ _ _ _ Ha Hb) as (_ & _ & Hx). congruence. }
  assert (Hin : In d (concat (map snd rs) ++ rest)) by (eapply Permutation_in; [exact H4|]; apply in_or_app; left; exact Hd).
  apply in_app_or in Hin. destruct Hin as [Hin|Hin].
  - apply in_concat in Hin as (l & Hl & Hd'). apply in_map_iff in Hl as ([[i ts] l'] & <- & Hi). cbn [snd] in Hd'.
    rewrite Forall_forall in H6. apply elem_of_list_In, H6 in Hi. destruct Hi as (c & da & ho & mi & Hc & _ & _ & _ & ->).
    destruct (before_prefix i hist H2) as [after Ha].
    exists w, (map snd (before i hist)), (map snd after), (map fst (before i hist)), c.
    split; [rewrite <- map_app, <- Ha; exact Hr|]. split; [rewrite !map_length; reflexivity|].
    split.
    { rewrite Ha, map_app in H2. clear - H2. induction (map fst (before i hist)) as [|x l IH]; [constructor|]. cbn [app] in H2.
      apply StronglySorted_inv in H2 as [G1 G2]. apply Forall_app in G2 as [G2 _]. constructor; auto. }
    assert (Hat : at_times E (before i hist) = combine (map (e_clock E) (map fst (before i hist))) (map snd (before i hist))).
    { unfold at_times. clear. induction (before i hist) as [|[a b] l IH]; [reflexivity|]. cbn. rewrite IH. reflexivity. }
    rewrite <- Hat. split; [exact Hc|]. destruct Hd' as [<-|[<-|[<-|[<-|[]]]]]; [reflexivity|exfalso..];
      cbn [dp_name] in Hname; do 2 apply app_inv_head in Hname; discriminate Hname.
  - rewrite Forall_forall in H5. apply elem_of_list_In, H5 in Hin. exfalso. destruct Hin as [Hx|(c & v & ts & Hc & ->)].
    + apply Hx. exists (B ".count"). split; [left; reflexivity|exact Hname].
    + apply Hn. cbn [dp_name] in Hname. change (B "stats.pdistinct.") with (B "stats." ++ B "pdistinct.") in Hname. rewrite <- app_assoc in Hname. apply app_inv_head in Hname. subst c. exact Hc.
Qed.

(** the estimate of all items grows from report to report, and depends on the set of items only *)
Lemma before_in i hist x : x ∈ before i hist <-> x ∈ hist /\ (fst x < i)%nat.
Proof. rewrite !elem_of_list_In. unfold before. rewrite filter_In, Nat.ltb_lt. tauto. Qed.
Lemma at_times_in (E : env) hist t item : (t, item) ∈ at_times E hist <-> exists i, (i, item) ∈ hist /\ t = e_clock E i.
Proof.
  unfold at_times. rewrite elem_of_list_fmap. split.
  - intros ([i x] & [= -> ->] & H). exists i. auto.
  - intros (i & H & ->). exists (i, item). auto.
Qed.
Lemma at_order (E : env) hist : (forall a b, (a <= b)%nat -> nleb (e_clock E a) (e_clock E b) = true) ->
  StronglySorted lt (map fst hist) -> in_order (at_times E hist).
Proof.
  intros Hc. unfold in_order, at_times. induction hist as [|x hist IH]; intros H; [constructor|]. cbn [map] in *. apply StronglySorted_inv in H as [H1 H2].
  constructor; [exact (IH H1)|]. rewrite Forall_map in H2 |- *. eapply Forall_impl; [exact H2|]. cbn. intros y Hy. apply Hc. lia.
Qed.
Lemma before_sorted i hist : StronglySorted lt (map fst hist) -> StronglySorted lt (map fst (before i hist)).
Proof.
  intros H. destruct (before_prefix i hist H) as [after Ha]. rewrite Ha, map_app in H. clear Ha. induction (map fst (before i hist)) as [|x l IH]; [constructor|].
  cbn [app] in H. apply StronglySorted_inv in H as [G1 G2]. apply Forall_app in G2 as [G2 _]. constructor; auto.
Qed.
End any.

Section grows.
Context `{NN : Num} {NL : NumLe NN}.
Lemma empty_monotone (E : env) w (h1 h2 : list (num * str)) : in_order h1 -> in_order h2 ->
  (forall item, in_window n0 h1 item -> in_window n0 h2 item) ->
  exists c1 c2, distinct_count (adds h1 (empty_counter E w)) n0 = Ok c1 /\ distinct_count (adds h2 (empty_counter E w)) n0 = Ok c2 /\ 1 <= c1 <= c2.
Proof.
  intros H1 H2 H3. pose proof (estimate_monotone E 32 32 w h1 h2 n0 n0) as X. cbv zeta in X. unfold empty_counter.
  apply X; try assumption; try apply le_zero; lia.
Qed.
Lemma empty_set (E : env) w (h1 h2 : list (num * str)) : in_order h1 -> in_order h2 ->
  (forall item, in_window n0 h1 item <-> in_window n0 h2 item) ->
  distinct_count (adds h1 (empty_counter E w)) n0 = distinct_count (adds h2 (empty_counter E w)) n0.
Proof.
  intros H1 H2 H3. pose proof (estimate_of_set E 32 32 w h1 h2 n0 n0) as X. cbv zeta in X. unfold empty_counter.
  apply X; try assumption; try apply le_zero; lia.
Qed.
Lemma counts_grow (E : env) w hist i j ts ts' l l' key : (forall a b, (a <= b)%nat -> nleb (e_clock E a) (e_clock E b) = true) ->
  (forall a, nleb (e_clock E a) n0 = false) -> StronglySorted lt (map fst hist) -> (i <= j)%nat ->
  let d0 := empty_counter E w in
  four_estimates key d0 (at_times E (before i hist)) (e_clock E i) ts l -> four_estimates key d0 (at_times E (before j hist)) (e_clock E j) ts' l' ->
  exists c c' more more', l = DP (B "stats.pdistinct." ++ key ++ B ".count") (VI c) ts :: more /\
    l' = DP (B "stats.pdistinct." ++ key ++ B ".count") (VI c') ts' :: more' /\ 1 <= c <= c' /\
    ((forall item, In item (map snd (before j hist)) -> In item (map snd (before i hist))) -> c = c').
Proof.
  intros Hc Hpos Hsort Hij d0 (a & da & ho & mi & Ha & _ & _ & _ & ->) (b & db & hb & mb & Hb & _ & _ & _ & ->).
  assert (Oi : in_order (at_times E (before i hist))) by (apply at_order; [exact Hc|apply before_sorted, Hsort]).
  assert (Oj : in_order (at_times E (before j hist))) by (apply at_order; [exact Hc|apply before_sorted, Hsort]).
  assert (Hw : forall item, in_window n0 (at_times E (before i hist)) item -> in_window n0 (at_times E (before j hist)) item).
  { intros item (t & Ht & Hp). exists t. split; [|exact Hp]. apply at_times_in in Ht as (k & Hk & ->). apply at_times_in. exists k. split; [|reflexivity].
    apply before_in in Hk as [Hk Hlt]. apply before_in. cbn [fst] in *. split; [exact Hk|lia]. }
  exists a, b. do 2 eexists. split; [reflexivity|]. split; [reflexivity|]. split.
  - destruct (empty_monotone E w (at_times E (before i hist)) (at_times E (before j hist)) Oi Oj Hw) as (c1 & c2 & E1 & E2 & H).
    fold d0 in E1, E2. rewrite Ha in E1. rewrite Hb in E2. injection E1 as ->. injection E2 as ->. exact H.
  - intros Hset. assert (He : distinct_count (adds (at_times E (before i hist)) d0) n0 = distinct_count (adds (at_times E (before j hist)) d0) n0); [|congruence].
    apply (empty_set E w); [exact Oi|exact Oj|]. intros item. split; [apply Hw|]. intros (t & Ht & Hp).
    apply at_times_in in Ht as (k & Hk & ->).
    assert (Hin : In item (map snd (before i hist))) by (apply Hset, in_map_iff; exists (k, item); split; [reflexivity|apply elem_of_list_In, Hk]).
    apply in_map_iff in Hin as ([k' item'] & Hx & Hin). cbn in Hx. subst item'. exists (e_clock E k'). split; [|apply Hpos].
    apply at_times_in. exists k'. split; [apply elem_of_list_In, Hin|reflexivity].
Qed.
End grows.

Section any2.
Context `{NN : Num}.
Section daemon.
Context (E : env) (plugins : list factory) (G : engine) (interval percent : Z) (cfg : mon) (max : nat) (refuses : nat -> dp -> option exn).
Context (config : str) (ls : list lspec) (rs : list (rule G)) (rws : list rule_text) (links : list rlink).
Context (Hb : build_rules G true config [] = (ls, Ok rs)) (Hr : rules_of config rws) (Hl : length links = length ls).
Notation C := (mp_cls E plugins).
Notation run := (drun (S := mst) G (process_message E C) (flush E C interval percent) rs cfg max false refuses).
Notation outgoing d := (map (fun c => snd (fst c)) (d_calls d)).

(** with routing rules, as long as what they make of each line can be written as lines *)
Lemma daemon_distincts addrs es out key : In FDistinct plugins ->
  arrivals max (map (fun a => (a, [])) addrs) (nets es) out ->
  (forall m, In m (metrics_in cfg out ++ own es) -> exists ts, delivers G rws m ts) ->
  let d := run (d_new addrs links mp_init) es in
  exists handled tss,
    handled ++ v_pending (d_srv d) ≡ₚ metrics_in cfg out ++ own es /\ Forall2 (delivers G rws) handled tss /\
    (never_sli key (concat tss) ->
     distinct_story E (counted (concat tss)) key (concat tss) (p_plug (d_proc d) !! key) (outgoing d ++ flat_map pending (map snd (d_live d) ++ d_gone d))).
Proof using Hb Hl Hr.
  intros Hf Ha Hdel d.
  destruct (daemon_network G (process_message E C) (flush E C interval percent) rs cfg max refuses addrs links mp_init es out Ha) as [_ Hpm].
  cbv zeta in Hpm. change (drun G _ _ rs cfg max false refuses _ es) with d in Hpm.
  destruct (daemon_refines E plugins G interval percent cfg max false refuses config ls rs rws Hb Hr addrs links es Hl) as (y & tss & evs & Hs).
  { intros m Hin. apply Hdel. eapply Permutation_in; [exact Hpm|]. apply in_or_app. left. exact Hin. }
  fold d in Hs. destruct Hs as [H1 H2 H3 H4 H5 H6 H7 H8 H9 H10].
  exists (d_order d), tss. split; [exact Hpm|]. split; [exact H9|]. rewrite <- H8. intros Hn.
  pose proof (distincts_schedule E plugins key evs Hf Hn) as Hst. cbv zeta in Hst. rewrite <- H6 in Hst. rewrite H2, H3, H1, H4. exact Hst.
Qed.
End daemon.

(** lines no rule matches *)
Lemma items_same G rws key ms tss : Forall (unmatched rws) ms -> Forall2 (delivers G rws) ms tss ->
  forall l, picks (fun m => distinct_item m key) (concat tss) l -> picks (fun m => distinct_item m key) ms l.
Proof.
  intros Hu H. induction H as [|m ts ms tss Hd _ IH]; [auto|].
  apply Forall_cons in Hu as [Hm Hu]. specialize (IH Hu). cbn [concat].
  destruct (same_typed G rws m ts Hm Hd) as [[-> Hn]|(m' & -> & Hs)]; cbn [app].
  - intros l Hl. apply picks_miss; [|auto]. intros a (fs & Ht). exact (Hn _ _ _ Ht).
  - intros l Hl. inversion Hl as [|? a ? l' Ha Hl'|? ? ? Hn Hl']; subst.
    + apply picks_hit; [|auto]. destruct Ha as (fs & Ht). exists fs. apply Hs, Ht.
    + apply picks_miss; [|auto]. intros a (fs & Ht). apply (Hn a). exists fs. apply Hs, Ht.
Qed.
Lemma sli_same G rws key ms tss : Forall (unmatched rws) ms -> Forall2 (delivers G rws) ms tss -> never_sli key ms -> never_sli key (concat tss).
Proof.
  intros Hu H Hn m fields Hin Ht. revert Hu Hn. induction H as [|m0 ts ms tss Hd _ IH]; intros Hu Hn; [destruct Hin|].
  apply Forall_cons in Hu as [Hm Hu]. cbn [concat] in Hin. apply in_app_or in Hin. destruct Hin as [Hin|Hin].
  - destruct (same_typed G rws m0 ts Hm Hd) as [[-> _]|(m' & -> & Hs)]; [destruct Hin|]. destruct Hin as [->|[]].
    apply (Hn m0 fields); [left; reflexivity|]. apply Hs, Ht.
  - apply IH; auto. intros m1 f1 Hi1. apply Hn. right. exact Hi1.
Qed.

Lemma service_distincts (E : env) plugins G files args node a is_ip max closes refuses CE addrs h out key : In FDistinct plugins ->
  well_formed files -> described G files args node a -> value_of files args (B "routing") (OS []) ->
  addrs = [] \/ closes = false ->
  arrivals max (map (fun a => (a, [])) addrs) (heard h) out ->
  let C := mp_cls E plugins in
  let d := o_daemon (service_run (S := mst) G (process_message E C) (flush E C) mp_init a max closes refuses CE is_ip addrs h) in
  exists es, written CE (a_instance _ a) h es /\
    (never_sli key (metrics_in (a_mon _ a) out ++ own es) ->
     exists handled, handled ++ v_pending (d_srv d) ≡ₚ metrics_in (a_mon _ a) out ++ own es /\
       distinct_story E (counted (metrics_in (a_mon _ a) out ++ own es)) key handled (p_plug (d_proc d) !! key)
         (map (fun c => snd (fst c)) (d_calls d) ++ flat_map pending (map snd (d_live d) ++ d_gone d))).
Proof.
  intros Hf Hw D Hro Hc Ha C d. destruct (ds_routing _ _ _ _ _ D) as (text & Ht & Hb).
  assert (text = []) as ->. { pose proof (value_fun files args Hw _ _ _ Hro Ht). congruence. }
  destruct (written_history G (process_message E C) (flush E C (a_flush _ a) 90) (a_rules _ a) (a_mon _ a) max closes refuses CE (a_ext _ a) (a_instance _ a)
    (d_new addrs (service_links G is_ip a) mp_init) h) as (es & Hes & Hd).
  assert (Hd' : d = drun (S := mst) G (process_message E C) (flush E C (a_flush _ a) 90) (a_rules _ a) (a_mon _ a) max false refuses
    (d_new addrs (service_links G is_ip a) mp_init) es).
  { refine (eq_trans Hd _). destruct Hc as [->| ->]; [|reflexivity]. apply udp_run. reflexivity. }
  rewrite <- (written_nets _ _ _ _ Hes) in Ha.
  exists es. split; [exact Hes|]. intros Hsli.
  assert (Hun : forall m, unmatched [] m) by (intros m t k fs _; constructor).
  destruct (daemon_distincts E plugins G (a_flush _ a) 90 (a_mon _ a) max refuses [] (a_links _ a) (a_rules _ a) [] (service_links G is_ip a)
    Hb ltac:(apply rules_by; reflexivity) ltac:(apply map_length) addrs es out key Hf Ha) as (handled & tss & M1 & M2 & M3).
  { intros m _. apply skipped, Hun. }
  cbv zeta in *. unfold C in Hd'. rewrite <- Hd' in M1, M3.
  assert (Hfa : Forall (unmatched []) handled) by (apply Forall_forall; intros m _; apply Hun).
  assert (Hsub : forall m, In m handled -> In m (metrics_in (a_mon _ a) out ++ own es)).
  { intros m Hm. eapply Permutation_in; [exact M1|]. apply in_or_app. left. exact Hm. }
  exists handled. split; [exact M1|].
  destruct M3 as (w & hist & rs & rest & K1 & K2 & K3 & K4 & K5 & K6).
  { eapply sli_same; [exact Hfa|exact M2|]. intros m fields Hm. apply Hsli, Hsub, Hm. }
  exists w, hist, rs, rest. cbv zeta. split; [eapply items_same; eassumption|]. split; [exact K2|]. split; [exact K3|]. split; [exact K4|]. split; [|exact K6].
  eapply Forall_impl; [exact K5|]. intros x [Hx|(c & v & ts & Hc' & Hx)]; [left; exact Hx|]. right. exists c, v, ts. split; [|exact Hx].
  eapply counted_mono; [exact Hsub|]. eapply (samples_same G [] key handled tss Hfa M2), Hc'.
Qed.
End any2.
