(** What flushes make of the daemon's own statistics, and the daemon with the configurable
    processor. *)
From Verif Require Import Base StrFacts Num NumFacts Env Stats Glob Metrics Gen GenFacts Processor Configurable
  LineSpec LineFacts FloatFacts ProcFacts ProcSpec ReceiveFacts ReceiveFacts2 ReceiveFacts3
  Sched FlushInv FlushOk SchedFacts HistFacts FlushSpec FlushDerived StepFacts CSched ConfFacts ConfInv ConfDerived LogFacts
  Client Router RouterSpec RouterFacts RouterProps Server ServerSpec FrameFacts ServerFacts
  ClientMetrics ClientServer ReportSpec Daemon DaemonFacts CDaemon Own OwnSpec OwnFacts OwnFacts2.
Open Scope Z_scope.

Lemma picks_sublist {A} (P : str -> A -> Prop) ms l : (forall m a b, P m a -> P m b -> a = b) -> picks P ms l ->
  forall ms' xs, ms' `sublist_of` ms -> Forall2 P ms' xs -> xs `sublist_of` l.
Proof.
  intros Hf. induction 1 as [|m a ms l Ha _ IH|m ms l Ha _ IH]; intros ms' xs Hs Hx.
  - apply sublist_nil_r in Hs as ->. inversion Hx. constructor.
  - inversion Hs as [|? ? ? Hs'|? ? ? Hs']; subst.
    + inversion Hx as [|? x ? xs' H1 H2]; subst. rewrite (Hf _ _ _ Ha H1). apply sublist_skip. eapply IH; eassumption.
    + apply sublist_cons. eapply IH; eassumption.
  - inversion Hs as [|? ? ? Hs'|? ? ? Hs']; subst.
    + inversion Hx as [|? x ? xs' H1 H2]; subst. destruct (Ha _ H1).
    + eapply IH; eassumption.
Qed.
Lemma gauge_fun `{NN : Num} m (a b : num * str) :
  (let '(v, key) := a in gauge_sample m key v) -> (let '(v, key) := b in gauge_sample m key v) -> a = b.
Proof.
  destruct a as [v k], b as [v' k']. intros H H'. apply gauge_of_iff in H, H'. rewrite H in H'. congruence.
Qed.
Lemma sound_samples `{NN : Num} CE l xs : Forall2 (sound_item CE) l xs ->
  Forall2 (fun m '(v, key) => gauge_sample m key v) (map (fun i => gauge_text CE (fst i) (snd i)) l) xs.
Proof.
  induction 1 as [|[q v] [x k] l xs (Hq & Hv & Hk) _ IH]; cbn [map]; constructor; [|exact IH].
  cbn [fst snd] in *. subst k. apply (value_samples q (show CE v) x Hq Hv).
Qed.

Section compliant.
Context `{NN : Num} (E : env) (plugins : list factory) (G : engine).
Notation C := (mp_cls E plugins).
Context (interval percent : Z) (cfg : mon) (max : nat) (closes : bool) (refuses : nat -> dp -> option exn).
Context (config : str) (ls : list lspec) (rs : list (rule G)) (rws : list rule_text) (links : list rlink).
Context (Hb : build_rules G true config [] = (ls, Ok rs)) (Hr : rules_of config rws) (Hl : length links = length ls).
Context (CE : cenv) (ext : bool) (instance : str).
Notation orun := (orun (S := mst) G (process_message E C) (flush E C interval percent) rs cfg max closes refuses CE ext instance).
Notation run := (drun (S := mst) G (process_message E C) (flush E C interval percent) rs cfg max closes refuses).

Lemma mp_gauge_fine k v (s : mst) : snd (c_compose_gauge C k v s) = Ok tt.
Proof. reflexivity. Qed.
Lemma own_resent addrs h l xs i p s' out : 1000 <= interval -> 1000 <= i ->
  reported instance h l -> Forall2 (sound_item CE) l xs -> Forall (fun x => unmatched rws (gauge_text CE (fst x) (snd x))) l ->
  let w := orun (o_new (d_new addrs links mp_init)) h in
  (forall m, In m (d_order (o_daemon w)) -> unmatched rws m) ->
  grun (flush E C i p) (d_proc (o_daemon w)) = (s', out, None) ->
  o_logged w = failures h /\
  exists ts samples before after,
    ntrunc (e_clock E (w_clk (p_w (d_proc (o_daemon w))))) = Ok ts /\
    picks (fun m '(v, key) => gauge_sample m key v) (d_order (o_daemon w)) samples /\
    out = before ++ map (gauge_line ts) samples ++ after /\ xs `sublist_of` samples.
Proof using Hb Hr Hl.
  intros Hi Hi' Hh Hx Hu w Hm Hf.
  destruct (reported_fine E C G (mp_plain E plugins) mp_gauge_fine interval percent cfg max closes refuses config ls rs rws Hb Hr CE ext instance
    (d_new addrs links mp_init) h l Hl Hh) as (es & Haw & Hd & Hlog & _); [split; [eauto|exact Hu]|].
  split; [exact Hlog|]. change (o_daemon w = run (d_new addrs links mp_init) es) in Hd.
  destruct (daemon_refines E plugins G interval percent cfg max closes refuses config ls rs rws Hb Hr addrs links es Hl) as (y & tss & es' & Hs).
  { intros m Hin. apply skipped. apply Hm. rewrite Hd. exact Hin. }
  rewrite <- Hd in Hs. destruct Hs as [H1 _ _ _ _ H6 H7 H8 H9].
  rewrite H1, H6 in Hf. destruct (gauges_flushed E plugins es' i p s' out (H7 Hi) Hi' Hf) as (ts & samples & before & after & A1 & A2 & A3 & _).
  exists ts, samples, before, after. split; [rewrite H1, H6; exact A1|].
  assert (Hp : picks (fun m '(v, key) => gauge_sample m key v) (d_order (o_daemon w)) samples).
  { rewrite H8 in A2. apply (skipped_reads_all G rws _ (d_order (o_daemon w)) tss gauge_reads); [|exact H9|exact A2].
    apply Forall_forall. intros m Hin. apply Hm, elem_of_list_In, Hin. }
  split; [exact Hp|]. split; [exact A3|].
  eapply picks_sublist; [apply gauge_fun|exact Hp| |apply sound_samples, Hx].
  rewrite Hd. destruct (order_run E C G interval percent cfg max closes refuses rs es (d_new addrs links mp_init)) as (x & Hox & Hsub).
  change (d_order (run (d_new addrs links mp_init) es) = x) in Hox. rewrite Hox. etransitivity; [eapply reported_own; eassumption|exact Hsub].
Qed.
End compliant.

Section configurable.
Context `{NN : Num} (E : env) (prefix internal : str) (plugins : list factory) (G : engine).
Notation C := (cp_cls E prefix internal plugins).
Notation cst := (Configurable.cst (NN := NN)).
Context (interval percent : Z) (cfg : mon) (max : nat) (closes : bool) (refuses : nat -> dp -> option exn).
Context (config : str) (ls : list lspec) (rs : list (rule G)) (rws : list rule_text) (links : list rlink).
Context (Hb : build_rules G true config [] = (ls, Ok rs)) (Hr : rules_of config rws) (Hl : length links = length ls).
Notation run := (drun (S := cst) G (process_message E C) (flush E C interval percent) rs cfg max closes refuses).
Notation creached := (creached E prefix internal plugins).
Notation cflush := (cflush E prefix internal plugins).
Notation sent d := (map (fun c => snd (fst c)) (d_calls d)).

(** the processor behind the router, and what was sent, are those of a schedule of CSched.v
    in which the same numbers arrive *)
Lemma conf_refines addrs es : let d := run (d_new addrs links cp_init) es in
  (forall m, In m (d_order d) -> unmatched rws m) ->
  exists es', d_proc d = creached es' /\ sent d = g_out (gsys_run (creceive E prefix internal plugins) cflush es' (gsys_init cp_init)) /\
    forall t key l, picks (ConfFacts.value_line t key) (lines es') l <-> picks (ConfFacts.value_line t key) (d_order d) l.
Proof using Hb Hr Hl.
  intros d Hm. destruct (daemon_gsim E C G interval percent cfg max closes refuses config ls rs rws Hb Hr cp_init addrs links es Hl) as (y & tss & es' & Hs).
  { intros m Hin. apply skipped. apply Hm. exact Hin. }
  destruct Hs as [H1 _ H3 _ H5 H6 H7]. exists es'. split; [exact (eq_trans H1 (f_equal g_st H5))|]. split; [exact (eq_trans H3 (f_equal g_out H5))|].
  intros t key l. rewrite H6. apply (skipped_reads_all G rws); [apply value_reads| |exact H7].
  apply Forall_forall. intros m Hin. apply Hm, elem_of_list_In, Hin.
Qed.
Lemma conf_last es' ms t key v : (forall l, picks (ConfFacts.value_line t key) (lines es') l <-> picks (ConfFacts.value_line t key) ms l) ->
  last_value t key (lines es') v <-> last_value t key ms v.
Proof. intros H. split; intros (vs & Hp & Hv); exists vs; (split; [apply H, Hp|exact Hv]). Qed.

Lemma conf_counters addrs es i p s' out o ts : let d := run (d_new addrs links cp_init) es in
  (forall m, In m (d_order d) -> unmatched rws m) ->
  ntrunc (e_clock E (w_clk (p_w (d_proc d)))) = Ok ts ->
  (forall key v, last_value (B "c") key (d_order d) v -> exists z, ntrunc v = Ok z) ->
  grun (cflush i p) (d_proc d) = (s', out, o) ->
  exists zs rest, NoDup (zs.*1) /\
    (forall key z, (key, z) ∈ zs <-> exists v, last_value (B "c") key (d_order d) v /\ ntrunc v = Ok z) /\
    out = map (fun '(k, z) => DP (under prefix k ++ B ".count") (VI z) ts) zs ++ rest.
Proof using Hb Hr Hl.
  intros d Hm Ht Hc Hf. destruct (conf_refines addrs es Hm) as (es' & Hd & _ & Hp). fold d in Hd, Hp. rewrite Hd in *.
  destruct (counters_reported E prefix internal plugins es' i p s' out o ts Ht) as (zs & rest & H1 & H2 & H3).
  - intros key v Hv. apply (Hc key v). apply (conf_last es' (d_order d)); auto.
  - exact Hf.
  - exists zs, rest. split; [exact H1|]. split; [|exact H3]. intros key z. rewrite H2.
    split; intros (v & Hv & Hz); exists v; (split; [|exact Hz]); apply (conf_last es' (d_order d)); auto.
Qed.
Lemma conf_gauges addrs es i p s' out : let d := run (d_new addrs links cp_init) es in
  (forall m, In m (d_order d) -> unmatched rws m) ->
  grun (cflush i p) (d_proc d) = (s', out, None) ->
  exists ts before vs after,
    ntrunc (e_clock E (w_clk (p_w (d_proc d)))) = Ok ts /\
    out = before ++ map (fun '(k, v) => DP (under prefix k ++ B ".value") (VF v) ts) vs ++ after /\
    NoDup (vs.*1) /\ (forall key v, (key, v) ∈ vs <-> last_value (B "g") key (d_order d) v).
Proof using Hb Hr Hl.
  intros d Hm Hf. destruct (conf_refines addrs es Hm) as (es' & Hd & _ & Hp). fold d in Hd, Hp. rewrite Hd in *.
  destruct (gauges_reported E prefix internal plugins es' i p s' out Hf) as (ts & before & vs & after & H1 & H2 & H3 & H4).
  exists ts, before, vs, after. split; [exact H1|]. split; [exact H2|]. split; [exact H3|].
  intros key v. rewrite H4. apply (conf_last es' (d_order d)). intros l. apply Hp.
Qed.
Lemma conf_bad_counter addrs es i p ts key v e : let d := run (d_new addrs links cp_init) es in
  (forall m, In m (d_order d) -> unmatched rws m) ->
  ntrunc (e_clock E (w_clk (p_w (d_proc d)))) = Ok ts ->
  last_value (B "c") key (d_order d) v -> ntrunc v = Exn e ->
  exists (s' : cst) (zs : list (str * Z)) (e' : exn), grun (cflush i p) (d_proc d) =
      (s', map (fun '(k, z) => DP (under prefix k ++ B ".count") (VI z) ts) zs, Some e') /\
    forall k z, (k, z) ∈ zs -> exists x, last_value (B "c") k (d_order d) x /\ ntrunc x = Ok z.
Proof using Hb Hr Hl.
  intros d Hm Ht Hv He. destruct (conf_refines addrs es Hm) as (es' & Hd & _ & Hp). fold d in Hd, Hp. rewrite Hd in *.
  destruct (bad_counter E prefix internal plugins es' i p ts key v e Ht) as (w & zs & k' & v' & e' & H1 & _ & _ & _ & H2).
  - apply (conf_last es' (d_order d)); auto.
  - exact He.
  - do 3 eexists. split; [exact H1|]. intros k z Hz. destruct (H2 k z Hz) as (x & Hx & Hz'). exists x. split; [|exact Hz'].
    apply (conf_last es' (d_order d)); auto.
Qed.
Lemma conf_names addrs es : let d := run (d_new addrs links cp_init) es in
  (forall m, In m (d_order d) -> unmatched rws m) ->
  Forall (fun x => conf_name prefix (internal_prefix prefix internal) (known plugins) (dp_name x)) (sent d).
Proof using Hb Hr Hl.
  intros d Hm. destruct (conf_refines addrs es Hm) as (es' & _ & Ho & _). fold d in Ho. rewrite Ho. apply cnames.
Qed.

Context (CE : cenv) (ext : bool) (instance : str).
Notation orun := (orun (S := cst) G (process_message E C) (flush E C interval percent) rs cfg max closes refuses CE ext instance).
Lemma cp_gauge_fine k v (s : cst) : snd (c_compose_gauge C k v s) = Ok tt.
Proof. reflexivity. Qed.
Lemma own_kept addrs h l xs :
  reported instance h l -> Forall2 (sound_item CE) l xs -> Forall (fun x => unmatched rws (gauge_text CE (fst x) (snd x))) l ->
  let w := orun (o_new (d_new addrs links cp_init)) h in
  o_logged w = failures h /\ map (fun i => gauge_text CE (fst i) (snd i)) l `sublist_of` d_order (o_daemon w) /\
  (exists es, o_daemon w = run (d_new addrs links cp_init) es) /\
  forall x key, (x, key) ∈ xs -> exists v, last_value (B "g") key (d_order (o_daemon w)) v.
Proof using Hb Hr Hl.
  intros Hh Hx Hu w.
  destruct (reported_fine E C G (cp_plain E prefix internal plugins) cp_gauge_fine interval percent cfg max closes refuses config ls rs rws Hb Hr CE ext instance
    (d_new addrs links cp_init) h l Hl Hh) as (es & Haw & Hd & Hlog & _); [split; [eauto|exact Hu]|].
  split; [exact Hlog|]. change (o_daemon w = run (d_new addrs links cp_init) es) in Hd.
  assert (Hsub : map (fun i => gauge_text CE (fst i) (snd i)) l `sublist_of` d_order (o_daemon w)).
  { rewrite Hd. destruct (order_run E C G interval percent cfg max closes refuses rs es (d_new addrs links cp_init)) as (x & Hox & Hsub).
    change (d_order (run (d_new addrs links cp_init) es) = x) in Hox. rewrite Hox. etransitivity; [eapply reported_own; eassumption|exact Hsub]. }
  split; [exact Hsub|]. split; [exists es; exact Hd|].
  intros x key Hin. apply sound_samples in Hx. pose proof (picks_view (B "g") key (d_order (o_daemon w))) as Hp.
  destruct (last (omap (fun m => view (B "g") m key) (d_order (o_daemon w)))) as [v|] eqn:El; [exists v; eexists; split; [exact Hp|exact El]|].
  exfalso. apply last_None in El. rewrite El in Hp.
  apply elem_of_list_lookup in Hin as [j Hj]. destruct (Forall2_lookup_r _ _ _ _ _ Hx Hj) as (m & Hm & Hs).
  assert (Hin : m ∈ d_order (o_daemon w)) by (eapply elem_of_submseteq; [eapply elem_of_list_lookup_2, Hm|apply sublist_submseteq, Hsub]).
  apply view_iff in Hs.
  assert (x ∈ omap (fun m => view (B "g") m key) (d_order (o_daemon w))) by (apply elem_of_list_omap; eauto).
  rewrite El in H. inversion H.
Qed.
Lemma own_latest addrs h l xs i p s' out :
  reported instance h l -> Forall2 (sound_item CE) l xs -> Forall (fun x => unmatched rws (gauge_text CE (fst x) (snd x))) l ->
  let w := orun (o_new (d_new addrs links cp_init)) h in
  (forall m, In m (d_order (o_daemon w)) -> unmatched rws m) ->
  grun (cflush i p) (d_proc (o_daemon w)) = (s', out, None) ->
  exists ts before vs after,
    out = before ++ map (fun '(k, v) => DP (under prefix k ++ B ".value") (VF v) ts) vs ++ after /\
    NoDup (vs.*1) /\ (forall key v, (key, v) ∈ vs <-> last_value (B "g") key (d_order (o_daemon w)) v) /\
    forall x key, (x, key) ∈ xs -> exists v, (key, v) ∈ vs.
Proof using Hb Hr Hl.
  intros Hh Hx Hu w Hm Hf. destruct (own_kept addrs h l xs Hh Hx Hu) as (_ & _ & (es & Hd) & Hlast).
  fold w in Hd, Hlast. rewrite Hd in *. destruct (conf_gauges addrs es i p s' out Hm Hf) as (ts & before & vs & after & _ & H2 & H3 & H4).
  exists ts, before, vs, after. split; [exact H2|]. split; [exact H3|]. split; [exact H4|].
  intros x key Hin. destruct (Hlast x key Hin) as [v Hv]. exists v. apply H4, Hv.
Qed.
Lemma own_listing addrs h l xs x key :
  reported instance h l -> Forall2 (sound_item CE) l xs -> Forall (fun x => unmatched rws (gauge_text CE (fst x) (snd x))) l ->
  let w := orun (o_new (d_new addrs links cp_init)) h in
  (forall m, In m (d_order (o_daemon w)) -> unmatched rws m) ->
  (x, key) ∈ xs -> length key <> 2%nat ->
  cp_metric_names (d_proc (o_daemon w)) = Exn ValueError.
Proof using Hb Hr Hl.
  intros Hh Hx Hu w Hm Hin Hk. destruct (own_kept addrs h l xs Hh Hx Hu) as (_ & _ & (es & Hd) & Hlast).
  fold w in Hd, Hlast. rewrite Hd in *. destruct (conf_refines addrs es Hm) as (es' & Hp & _ & Hl').
  destruct (Hlast x key Hin) as [v Hv]. refine (eq_trans (f_equal cp_metric_names Hp) _). eapply names_raise; [|exact Hk].
  apply (conf_last es' (d_order (run (d_new addrs links cp_init) es))); [intros l0; apply Hl'|exact Hv].
Qed.
End configurable.
