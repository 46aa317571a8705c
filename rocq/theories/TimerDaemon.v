(** The durations of a timer: the statistics reported, the whole daemon, the service of a command line. *)
From Coq Require Qcanon.
From Verif Require Import Base StrFacts Num NumFacts Env Stats Glob Metrics Gen GenFacts Processor
  LineSpec LineFacts FloatFacts ProcFacts ProcSpec ReceiveFacts ReceiveFacts2 ReceiveFacts3 PlugFacts
  Sched FlushInv FlushOk SchedFacts TimerFacts XQFacts FlushSpec FlushXQ
  Client RouterSpec Router RouterFacts RouterProps Server ServerSpec ServerFacts Service ServiceSpec ServiceFacts
  ClientMetrics Daemon DaemonFacts Own OwnSpec OwnFacts Assembly AssemblySpec AssemblyFacts Entire DoubleDaemon TimerSched.
Open Scope Z_scope.

(** the sum of the counts reported for a timer *)
Definition count_of `{NN : Num} (key : str) (d : dp) : Z :=
  if str_eqb (dp_name d) (B "stats.timers." ++ key ++ B ".count") then match dp_value d with VI n => n | VF _ => 0 end else 0.
Definition counts_of `{NN : Num} (key : str) (l : list dp) : Z := fold_right (fun d n => count_of key d + n) 0 l.
(** each batch of durations and its five datapoints *)
Definition reports `{NN : Num} (P : Z -> Prop) (key : str) (b : list num) (l : list dp) : Prop :=
  b <> [] /\ exists p ts, P p /\ timer_lines p ts (key, b) l.

Section any.
Context `{NN : Num} (E : env) (plugins : list factory).
Lemma sample_fun m key (a b : num) : timer_sample m key a -> timer_sample m key b -> a = b.
Proof using Type. intros H1 H2. apply view_iff in H1, H2. congruence. Qed.
Lemma samples_exist key ms : exists l : list num, picks (fun m => timer_sample m key) ms l.
Proof using E plugins. destruct (timer_history E plugins ms mp_init key) as (l & Hl & _). eauto. Qed.
Lemma in_lines es m : In m (lines es) <-> In (Recv m) es.
Proof using Type.
  unfold lines. rewrite in_flat_map. split.
  - intros (e & He & Hm). destruct e; try (destruct Hm; fail). destruct Hm as [<-|[]]. exact He.
  - intros H. exists (Recv m). split; [exact H|left; reflexivity].
Qed.
(** every arithmetic, and schedules in which flushes fail *)
Lemma timers_any key es received : picks (fun m => timer_sample m key) (lines es) received ->
  let y := sys_run E plugins es sys_init in
  exists batches groups rest,
    received = concat batches ++ default [] (p_timer (y_st y) !! key) /\ Forall (fun b => b <> []) batches /\
    Forall2 (fate key (begun_with es) (y_exn y)) batches groups /\
    y_out y ++ flat_map pending (y_live y ++ y_gone y) ≡ₚ concat groups ++ rest /\
    Forall (alien (counted (lines es)) key) rest.
Proof using Type.
  intros Hp y.
  destruct (timers_cut E plugins (counted (lines es)) key (begun_with es) es) as (_ & _ & bs & gs & rest & [H1 H2 H3 H4 H5]).
  { apply Forall_forall. intros e He. apply elem_of_list_In in He. destruct e as [m|i p|i|i]; cbn; try exact I.
    - intros c fields Ht. exists m, fields. split; [apply in_lines, He|exact Ht].
    - exists i. exact He. }
  exists bs, gs, rest. split; [|auto].
  exact (picks_unique _ (fun m => sample_fun m key) (lines es) _ _ Hp H1).
Qed.
Lemma counts_app key l k : counts_of key (l ++ k) = counts_of key l + counts_of key k.
Proof using Type. unfold counts_of. induction l as [|d l IH]; cbn [app fold_right]; [lia|]. rewrite IH. lia. Qed.
Lemma counts_perm key l k : l ≡ₚ k -> counts_of key l = counts_of key k.
Proof using Type. unfold counts_of. induction 1; cbn [fold_right]; lia. Qed.
Lemma alien_count K key d : alien K key d -> count_of key d = 0.
Proof using Type.
  intros [H|(c & v & ts & _ & ->)]; unfold count_of.
  - destruct (str_eqb _ _) eqn:Eq; [|reflexivity]. apply str_eqb_eq in Eq. destruct (H 0). exists (B ".count"). split; [left; reflexivity|exact Eq].
  - cbn [dp_value]. destruct (str_eqb _ _); reflexivity.
Qed.
Lemma alien_counts K key l : Forall (alien K key) l -> counts_of key l = 0.
Proof using Type. unfold counts_of. induction 1 as [|d l Hd _ IH]; [reflexivity|]. cbn [fold_right]. rewrite (alien_count K key d Hd), IH. reflexivity. Qed.
Lemma lines_count p ts key b l : timer_lines p ts (key, b) l -> counts_of key l = Z.of_nat (length b).
Proof using Type.
  intros [[H ->]|(H & lower & mean & upper & tupper & count & Hs & ->)]; cbn [fst snd] in *; [subst; reflexivity|].
  destruct Hs as (x & t & k & _ & _ & -> & _).
  assert (Hne : forall suf v, suf <> B ".count" -> count_of key (DP (B "stats.timers." ++ key ++ suf) v ts) = 0).
  { intros suf v Hd. unfold count_of. cbn [dp_name]. destruct (str_eqb _ _) eqn:Eq; [|reflexivity]. apply str_eqb_eq in Eq.
    do 2 apply app_inv_head in Eq. contradiction. }
  unfold counts_of. cbn [fold_right]. rewrite (Hne (B ".lower")), (Hne (B ".mean")), (Hne (B ".upper")), (Hne (B ".upper_" ++ show_Z p)) by (intros Hx; discriminate Hx). unfold count_of. cbn [dp_name dp_value].
  rewrite str_eqb_refl. lia.
Qed.
Lemma reports_counts P key bs gs : Forall2 (reports P key) bs gs -> counts_of key (concat gs) = Z.of_nat (length (concat bs)).
Proof using Type.
  induction 1 as [|b l bs gs (_ & p & ts & _ & Hl) _ IH]; [reflexivity|]. cbn [concat]. rewrite counts_app, IH, app_length, (lines_count p ts key b l Hl). lia.
Qed.

(** lines no rule matches reach the processor as they are *)
Lemma same_typed G rws m ts : unmatched rws m -> delivers G rws m ts ->
  (ts = [] /\ forall t k fs, ~ typed_line m t k fs) \/
  exists m', ts = [m'] /\ forall t k fs, typed_line m' t k fs <-> typed_line m t k fs.
Proof using Type.
  intros Hu Hd. destruct Hd as [Hn|t k fs Ht Hn|t k fs sent Ht Hro|t k fs t' k' fs' sent Ht Hro Ht'].
  - left. auto.
  - exfalso. apply Hn. do 2 eexists. apply routes_skip, Hu, Ht.
  - destruct (routes_fun G _ _ _ _ _ _ _ Hro (routes_skip G _ rws (Hu _ _ _ Ht) 0)) as [Ho _]. discriminate.
  - destruct (routes_fun G _ _ _ _ _ _ _ Hro (routes_skip G _ rws (Hu _ _ _ Ht) 0)) as [Ho _]. injection Ho as -> -> ->.
    right. eexists. split; [reflexivity|]. intros t1 k1 fs1. split; intros H; [destruct (typed_line_fun _ _ _ _ _ _ _ H Ht') as (-> & -> & ->)|
        destruct (typed_line_fun _ _ _ _ _ _ _ H Ht) as (-> & -> & ->)]; assumption.
Qed.
Lemma samples_same G rws key ms tss : Forall (unmatched rws) ms -> Forall2 (delivers G rws) ms tss ->
  (forall l : list num, picks (fun m => timer_sample m key) (concat tss) l -> picks (fun m => timer_sample m key) ms l) /\
  (forall c, counted (concat tss) c -> counted ms c).
Proof using Type.
  intros Hu H. induction H as [|m ts ms tss Hd _ IH]; [auto|].
  apply Forall_cons in Hu as [Hm Hu]. destruct (IH Hu) as [I1 I2]. clear IH. cbn [concat].
  destruct (same_typed G rws m ts Hm Hd) as [[-> Hn]|(m' & -> & Hs)]; cbn [app]; split.
  - intros l Hl. apply picks_miss; [|auto]. intros a (f0 & fs & Ht & _). exact (Hn _ _ _ Ht).
  - intros c Hc. destruct (I2 c Hc) as (m0 & fs & Hi & Ht). exists m0, fs. split; [right; exact Hi|exact Ht].
  - intros l Hl. inversion Hl as [|? a ? l' Ha Hl'|? ? ? Hn Hl']; subst.
    + apply picks_hit; [|auto]. destruct Ha as (f0 & fs & Ht & Hr). exists f0, fs. split; [apply Hs, Ht|exact Hr].
    + apply picks_miss; [|auto]. intros a (f0 & fs & Ht & Hr). apply (Hn a). exists f0, fs. split; [apply Hs, Ht|exact Hr].
  - intros c (m0 & fs & [<-|Hi] & Ht).
    + exists m, fs. split; [left; reflexivity|apply Hs, Ht].
    + destruct (I2 c) as (m1 & fs1 & Hi1 & Ht1); [exists m0, fs; auto|]. exists m1, fs1. split; [right; exact Hi1|exact Ht1].
Qed.
Lemma alien_mono (K K' : str -> Prop) key d : (forall c, K c -> K' c) -> alien K key d -> alien K' key d.
Proof using Type. intros H [Hd|(c & v & ts & Hc & ->)]; [left; exact Hd|right; exists c, v, ts; auto]. Qed.
Lemma counted_mono ms ms' c : (forall m, In m ms -> In m ms') -> counted ms c -> counted ms' c.
Proof using Type. intros H (m & fs & Hi & Ht). exists m, fs. auto. Qed.
End any.

(** an arithmetic in which the statistics of suitable durations are the order statistics, for the
    percentiles [good] and up to [most] durations *)
Definition summarises (NN : Num) (good : Z -> Prop) (real : Num.num (Num := NN) -> Prop) (most : Z) : Prop :=
  forall p (ds : list (Num.num (Num := NN))), good p -> ds <> [] -> Forall real ds -> Z.of_nat (length ds) <= most ->
  exists lower mean upper tupper, timer_stats (NN := NN) p ds = Ok (mean, upper, tupper, lower, Z.of_nat (length ds)) /\
    order_stats (NN := NN) p ds lower mean upper tupper (Z.of_nat (length ds)).

Section sums.
Context (NN : Num) (good : Z -> Prop) (real : Num.num (Num := NN) -> Prop) (most : Z) (Hsum : summarises NN good real most).
Notation few l := (Z.of_nat (length l) <= most).

Lemma fate_reports key (P : Z -> Prop) xs (b : list num) l : (forall p, P p -> good p) -> b <> [] -> Forall real b -> few b ->
  fate (NN := NN) key P xs b l -> reports (NN := NN) P key b l.
Proof.
  intros HP Hb Hr Hfw (p & Hp & H). split; [exact Hb|]. specialize (HP p Hp).
  destruct (Hsum p b HP Hb Hr Hfw) as (lo & me & up & tu & H1 & H2).
  destruct H as [(ts & mean & upper & tupper & lower & count & H & ->)|(_ & e & H & _)]; rewrite H1 in H; [|discriminate].
  injection H as <- <- <- <- <-. exists p, ts. split; [exact Hp|]. right. split; [exact Hb|].
  exists lo, me, up, tu, (Z.of_nat (length b)). split; [exact H2|reflexivity].
Qed.
Lemma fates_report key (P : Z -> Prop) xs (bs : list (list num)) gs : (forall p, P p -> good p) -> Forall (fun b => b <> []) bs ->
  Forall real (concat bs) -> few (concat bs) -> Forall2 (fate (NN := NN) key P xs) bs gs -> Forall2 (reports (NN := NN) P key) bs gs.
Proof.
  intros HP Hb Hr Hfw H. induction H as [|b l bs gs Hf _ IH]; [constructor|]. apply Forall_cons in Hb as [Hb Hb'].
  cbn [concat] in Hr, Hfw. rewrite app_length in Hfw. apply Forall_app in Hr as [Hr Hr'].
  constructor; [eapply fate_reports; [exact HP|exact Hb|exact Hr|lia|exact Hf]|apply IH; [exact Hb'|exact Hr'|lia]].
Qed.

Lemma timers_kept (E : env (NN := NN)) plugins key es received : (forall p, begun_with es p -> good p) ->
  picks (fun m => timer_sample (NN := NN) m key) (lines es) received -> Forall real received -> few received ->
  let y := sys_run E plugins es sys_init in
  exists batches groups rest,
    received = concat batches ++ default [] (p_timer (y_st y) !! key) /\
    Forall2 (reports (NN := NN) (begun_with es) key) batches groups /\
    y_out y ++ flat_map pending (y_live y ++ y_gone y) ≡ₚ concat groups ++ rest /\
    Forall (alien (counted (lines es)) key) rest.
Proof.
  intros HP Hp Hr Hfw y. destruct (timers_any E plugins key es received Hp) as (bs & gs & rest & H1 & H2 & H3 & H4 & H5).
  exists bs, gs, rest. split; [exact H1|]. split; [|auto]. rewrite H1 in Hr, Hfw. rewrite app_length in Hfw. apply Forall_app in Hr as [Hr _].
  eapply fates_report; [exact HP|exact H2|exact Hr|lia|exact H3].
Qed.
Lemma timers_counted (E : env (NN := NN)) plugins key es received : (forall p, begun_with es p -> good p) ->
  picks (fun m => timer_sample (NN := NN) m key) (lines es) received -> Forall real received -> few received ->
  let y := sys_run E plugins es sys_init in
  counts_of key (y_out y) + counts_of key (flat_map pending (y_live y ++ y_gone y)) +
    Z.of_nat (length (default [] (p_timer (y_st y) !! key))) = Z.of_nat (length received).
Proof.
  intros HP Hp Hr Hfw y. destruct (timers_kept E plugins key es received HP Hp Hr Hfw) as (bs & gs & rest & H1 & H2 & H3 & H4). fold y in H1, H3.
  rewrite <- counts_app, (counts_perm key _ _ H3), counts_app, (reports_counts _ _ _ _ H2), (alien_counts _ _ _ H4), H1, app_length. lia.
Qed.

Section daemon.
Context (E : env (NN := NN)) (plugins : list (factory (NN := NN))) (G : engine) (interval percent : Z) (cfg : mon) (max : nat) (refuses : nat -> dp (NN := NN) -> option exn).
Context (config : str) (ls : list lspec) (rs : list (rule G)) (rws : list rule_text) (links : list rlink).
Context (Hb : build_rules G true config [] = (ls, Ok rs)) (Hr : rules_of config rws) (Hl : length links = length ls).
Context (Hper : good percent).
Notation C := (mp_cls E plugins).
Notation run := (drun (NN := NN) (S := mst) G (process_message E C) (flush E C interval percent) rs cfg max false refuses).
Notation outgoing d := (map (fun c => snd (fst c)) (d_calls d)).

Lemma daemon_timers addrs es out key received :
  arrivals max (map (fun a => (a, [])) addrs) (nets es) out ->
  Forall (unmatched rws) (metrics_in cfg out ++ own es) ->
  picks (fun m => timer_sample (NN := NN) m key) (metrics_in cfg out ++ own es) received -> Forall real received -> few received ->
  let d := run (d_new addrs links mp_init) es in
  exists batches groups rest scheduled,
    picks (fun m => timer_sample (NN := NN) m key) (v_pending (d_srv d)) scheduled /\
    concat batches ++ default [] (p_timer (d_proc d) !! key) ++ scheduled ≡ₚ received /\
    Forall2 (reports (NN := NN) (fun p => p = percent) key) batches groups /\
    outgoing d ++ flat_map pending (map snd (d_live d) ++ d_gone d) ≡ₚ concat groups ++ rest /\
    Forall (alien (counted (metrics_in cfg out ++ own es)) key) rest.
Proof using Hb Hl Hr Hper Hsum.
  intros Ha Hun Hp Hre Hfw d.
  destruct (daemon_network G (process_message E C) (flush E C interval percent) rs cfg max refuses addrs links mp_init es out Ha) as [_ Hpm].
  cbv zeta in Hpm. change (drun G _ _ rs cfg max false refuses _ es) with d in Hpm.
  destruct (daemon_refines E plugins G interval percent cfg max false refuses config ls rs rws Hb Hr addrs links es Hl) as (y & tss & evs & Hs).
  { intros m Hin. apply skipped. rewrite Forall_forall in Hun. apply Hun, elem_of_list_In. rewrite <- Hpm. apply in_or_app. left. exact Hin. }
  fold d in Hs. destruct Hs as [H1 H2 H3 H4 H5 H6 H7 H8 H9 H10].
  destruct (samples_exist E plugins key (lines evs)) as (handled & Hh). destruct (samples_exist E plugins key (v_pending (d_srv d))) as (sch & Hsch).
  assert (Hun' : Forall (unmatched rws) (d_order d)) by (rewrite <- Hpm in Hun; apply Forall_app in Hun as [Hun _]; exact Hun).
  destruct (samples_same (NN := NN) G rws key (d_order d) tss Hun' H9) as [S1 S2].
  assert (Hall : handled ++ sch ≡ₚ received).
  { eapply picks_perm; [intros m0 a0 b0; apply sample_fun|exact Hpm| |exact Hp]. apply picks_join; [|exact Hsch].
    rewrite H8 in Hh. apply S1, Hh. }
  assert (Hre' : Forall real handled) by (rewrite <- Hall in Hre; apply Forall_app in Hre as [Hre _]; exact Hre).
  assert (Hfw' : few handled) by (rewrite <- (Permutation_length Hall), app_length in Hfw; lia).
  assert (Hst : forall p, begun_with evs p -> p = percent).
  { intros p (i & Hin). rewrite Forall_forall in H10. apply elem_of_list_In in Hin. apply H10 in Hin. exact (proj2 Hin). }
  assert (Hpp : forall p, begun_with evs p -> good p) by (intros p Hin; rewrite (Hst p Hin); exact Hper).
  destruct (timers_kept E plugins key evs handled Hpp Hh Hre' Hfw') as (bs & gs & rest & K1 & K2 & K3 & K4).
  cbv zeta in *. rewrite <- H6 in K1, K3.
  exists bs, gs, rest, sch. split; [exact Hsch|]. rewrite H2, H3, H1, H4. split; [rewrite app_assoc, <- K1; exact Hall|].
  split.
  { eapply Forall2_impl; [exact K2|]. intros b l (B1 & p & ts & B2 & B3). split; [exact B1|]. exists p, ts. auto. }
  split; [exact K3|]. eapply Forall_impl; [exact K4|]. intros x. apply alien_mono. intros c Hc. rewrite H8 in Hc.
  eapply counted_mono; [|apply S2, Hc]. intros m Hm. eapply Permutation_in; [exact Hpm|]. apply in_or_app. left. exact Hm.
Qed.
End daemon.

End sums.

Section routed.
Context (NN : Num) (good : Z -> Prop) (real : Num.num (Num := NN) -> Prop).
Context (E : env (NN := NN)) (plugins : list (factory (NN := NN))) (G : engine) (interval percent : Z) (cfg : mon) (max : nat) (refuses : nat -> dp (NN := NN) -> option exn).
Context (config : str) (ls : list lspec) (rs : list (rule G)) (rws : list rule_text) (links : list rlink).
Context (Hb : build_rules G true config [] = (ls, Ok rs)) (Hr : rules_of config rws) (Hl : length links = length ls).
Context (Hper : good percent).
Notation C := (mp_cls E plugins).
Notation run := (drun (NN := NN) (S := mst) G (process_message E C) (flush E C interval percent) rs cfg max false refuses).
Notation outgoing d := (map (fun c => snd (fst c)) (d_calls d)).
(** with routing rules, as long as what they make of each line can be written as lines *)
Lemma daemon_timers_routed addrs es out key :
  arrivals max (map (fun a => (a, [])) addrs) (nets es) out ->
  (forall m, In m (metrics_in cfg out ++ own es) -> exists ts, delivers G rws m ts) ->
  let d := run (d_new addrs links mp_init) es in
  exists handled tss,
    handled ++ v_pending (d_srv d) ≡ₚ metrics_in cfg out ++ own es /\ Forall2 (delivers G rws) handled tss /\
    forall most received, summarises NN good real most -> picks (fun m => timer_sample (NN := NN) m key) (concat tss) received -> Forall real received ->
      Z.of_nat (length received) <= most ->
    exists batches groups rest,
      received = concat batches ++ default [] (p_timer (d_proc d) !! key) /\
      Forall2 (reports (NN := NN) (fun p => p = percent) key) batches groups /\
      outgoing d ++ flat_map pending (map snd (d_live d) ++ d_gone d) ≡ₚ concat groups ++ rest /\
      Forall (alien (counted (concat tss)) key) rest.
Proof using Hb Hl Hr Hper.
  intros Ha Hdel d.
  destruct (daemon_network G (process_message E C) (flush E C interval percent) rs cfg max refuses addrs links mp_init es out Ha) as [_ Hpm].
  cbv zeta in Hpm. change (drun G _ _ rs cfg max false refuses _ es) with d in Hpm.
  destruct (daemon_refines E plugins G interval percent cfg max false refuses config ls rs rws Hb Hr addrs links es Hl) as (y & tss & evs & Hs).
  { intros m Hin. apply Hdel. eapply Permutation_in; [exact Hpm|]. apply in_or_app. left. exact Hin. }
  fold d in Hs. destruct Hs as [H1 H2 H3 H4 H5 H6 H7 H8 H9 H10].
  exists (d_order d), tss. split; [exact Hpm|]. split; [exact H9|]. intros most received Hsum Hp Hre Hfw.
  assert (Hst : forall p, begun_with evs p -> p = percent).
  { intros p (i & Hin). rewrite Forall_forall in H10. apply elem_of_list_In in Hin. apply H10 in Hin. exact (proj2 Hin). }
  assert (Hpp : forall p, begun_with evs p -> good p) by (intros p Hin; rewrite (Hst p Hin); exact Hper).
  rewrite <- H8 in Hp. destruct (timers_kept NN good real most Hsum E plugins key evs received Hpp Hp Hre Hfw) as (bs & gs & rest & K1 & K2 & K3 & K4).
  cbv zeta in *. rewrite <- H6 in K1, K3.
  exists bs, gs, rest. rewrite H2, H3, H1, H4. split; [exact K1|]. split.
  { eapply Forall2_impl; [exact K2|]. intros b l (B1 & p & ts & B2 & B3). split; [exact B1|]. exists p, ts. auto. }
  split; [exact K3|]. rewrite <- H8. exact K4.
Qed.
End routed.

Lemma service_timers (NN : Num) (good : Z -> Prop) (real : Num.num (Num := NN) -> Prop) E plugins G files args node a is_ip max closes refuses CE addrs h out key :
  good 90 -> well_formed files -> described G files args node a -> value_of files args (B "routing") (OS []) ->
  addrs = [] \/ closes = false ->
  arrivals max (map (fun a => (a, [])) addrs) (heard (NN := NN) h) out ->
  let C := mp_cls E plugins in
  let d := o_daemon (service_run (NN := NN) (S := mst) G (process_message E C) (flush E C) mp_init a max closes refuses CE is_ip addrs h) in
  exists es, written CE (a_instance _ a) h es /\
    forall most received, summarises NN good real most ->
      picks (fun m => timer_sample (NN := NN) m key) (metrics_in (a_mon _ a) out ++ own es) received -> Forall real received -> Z.of_nat (length received) <= most ->
      exists batches groups rest scheduled,
        picks (fun m => timer_sample (NN := NN) m key) (v_pending (d_srv d)) scheduled /\
        concat batches ++ default [] (p_timer (d_proc d) !! key) ++ scheduled ≡ₚ received /\
        Forall2 (reports (NN := NN) (fun p => p = 90) key) batches groups /\
        map (fun c => snd (fst c)) (d_calls d) ++ flat_map pending (map snd (d_live d) ++ d_gone d) ≡ₚ concat groups ++ rest /\
        Forall (alien (counted (metrics_in (a_mon _ a) out ++ own es)) key) rest.
Proof.
  intros Hg Hw D Hro Hc Ha C d. destruct (ds_routing _ _ _ _ _ D) as (text & Ht & Hb).
  assert (text = []) as ->. { pose proof (value_fun files args Hw _ _ _ Hro Ht). congruence. }
  destruct (written_history G (process_message E C) (flush E C (a_flush _ a) 90) (a_rules _ a) (a_mon _ a) max closes refuses CE (a_ext _ a) (a_instance _ a)
    (d_new addrs (service_links G is_ip a) mp_init) h) as (es & Hes & Hd).
  assert (Hd' : d = drun (S := mst) G (process_message E C) (flush E C (a_flush _ a) 90) (a_rules _ a) (a_mon _ a) max false refuses
    (d_new addrs (service_links G is_ip a) mp_init) es).
  { refine (eq_trans Hd _). destruct Hc as [->| ->]; [|reflexivity]. apply udp_run. reflexivity. }
  rewrite <- (written_nets _ _ _ _ Hes) in Ha.
  exists es. split; [exact Hes|]. intros most received Hsum Hp Hre Hfw. rewrite Hd'.
  apply (daemon_timers NN good real most Hsum E plugins G (a_flush _ a) 90 (a_mon _ a) max refuses [] (a_links _ a) (a_rules _ a) [] (service_links G is_ip a)
    Hb ltac:(apply rules_by; reflexivity) ltac:(apply map_length) Hg addrs es out key received Ha); try assumption.
  apply Forall_forall. intros m _ t k fs _. constructor.
Qed.
