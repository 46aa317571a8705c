(** The marks of a meter: the counts and rates reported, the whole daemon, the service of a command line. *)
From Coq Require Qcanon.
From Verif Require Import Base StrFacts Num NumFacts Env Stats Glob Metrics Gen GenFacts Processor
  LineSpec LineFacts FloatFacts ProcFacts ProcSpec ReceiveFacts ReceiveFacts2 ReceiveFacts3 PlugFacts
  Sched FlushInv FlushOk SchedFacts XQFacts FlushSpec FlushXQ HistFacts MeterFacts
  Client RouterSpec Router RouterFacts RouterProps Server ServerSpec ServerFacts Service ServiceSpec ServiceFacts
  ClientMetrics Daemon DaemonFacts Own OwnSpec OwnFacts Assembly AssemblySpec AssemblyFacts Entire DoubleDaemon TimerSched TimerDaemon MeterSched.
Open Scope Z_scope.

(** ** What the theorems speak about *)
Section spec.
Context `{NN : Num}.
(** the reports of a meter: each at its time, with what was marked since the one before.  The
    count is of everything marked so far, the rate per second since the last report, and since
    the meter was made for the first *)
Fixpoint meter_groups (key : str) (last : num) (before : list num) (rounds : list (Z * list num)) : list dp :=
  match rounds with
  | [] => []
  | (ts, b) :: rounds =>
      [DP (B "stats.meter." ++ key ++ B ".count") (VF (nround 6 (nsum (before ++ b)))) ts;
       DP (B "stats.meter." ++ key ++ B ".rate") (VF (nround 6 (ndiv (nsum b) (nsub (nofZ ts) last)))) ts]
      ++ meter_groups key (nofZ ts) (before ++ b) rounds
  end.
(** the time has changed from each report to the next *)
Fixpoint apart (last : num) (rounds : list (Z * list num)) : Prop :=
  match rounds with [] => True | (ts, b) :: rounds => nofZ ts <> last /\ apart (nofZ ts) rounds end.
(** everything marked in these rounds *)
Definition in_rounds (rounds : list (Z * list num)) : list num := concat (map snd rounds).
(** what is stored for a meter for which [received] was marked, [left] of it since the last report *)
Definition holds_marks (stored : option meter) (received left : list num) : Prop :=
  match stored with None => received = [] | Some m => received <> [] /\ me_value m = nsum left end.

Fixpoint last_time (last : num) (rounds : list (Z * list num)) : num :=
  match rounds with [] => last | (ts, _) :: rounds => last_time (nofZ ts) rounds end.
Lemma groups_app key r1 : forall last before r2, meter_groups key last before (r1 ++ r2) =
  meter_groups key last before r1 ++ meter_groups key (last_time last r1) (before ++ in_rounds r1) r2.
Proof.
  induction r1 as [|[ts b] r1 IH]; intros last before r2.
  - cbn. rewrite app_nil_r. reflexivity.
  - cbn [app meter_groups last_time]. rewrite IH. unfold in_rounds. cbn [map concat snd]. rewrite <- app_assoc. reflexivity.
Qed.
Lemma apart_app r1 : forall last r2, apart last (r1 ++ r2) <-> apart last r1 /\ apart (last_time last r1) r2.
Proof. induction r1 as [|[ts b] r1 IH]; intros last r2; cbn; [tauto|]. rewrite IH. tauto. Qed.
Lemma last_app r1 : forall last r2, last_time last (r1 ++ r2) = last_time (last_time last r1) r2.
Proof. induction r1 as [|[ts b] r1 IH]; intros last r2; [reflexivity|]. exact (IH _ _). Qed.
End spec.

Section exact.
Context (sq : Qcanon.Qc -> Qcanon.Qc).
Notation NQ := (XQ sq).
Notation num := (Num.num (Num := NQ)).

Lemma meter_rounds key (created : num) (ops : list (mop (NN := NQ))) :
  exists rounds left, marks ops = in_rounds rounds ++ left /\ apart created rounds /\
    outs (fresh_meter key (B "stats.meter.") created) ops = meter_groups (NN := NQ) key created [] rounds /\
    let m := mrun ops (fresh_meter key (B "stats.meter.") created) in
    me_value m = nsum left /\ me_count m = nsum (in_rounds rounds) /\ me_poll m = last_time created rounds /\
    me_name m = key /\ me_prefix m = B "stats.meter.".
Proof.
  induction ops as [|o ops (rounds & left & H1 & H2 & H3 & H4 & H5 & H6 & H7 & H8)] using rev_ind.
  - exists [], []. repeat split; reflexivity.
  - rewrite mrun_snoc, marks_snoc, outs_app. destruct o as [v|ts].
    + exists rounds, (left ++ [v]). rewrite H1, H3, app_assoc. cbn [outs]. rewrite app_nil_r. cbv zeta. cbn [mstep meter_mark me_value me_count me_poll me_name me_prefix].
      split; [reflexivity|]. split; [exact H2|]. split; [reflexivity|]. split; [|auto].
      rewrite nsum_snoc. rewrite H4. reflexivity.
    + cbn [outs mstep]. rewrite !app_nil_r.
      destruct (meter_total sq (mrun ops (fresh_meter key (B "stats.meter.") created)) ts) as [ms Hms].
      set (m := mrun ops (fresh_meter key (B "stats.meter.") created)) in *. revert Hms. unfold meter_report.
      destruct (neqb (nofZ ts) (me_poll m)) eqn:Et.
      * intros _. cbn [fst snd]. rewrite app_nil_r. exists rounds, left. cbv zeta. cbn [me_value me_count me_poll me_name me_prefix].
        split; [exact H1|]. split; [exact H2|]. split; [exact H3|]. split; [exact H4|]. split; [exact H5|]. split; [|auto].
        rewrite <- H6. apply (xeqb_eq (Fin (QcZ ts))); [discriminate|exact Et].
      * unfold pydiv. destruct (neqb (nsub (nofZ ts) (me_poll m)) n0) eqn:Ez; [discriminate|]. intros _. cbn [fst snd].
        exists (rounds ++ [(ts, left)]), []. cbv zeta. cbn [me_value me_count me_poll me_name me_prefix].
        assert (Hin : in_rounds (rounds ++ [(ts, left)]) = in_rounds rounds ++ left)
          by (unfold in_rounds; rewrite map_app, concat_app; cbn; rewrite app_nil_r; reflexivity).
        assert (Hs : nsum (NN := NQ) (in_rounds rounds ++ left) = nadd (me_count m) (me_value m)).
        { rewrite H5, H4. apply (nsum_app (NX := XQ_exact sq)). }
        rewrite Hin, app_nil_r, last_app, apart_app, groups_app. cbn [last_time apart meter_groups app].
        split; [exact H1|]. split.
        { split; [exact H2|]. split; [|exact I]. rewrite <- H6. intros Hc. assert (Hx : neqb (Num := NQ) (nofZ (Num := NQ) ts) (me_poll m) = true) by (apply (xeqb_eq (Fin (QcZ ts))); [discriminate|exact Hc]). congruence. }
        split; [rewrite H3, H7, H8, <- H6, <- H4, Hs; reflexivity|]. split; [reflexivity|]. split; [symmetry; exact Hs|]. split; [reflexivity|]. auto.
Qed.

Lemma meters_kept (E : env (NN := NQ)) plugins key es received :
  picks (fun m => meter_sample (NN := NQ) m key) (lines es) received ->
  let y := sys_run E plugins es sys_init in
  exists i rounds left rest,
    received = in_rounds rounds ++ left /\ apart (e_clock E i) rounds /\
    holds_marks (p_meter (y_st y) !! key) received left /\
    y_out y ++ flat_map pending (y_live y ++ y_gone y) ≡ₚ meter_groups (NN := NQ) key (e_clock E i) [] rounds ++ rest /\
    Forall (not_meters (counted (lines es)) key) rest.
Proof.
  intros Hp y. destruct (meters_told E plugins (counted (lines es)) key es) as (_ & _ & created & ops & rest & [H1 H2 H3 H4 H5 [i ->]]).
  { apply Forall_forall. intros e He. apply elem_of_list_In in He. destruct e as [m|j p|j|j]; cbn; try exact I.
    intros c fields Ht. exists m, fields. split; [apply in_lines, He|exact Ht]. }
  assert (Hr : received = marks ops).
  { refine (picks_unique _ _ (lines es) _ _ Hp H1). intros m a b Ha Hb. apply view_iff in Ha, Hb. congruence. }
  destruct (meter_rounds key (e_clock E i) ops) as (rounds & left & R1 & R2 & R3 & R4 & R5 & R6 & R7 & R8).
  exists i, rounds, left, rest. rewrite Hr. split; [exact R1|]. split; [exact R2|]. split.
  { unfold holds_marks. fold y in H2. rewrite H2. destruct (marks ops) eqn:Em; [reflexivity|]. split; [discriminate|exact R4]. }
  split; [rewrite <- R3; exact H4|exact H5].
Qed.

Section daemon.
Context (E : env (NN := NQ)) (plugins : list (factory (NN := NQ))) (G : engine) (interval percent : Z) (cfg : mon) (max : nat) (refuses : nat -> dp (NN := NQ) -> option exn).
Context (config : str) (ls : list lspec) (rs : list (rule G)) (rws : list rule_text) (links : list rlink).
Context (Hb : build_rules G true config [] = (ls, Ok rs)) (Hr : rules_of config rws) (Hl : length links = length ls).
Notation C := (mp_cls E plugins).
Notation run := (drun (NN := NQ) (S := mst) G (process_message E C) (flush E C interval percent) rs cfg max false refuses).
Notation outgoing d := (map (fun c => snd (fst c)) (d_calls d)).

(** with routing rules, as long as what they make of each line can be written as lines *)
Lemma daemon_meters addrs es out key :
  arrivals max (map (fun a => (a, [])) addrs) (nets es) out ->
  (forall m, In m (metrics_in cfg out ++ own es) -> exists ts, delivers G rws m ts) ->
  let d := run (d_new addrs links mp_init) es in
  exists handled tss,
    handled ++ v_pending (d_srv d) ≡ₚ metrics_in cfg out ++ own es /\ Forall2 (delivers G rws) handled tss /\
    forall received, picks (fun m => meter_sample (NN := NQ) m key) (concat tss) received ->
    exists i rounds left rest,
      received = in_rounds rounds ++ left /\ apart (e_clock E i) rounds /\
      holds_marks (p_meter (d_proc d) !! key) received left /\
      outgoing d ++ flat_map pending (map snd (d_live d) ++ d_gone d) ≡ₚ meter_groups (NN := NQ) key (e_clock E i) [] rounds ++ rest /\
      Forall (not_meters (counted (concat tss)) key) rest.
Proof using Hb Hl Hr.
  intros Ha Hdel d.
  destruct (daemon_network G (process_message E C) (flush E C interval percent) rs cfg max refuses addrs links mp_init es out Ha) as [_ Hpm].
  cbv zeta in Hpm. change (drun G _ _ rs cfg max false refuses _ es) with d in Hpm.
  destruct (daemon_refines E plugins G interval percent cfg max false refuses config ls rs rws Hb Hr addrs links es Hl) as (y & tss & evs & Hs).
  { intros m Hin. apply Hdel. eapply Permutation_in; [exact Hpm|]. apply in_or_app. left. exact Hin. }
  fold d in Hs. destruct Hs as [H1 H2 H3 H4 H5 H6 H7 H8 H9 H10].
  exists (d_order d), tss. split; [exact Hpm|]. split; [exact H9|]. intros received Hp.
  rewrite <- H8 in Hp |- *. destruct (meters_kept E plugins key evs received Hp) as (i & rounds & left & rest & K1 & K2 & K3 & K4 & K5).
  cbv zeta in *. rewrite <- H6 in K3, K4.
  exists i, rounds, left, rest. rewrite H2, H3, H1, H4. auto.
Qed.
End daemon.

(** lines no rule matches *)
Lemma marks_same G rws key ms tss : Forall (unmatched rws) ms -> Forall2 (delivers G rws) ms tss ->
  forall l : list num, picks (fun m => meter_sample (NN := NQ) m key) (concat tss) l -> picks (fun m => meter_sample (NN := NQ) m key) ms l.
Proof.
  intros Hu H. induction H as [|m ts ms tss Hd _ IH]; [auto|].
  apply Forall_cons in Hu as [Hm Hu]. specialize (IH Hu). cbn [concat].
  destruct (same_typed G rws m ts Hm Hd) as [[-> Hn]|(m' & -> & Hs)]; cbn [app].
  - intros l Hl. apply picks_miss; [|auto]. intros a (f0 & fs & Ht & _). exact (Hn _ _ _ Ht).
  - intros l Hl. inversion Hl as [|? a ? l' Ha Hl'|? ? ? Hn Hl']; subst.
    + apply picks_hit; [|auto]. destruct Ha as (f0 & fs & Ht & Hr). exists f0, fs. split; [apply Hs, Ht|exact Hr].
    + apply picks_miss; [|auto]. intros a (f0 & fs & Ht & Hr). apply (Hn a). exists f0, fs. split; [apply Hs, Ht|exact Hr].
Qed.
Lemma marks_exist key ms : exists l : list num, picks (fun m => meter_sample (NN := NQ) m key) ms l.
Proof.
  induction ms as [|m ms [l IH]]; [exists []; constructor|]. destruct (view (NN := NQ) (B "m") m key) as [v|] eqn:Ev.
  - exists (v :: l). apply picks_hit; [apply view_iff; exact Ev|exact IH].
  - exists l. apply picks_miss; [|exact IH]. intros a Ha. apply view_iff in Ha. congruence.
Qed.

Lemma service_meters E plugins G files args node a is_ip max closes refuses CE addrs h out key :
  well_formed files -> described G files args node a -> value_of files args (B "routing") (OS []) ->
  addrs = [] \/ closes = false ->
  arrivals max (map (fun a => (a, [])) addrs) (heard (NN := NQ) h) out ->
  let C := mp_cls E plugins in
  let d := o_daemon (service_run (NN := NQ) (S := mst) G (process_message E C) (flush E C) mp_init a max closes refuses CE is_ip addrs h) in
  exists es, written CE (a_instance _ a) h es /\
    forall received,
      picks (fun m => meter_sample (NN := NQ) m key) (metrics_in (a_mon _ a) out ++ own es) received ->
      exists i rounds left rest scheduled,
        picks (fun m => meter_sample (NN := NQ) m key) (v_pending (d_srv d)) scheduled /\
        in_rounds rounds ++ left ++ scheduled ≡ₚ received /\ apart (e_clock E i) rounds /\
        holds_marks (p_meter (d_proc d) !! key) (in_rounds rounds ++ left) left /\
        map (fun c => snd (fst c)) (d_calls d) ++ flat_map pending (map snd (d_live d) ++ d_gone d) ≡ₚ meter_groups (NN := NQ) key (e_clock E i) [] rounds ++ rest /\
        Forall (not_meters (counted (metrics_in (a_mon _ a) out ++ own es)) key) rest.
Proof.
  intros Hw D Hro Hc Ha C d. destruct (ds_routing _ _ _ _ _ D) as (text & Ht & Hb).
  assert (text = []) as ->. { pose proof (value_fun files args Hw _ _ _ Hro Ht). congruence. }
  destruct (written_history G (process_message E C) (flush E C (a_flush _ a) 90) (a_rules _ a) (a_mon _ a) max closes refuses CE (a_ext _ a) (a_instance _ a)
    (d_new addrs (service_links G is_ip a) mp_init) h) as (es & Hes & Hd).
  assert (Hd' : d = drun (S := mst) G (process_message E C) (flush E C (a_flush _ a) 90) (a_rules _ a) (a_mon _ a) max false refuses
    (d_new addrs (service_links G is_ip a) mp_init) es).
  { refine (eq_trans Hd _). destruct Hc as [->| ->]; [|reflexivity]. apply udp_run. reflexivity. }
  rewrite <- (written_nets _ _ _ _ Hes) in Ha.
  exists es. split; [exact Hes|]. intros received Hp.
  assert (Hun : forall m, unmatched [] m) by (intros m t k fs _; constructor).
  destruct (daemon_meters E plugins G (a_flush _ a) 90 (a_mon _ a) max refuses [] (a_links _ a) (a_rules _ a) [] (service_links G is_ip a)
    Hb ltac:(apply rules_by; reflexivity) ltac:(apply map_length) addrs es out key Ha) as (handled & tss & M1 & M2 & M3).
  { intros m _. apply skipped, Hun. }
  cbv zeta in *. unfold C in Hd'. rewrite <- Hd' in M1, M3.
  destruct (marks_exist key (concat tss)) as (rc & Hrc). destruct (marks_exist key (v_pending (d_srv d))) as (sch & Hsch).
  destruct (M3 rc Hrc) as (i & rounds & left & rest & K1 & K2 & K3 & K4 & K5).
  assert (Hfa : Forall (unmatched []) handled) by (apply Forall_forall; intros m _; apply Hun).
  exists i, rounds, left, rest, sch. split; [exact Hsch|]. split.
  { rewrite app_assoc, <- K1. eapply picks_perm; [|exact M1| |exact Hp].
    - intros m x y Hx Hy. apply view_iff in Hx, Hy. congruence.
    - apply picks_join; [|exact Hsch]. exact (marks_same G [] key handled tss Hfa M2 rc Hrc). }
  split; [exact K2|]. split; [rewrite <- K1; exact K3|]. split; [exact K4|].
  eapply Forall_impl; [exact K5|]. intros x [Hx|(c & v & ts & Hc' & Hx)]; [left; exact Hx|]. right. exists c, v, ts. split; [|exact Hx].
  eapply counted_mono; [|eapply (samples_same (NN := NQ) G [] key handled tss Hfa M2), Hc'].
  intros m Hm. eapply Permutation_in; [exact M1|]. apply in_or_app. left. exact Hm.
Qed.
End exact.

(** one datapoint *)
Lemma groups_in sq key rounds : forall (last : Num.num (Num := XQ sq)) before d, In d (meter_groups (NN := XQ sq) key last before rounds) ->
  exists a b, before ++ in_rounds rounds = a ++ b /\
    ((dp_name d = B "stats.meter." ++ key ++ B ".count" /\ dp_value d = VF (nround 6 (nsum (NN := XQ sq) a))) \/
     (dp_name d = B "stats.meter." ++ key ++ B ".rate" /\ exists x y t, a = x ++ y /\ dp_value d = VF (nround 6 (ndiv (nsum (NN := XQ sq) y) (nsub (nofZ (dp_ts d)) t))))).
Proof.
  induction rounds as [|[ts b] rounds IH]; intros last before d H; [destruct H|]. cbn [meter_groups app] in H.
  unfold in_rounds. cbn [map concat snd]. fold (in_rounds rounds). destruct H as [<-|[<-|H]].
  - exists (before ++ b), (in_rounds rounds). split; [apply app_assoc|]. left. auto.
  - exists (before ++ b), (in_rounds rounds). split; [apply app_assoc|]. right. split; [reflexivity|]. exists before, b, last. auto.
  - apply IH in H. rewrite <- app_assoc in H. exact H.
Qed.
Lemma meter_point sq (E : env (NN := XQ sq)) plugins key es received d :
  picks (fun m => meter_sample (NN := XQ sq) m key) (lines es) received -> ~ counted (lines es) (B "meter." ++ key ++ B ".count") ->
  In d (y_out (sys_run E plugins es sys_init)) -> dp_name d = B "stats.meter." ++ key ++ B ".count" ->
  exists before after, received = before ++ after /\ dp_value d = VF (nround 6 (nsum (NN := XQ sq) before)).
Proof.
  intros Hp Hn Hd Hname. destruct (meters_kept sq E plugins key es received Hp) as (i & rounds & left & rest & K1 & _ & _ & K4 & K5).
  assert (Hin : In d (meter_groups (NN := XQ sq) key (e_clock E i) [] rounds ++ rest)) by (eapply Permutation_in; [exact K4|]; apply in_or_app; left; exact Hd).
  apply in_app_or in Hin. destruct Hin as [Hin|Hin].
  - apply groups_in in Hin. cbn [app] in Hin. destruct Hin as (a & b & Hab & [[_ Hv]|[Hx _]]).
    + exists a, (b ++ left). rewrite K1, Hab, <- app_assoc. auto.
    + rewrite Hname in Hx. do 2 apply app_inv_head in Hx. discriminate Hx.
  - rewrite Forall_forall in K5. apply elem_of_list_In, K5 in Hin. exfalso. destruct Hin as [Hx|(c & v & ts & Hc & ->)].
    + apply Hx. exists (B ".count"). split; [left; reflexivity|exact Hname].
    + apply Hn. cbn [dp_name] in Hname. change (B "stats.meter.") with (B "stats." ++ B "meter.") in Hname. rewrite <- app_assoc in Hname. apply app_inv_head in Hname. subst c. exact Hc.
Qed.
Lemma meters_any `{NN : Num} (E : env) plugins key es :
  let y := sys_run E plugins es sys_init in
  exists i ops rest,
    picks (fun m => meter_sample m key) (lines es) (marks ops) /\
    p_meter (y_st y) !! key = match marks ops with [] => None | _ => Some (mrun ops (fresh_meter key (B "stats.meter.") (e_clock E i))) end /\
    y_out y ++ flat_map pending (y_live y ++ y_gone y) ≡ₚ outs (fresh_meter key (B "stats.meter.") (e_clock E i)) ops ++ rest /\
    Forall (not_meters (counted (lines es)) key) rest.
Proof.
  intros y. destruct (meters_told E plugins (counted (lines es)) key es) as (_ & _ & created & ops & rest & [H1 H2 H3 H4 H5 [i ->]]).
  { apply Forall_forall. intros e He. apply elem_of_list_In in He. destruct e as [m|j p|j|j]; cbn; try exact I.
    intros c fields Ht. exists m, fields. split; [apply in_lines, He|exact Ht]. }
  exists i, ops, rest. auto.
Qed.
