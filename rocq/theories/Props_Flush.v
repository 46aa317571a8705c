(** Properties of flushing (C10-C24).  [reachable] states are those of a service
    whose flush interval is at least one second, after any schedule of received
    lines and (overlapping, aborted, abandoned) flushes; FlushSpec.v says what is
    emitted for one metric. *)
From Verif Require Import Base StrFacts Num NumFacts Env Stats Glob Metrics Gen GenFacts Processor
  LineSpec LineFacts FloatFacts ProcFacts ProcSpec ReceiveFacts ReceiveFacts2 ReceiveFacts3 PlugFacts Demo
  Sched FlushInv FlushOk SchedFacts FlushRun FlushStages FlushComp FlushFail TimerFacts XQFacts B64 TimerXQ StepFacts HistFacts
  FlushSpec FlushParts Disturb FlushXQ SeriesFacts MeterFacts FlushDerived FlushXQ2.
From Coq Require Import QArith Qcanon.
Open Scope Z_scope.

(** the service used in the examples *)
Definition demo_plugins : list (factory (NN := demo_num)) := [FSli []; FDistinct].
Definition demo_lines : list str :=
  [B "a:3|c"; B "b:1|c|@0.5"; B "t:5|ms"; B "t:7|ms"; B "g:1|g"; B "g:2|g"; B "m:2|m"; B "u:alice|pd"; B "noise"].
Definition demo_events : list (event) := map Recv demo_lines ++ [Start 10000 90; Resume 0; Resume 0; Recv (B "b:4|c")].
Definition demo_state : mst (NN := demo_num) := y_st (sys_run demo_env demo_plugins demo_events sys_init).
Lemma demo_reachable : reachable demo_env demo_plugins demo_state.
Proof. exists demo_events. split; [|reflexivity]. unfold demo_events, demo_lines. cbn [map app]. repeat (constructor; [cbn; lia || exact I|]). constructor. Qed.
Lemma demo_clock : forall n, exists q, e_clock demo_env n = Fin q.
Proof. intros n. eexists. reflexivity. Qed.
Lemma demo_flush : exists s' l, grun (flush demo_env (mp_cls demo_env demo_plugins) 10000 90) demo_state = (s', l, None).
Proof. apply (completes (fun q => q) demo_env demo_plugins); [exact demo_reachable|lia|lia|exact demo_clock]. Qed.

(** C10 *)
Theorem C10_counters_flushed : forall (NN : Num) E plugins i p (s s' : mst) l,
  reachable E plugins s -> 1000 <= i ->
  grun (flush E (mp_cls E plugins) i p) s = (s', l, None) ->
  exists ts counters rest, ntrunc (e_clock E (w_clk (p_w s))) = Ok ts /\
    counters ≡ₚ map_to_list (p_counter s) /\
    l = flat_map (counter_lines (i / 1000) ts) counters ++ rest /\ Forall other_names rest /\
    p_counter s' = (fun _ => n0) <$> p_counter s.
Proof. exact @counters_flushed. Qed.
Print Assumptions C10_counters_flushed.
(** an undisturbed flush does run to its end (exact numbers) *)
Theorem C10_flush_completes : forall sq (E : env (NN := XQ sq)) plugins i p (s : mst),
  reachable E plugins s -> 1000 <= i -> 26 <= p <= 100 ->
  (forall n, exists q, e_clock E n = Fin q) ->
  exists s' l, grun (flush E (mp_cls E plugins) i p) s = (s', l, None).
Proof. exact completes. Qed.
Print Assumptions C10_flush_completes.
Example C10_case : reachable demo_env demo_plugins demo_state /\ size (p_counter demo_state) = 2%nat /\
  p_counter demo_state !! B "b" = Some (Fin (QcZ 4)) /\
  exists s' l, grun (flush demo_env (mp_cls demo_env demo_plugins) 10000 90) demo_state = (s', l, None).
Proof.
  split; [exact demo_reachable|]. split; [vm_compute; reflexivity|]. split; [|exact demo_flush].
  vm_compute. reflexivity.
Qed.

(** C11 *)
Theorem C11_short_interval : forall (NN : Num) E plugins i p (s : mst),
  0 <= i < 1000 -> p_counter s <> ∅ ->
  forall ts, ntrunc (e_clock E (w_clk (p_w s))) = Ok ts ->
  exists s' k v, grun (flush E (mp_cls E plugins) i p) s = (s', [], Some ZeroDivisionError) /\
    p_counter s !! k = Some v /\ p_counter s' = <[k := n0]> (p_counter s) /\
    p_timer s' = p_timer s /\ p_gauge s' = p_gauge s /\ p_meter s' = p_meter s /\ p_plug s' = p_plug s.
Proof. exact @short_interval. Qed.
Print Assumptions C11_short_interval.
Example C11_case : p_counter demo_state <> ∅ /\ ntrunc (e_clock demo_env (w_clk (p_w demo_state))) <> Exn ValueError.
Proof. split; intros H; vm_compute in H; discriminate. Qed.

(** C12 *)
Theorem C12_conservation : forall (NN : Num) (NL : NumLaw NN) (NX : NumExact NN) E plugins key es,
  Forall sane es ->
  let y := sys_run E plugins es sys_init in
  exists accepted, picks (contribution key) (lines es) accepted /\
    nadd (counts_in key (y_out y))
      (nadd (counts_in key (flat_map pending (y_live y ++ y_gone y)))
            (default n0 (p_counter (y_st y) !! key)))
    = nsum accepted.
Proof. exact @conservation. Qed.
Print Assumptions C12_conservation.
Example C12_case : Forall sane demo_events /\
  counts_in (NN := demo_num) (B "b") (y_out (sys_run demo_env demo_plugins demo_events sys_init)) = Fin (QcZ 2) /\
  p_counter demo_state !! B "b" = Some (Fin (QcZ 4)).
Proof. 
  split; [unfold demo_events, demo_lines; cbn [map app]; repeat (constructor; [cbn; lia || exact I|]); constructor|].
  split; vm_compute; reflexivity.
Qed.

(** C13: [drive] receives a batch of lines before every step of the flush; [out]
    are the items emitted so far, fewer than the counters have in all *)
Theorem C13_new_counter_aborts : forall (NN : Num) E plugins i p (s s1 : mst) b0 bs out g n, 1000 <= i ->
  n = size (p_counter (receive_all E plugins b0 s)) ->
  drive E plugins (flush E (mp_cls E plugins) i p) s (b0 :: bs) = (s1, out, Running g) ->
  (length (b0 :: bs) <= 2 * n)%nat ->
  length out = length (b0 :: bs) /\
  forall b, let s2 := receive_all E plugins b s1 in size (p_counter s2) <> n ->
    if Nat.even (length out)
    then gnext g s2 = (s2, Raised RuntimeError)
    else exists d g', gnext g s2 = (s2, Yielded d g') /\
      forall b', let s3 := receive_all E plugins b' s2 in
        size (p_counter s3) <> n -> gnext g' s3 = (s3, Raised RuntimeError).
Proof. exact @new_counter_aborts. Qed.
Print Assumptions C13_new_counter_aborts.
Theorem C13_calm_flush_never_raises : forall sq (E : env (NN := XQ sq)) plugins i p (s : mst) batches,
  reachable E plugins s -> 1000 <= i -> 26 <= p <= 100 ->
  (forall n, exists q, e_clock E n = Fin q) ->
  calm E plugins (flush E (mp_cls E plugins) i p) s batches ->
  forall e, snd (drive E plugins (flush E (mp_cls E plugins) i p) s batches) <> Failed e.
Proof. exact calm_completes. Qed.
Print Assumptions C13_calm_flush_never_raises.
Example C13_case : exists s1 out g,
  drive demo_env demo_plugins (flush demo_env (mp_cls demo_env demo_plugins) 10000 90) demo_state [[]; [B "a:1|c"]] = (s1, out, Running g) /\
  size (p_counter (receive_all demo_env demo_plugins [B "new:1|c"] s1)) <> size (p_counter demo_state) /\
  calm demo_env demo_plugins (flush demo_env (mp_cls demo_env demo_plugins) 10000 90) demo_state [[]; [B "a:1|c"]; []; [B "t:1|ms"]].
Proof.
  match goal with |- context [drive ?E ?P ?G ?S ?B] => destruct (drive E P G S B) as [[s1 out] r] eqn:Ed end.
  assert (Hr : exists g, r = Running g).
  { apply (f_equal (fun x => runningb (snd x))) in Ed. cbn [snd] in Ed. vm_compute in Ed.
    destruct r; cbn in Ed; try discriminate. eexists. reflexivity. }
  destruct Hr as [g ->]. exists s1, out, g. split; [reflexivity|]. split.
  - apply (f_equal (fun x => size (p_counter (receive_all demo_env demo_plugins [B "new:1|c"] (fst (fst x)))))) in Ed. cbn [fst] in Ed.
    rewrite <- Ed. clear Ed. vm_compute. discriminate.
  - apply calmb_sound. vm_compute. reflexivity.
Qed.

(** C14 *)
Theorem C14_timers_flushed : forall sq (E : env (NN := XQ sq)) plugins i p (s s' : mst) l,
  reachable E plugins s -> 1000 <= i -> 26 <= p <= 100 ->
  (forall k ds, p_timer s !! k = Some ds -> Forall (fun x => x <> NaN) ds) ->
  grun (flush E (mp_cls E plugins) i p) s = (s', l, None) ->
  exists ts counters timers blocks after,
    ntrunc (e_clock E (w_clk (p_w s))) = Ok ts /\
    timers ≡ₚ map_to_list (p_timer s) /\ Forall2 (timer_lines (NN := XQ sq) p ts) timers blocks /\
    l = flat_map (counter_lines (i / 1000) ts) counters ++ concat blocks ++ after /\
    Forall (fun d => ~ named (B "stats.timers.") d) after /\
    p_timer s' = (fun _ => []) <$> p_timer s.
Proof. exact timers_flushed. Qed.
Print Assumptions C14_timers_flushed.
Example C14_case : p_timer demo_state !! B "t" = Some [Fin (QcZ 5); Fin (QcZ 7)] /\
  (forall k ds, p_timer demo_state !! k = Some ds -> Forall (fun x => x <> NaN) ds).
Proof.
  split; [vm_compute; reflexivity|]. intros k ds Hk. apply elem_of_map_to_list, elem_of_list_In in Hk.
  assert (H : forallb (fun kv => forallb (fun x => match x with NaN => false | _ => true end) (snd kv)) (map_to_list (p_timer demo_state)) = true)
    by (vm_compute; reflexivity).
  rewrite forallb_forall in H. specialize (H _ Hk). cbn [snd] in H. rewrite forallb_forall in H.
  apply Forall_forall. intros x Hx ->. apply elem_of_list_In in Hx. specialize (H _ Hx). discriminate.
Qed.

(** C15 *)
Theorem C15_ordered : forall sq percent (ds : list xq) lower mean upper tupper count,
  Forall finite ds -> order_stats (NN := XQ sq) percent ds lower mean upper tupper count ->
  xltb mean lower = false /\ xltb tupper mean = false /\ xltb upper tupper = false /\
  finite lower /\ finite mean /\ finite upper /\ finite tupper.
Proof. exact order_stats_ordered. Qed.
Print Assumptions C15_ordered.
Theorem C15_ordered_in_doubles_refuted : exists ds mean upper tupper lower count,
  timer_stats (NN := B64) 90 ds = Ok (mean, upper, tupper, lower, count) /\
  nltb (Num := B64) upper mean = true.
Proof.
  set (x := f_lit (FDec false 1 (-1))). eexists [x; x; x], _, _, _, _, _. split; vm_compute; reflexivity.
Qed.
Print Assumptions C15_ordered_in_doubles_refuted.
Example C15_case : Forall finite [Fin (QcZ 5); Fin (QcZ 7)] /\ exists lower mean upper tupper,
  order_stats (NN := demo_num) 90 [Fin (QcZ 5); Fin (QcZ 7)] lower mean upper tupper 2.
Proof.
  split; [repeat constructor; eexists; reflexivity|].
  destruct (timer_stats_xq (fun q => q) 90 [Fin (QcZ 5); Fin (QcZ 7)]) as (a & b & c & d & _ & H); [lia|discriminate|repeat constructor; discriminate|].
  exists a, b, c, d. exact H.
Qed.

(** C16 *)
Theorem C16_percentile_total : forall sq percent (ds : list xq), 26 <= percent <= 100 -> ds <> [] ->
  exists t, timer_stats (NN := XQ sq) percent ds = Ok t.
Proof. exact timer_total. Qed.
Print Assumptions C16_percentile_total.
Theorem C16_low_percentile_raises : forall sq percent (a b : xq), 0 <= percent <= 25 ->
  timer_stats (NN := XQ sq) percent [a; b] = Exn IndexError.
Proof. exact low_percent_raises. Qed.
Print Assumptions C16_low_percentile_raises.
(** the ninetieth percentile of ten durations leaves out the largest *)
Example C16_case :
  (match timer_stats (NN := demo_num) 90 (map (fun z => Fin (QcZ z)) [7; 3; 10; 1; 9; 2; 8; 4; 6; 5]) with
   | Ok (_, upper, tupper, lower, count) => (ntrunc upper, ntrunc tupper, ntrunc lower, count)
   | Exn e => (Exn e, Exn e, Exn e, 0) end) = (Ok 10, Ok 9, Ok 1, 10).
Proof. vm_compute. reflexivity. Qed.

(** C17 *)
Theorem C17_gauges_resent : forall (NN : Num) E plugins es i p s' l,
  let s := y_st (sys_run E plugins es sys_init) in
  Forall sane es -> 1000 <= i ->
  grun (flush E (mp_cls E plugins) i p) s = (s', l, None) ->
  exists ts samples before after,
    ntrunc (e_clock E (w_clk (p_w s))) = Ok ts /\
    picks (fun m '(v, key) => gauge_sample m key v) (lines es) samples /\
    l = before ++ map (gauge_line ts) samples ++ after /\
    Forall (fun d => ~ named (B "stats.gauge.") d) after /\
    p_gauge s' = samples.
Proof. exact @gauges_flushed. Qed.
Print Assumptions C17_gauges_resent.
Example C17_case : p_gauge demo_state = [(Fin (QcZ 1), B "g"); (Fin (QcZ 2), B "g")] /\ gauge_sample (NN := demo_num) (B "g:2|g") (B "g") (nlit (FDec false 2 0)).
Proof. split; [vm_compute; reflexivity|]. exists (B "2"), [B "g"]. split; [line|number]. Qed.

(** C18: one meter object over any history *)
Theorem C18_meter_history : forall (NN : Num) (NX : NumExact NN),
  (forall (m : meter) ts, exists ms, snd (meter_report m ts) = Ok ms) ->
  forall name prefix created ops ts, exists l, since created ops l /\
  snd (meter_report (mrun ops (fresh_meter name prefix created)) ts) = Ok
    (if emits created ops ts then
       [DP (prefix ++ name ++ B ".count") (VF (nround 6 (nsum (marks ops)))) ts;
        DP (prefix ++ name ++ B ".rate") (VF (nround 6 (ndiv (nsum l) (nsub (nofZ ts) (polled created ops))))) ts]
     else []).
Proof. exact @meter_history. Qed.
Print Assumptions C18_meter_history.
Theorem C18_exact_reports_never_raise : forall sq (m : meter (NN := XQ sq)) ts, exists ms, snd (meter_report m ts) = Ok ms.
Proof. exact meter_total. Qed.
Print Assumptions C18_exact_reports_never_raise.
(** all meters of a service, whatever the schedule: nothing marked is lost *)
Theorem C18_meters_conserve : forall (NN : Num) (NX : NumExact NN) E plugins es key,
  exists l, picks (fun m => meter_sample m key) (lines es) l /\
  match p_meter (y_st (sys_run E plugins es sys_init)) !! key with
  | Some m => nadd (me_count m) (me_value m) = nsum l
  | None => l = []
  end.
Proof. exact @meters_conserved. Qed.
Print Assumptions C18_meters_conserve.
Example C18_case : let ops := [Mark (NN := demo_num) (Fin (QcZ 3)); Report 1005; Mark (NN := demo_num) (Fin (QcZ 4)); Report 1005] in
  emits (NN := demo_num) (Fin (QcZ 1000)) ops 1007 = true /\ since (NN := demo_num) (Fin (QcZ 1000)) ops [Fin (QcZ 4)] /\
  marks (NN := demo_num) ops = [Fin (QcZ 3); Fin (QcZ 4)].
Proof.
  cbv zeta. split; [vm_compute; reflexivity|]. split; [|reflexivity].
  apply (since_last (NN := demo_num) (Fin (QcZ 1000)) [Mark (NN := demo_num) (Fin (QcZ 3))] 1005 [Mark (NN := demo_num) (Fin (QcZ 4)); Report 1005]); [vm_compute; reflexivity|].
  intros c ts d H. destruct c as [|x [|y c]]; [discriminate| |destruct c; discriminate].
  injection H as <- <- <-. vm_compute. reflexivity.
Qed.

(** C19 *)
Theorem C19_rate_nonneg : forall sq name prefix q0 ops ts c r,
  let created := Fin q0 : Num.num (Num := XQ sq) in
  Forall nonneg (marks (NN := XQ sq) ops) ->
  xleb (polled (NN := XQ sq) created ops) (Fin (QcZ ts)) = true ->
  snd (meter_report (mrun (NN := XQ sq) ops (fresh_meter name prefix created)) ts) = Ok [c; r] ->
  exists x, dp_value r = VF x /\ nonneg x.
Proof. exact rate_nonneg. Qed.
Print Assumptions C19_rate_nonneg.
(** the clock advances by a hundredth of a second at every reading *)
Definition slow_env : env (NN := demo_num) :=
  @Env demo_num (fun n => Fin (Q2Qc ((100050 + Z.of_nat n) # 100))) (fun n => 1 + Z.of_nat n)
    (fun _ c => N_of_ascii c) (fun _ l => l) (fun _ _ => Permutation_refl _).
Definition neg_rate (d : dp (NN := demo_num)) : bool :=
  str_eqb (dp_name d) (B "stats.meter.m.rate") && match dp_value d with VF x => xltb x (Fin (QcZ 0)) | _ => false end.
Theorem C19_rate_nonneg_in_service_refuted : exists m s' l d x,
  grun (flush slow_env (mp_cls slow_env []) 10000 90) (receive slow_env [] m mp_init) = (s', l, None) /\
  m = B "m:2|m" /\ In d l /\ dp_name d = B "stats.meter.m.rate" /\ dp_value d = VF x /\ xltb x (Fin (QcZ 0)) = true.
Proof.
  exists (B "m:2|m"). match goal with |- context [grun ?g ?s] => destruct (grun g s) as [[s' l] r] eqn:Eg end. exists s', l.
  assert (H : (match r with None => true | _ => false end && existsb neg_rate l) = true).
  { apply (f_equal (fun '(_, l, r) => match r with None => true | _ => false end &&
      existsb neg_rate l)) in Eg. rewrite <- Eg. vm_compute. reflexivity. }
  apply andb_prop in H. destruct H as [Hr H]. destruct r; [discriminate|]. apply existsb_exists in H. destruct H as (d & Hd & H).
  apply andb_prop in H. destruct H as [H1 H2]. destruct (dp_value d) as [z|x] eqn:Ev; [discriminate|].
  exists d, x. split; [reflexivity|]. split; [reflexivity|]. split; [exact Hd|]. split; [apply str_eqb_eq; exact H1|].
  split; [exact Ev|exact H2].
Qed.
Print Assumptions C19_rate_nonneg_in_service_refuted.

(** C20 *)
Theorem C20_summary : forall (NN : Num) E plugins i p (s s' : mst) l, reachable E plugins s -> 1000 <= i ->
  grun (flush E (mp_cls E plugins) i p) s = (s', l, None) ->
  exists ts body kinds types dc dt dg dm dpl,
    let nc := Z.of_nat (size (p_counter s)) in
    let nt := Z.of_nat (length (List.filter (fun kv => nonempty (snd kv)) (map_to_list (p_timer s)))) in
    let ng := Z.of_nat (length (p_gauge s)) in
    let nm := Z.of_nat (size (p_meter s)) in
    let np := Z.of_nat (size (p_plug s)) in
    ntrunc (e_clock E (w_clk (p_w s))) = Ok ts /\
    Forall (fun d => ~ named (B "statsd.") d) body /\
    kinds ≡ₚ [(B "counter", (nc, dc)); (B "timer", (nt, dt)); (B "gauge", (ng, dg));
              (B "meter", (nm, dm)); (B "plugin", (np, dpl))] /\
    types ≡ₚ map_to_list (p_ptime s) /\
    l = body ++ DP (B "statsd.numStats") (VI (nc + nt + ng + nm + np)) ts ::
          flat_map (fun '(name, (n, x)) => summary_lines (B "flush") ts name n x) kinds ++
          flat_map (fun '(t, x) => summary_lines (B "receive") ts t (default 0 (p_btype s !! t)) x) types.
Proof. exact @summary_flushed. Qed.
Print Assumptions C20_summary.
Example C20_case : length (p_gauge demo_state) = 2%nat /\ size (p_plug demo_state) = 1%nat /\
  exists s' l, grun (flush demo_env (mp_cls demo_env demo_plugins) 10000 90) demo_state = (s', l, None).
Proof. split; [vm_compute; reflexivity|]. split; [vm_compute; reflexivity|]. exact demo_flush. Qed.

(** C21 *)
Theorem C21_receive_statistics_restart : forall (NN : Num) E plugins i p i2 p2 (s s' s2 : mst) l l2 ms,
  reachable E plugins s -> 1000 <= i -> 1000 <= i2 ->
  grun (flush E (mp_cls E plugins) i p) s = (s', l, None) ->
  grun (flush E (mp_cls E plugins) i2 p2) (receive_all E plugins ms s') = (s2, l2, None) ->
  p_ptime s' = ∅ /\ p_btype s' = ∅ /\
  exists ts before types,
    l2 = before ++ flat_map (fun '(t, (n, x)) => summary_lines (B "receive") ts t n x) types /\
    Forall (fun d => ~ named (B "statsd.receive.") d) before /\ NoDup (map fst types) /\
    forall t n, (exists x, In (t, (n, x)) types) <-> (counts_to E plugins (counted E plugins t) ms s' n /\ n <> 0).
Proof. exact @stats_restart. Qed.
Print Assumptions C21_receive_statistics_restart.
(** two counter lines are handled, the second during the summary; all flushes
    together report one, and nothing is left to report *)
Definition late_events : list event :=
  [Recv (B "a:1|c"); Start 10000 90] ++ repeat (Resume 0) 15 ++ [Recv (B "a:1|c"); Resume 0].
Theorem C21_every_message_reported_refuted :
  let y := sys_run demo_env [] late_events sys_init in
  length (y_live y) = 0%nat /\ y_exn y = [] /\ size (p_btype (y_st y)) = 0%nat /\ length (lines late_events) = 2%nat /\
  map dp_value (List.filter (fun d => str_eqb (dp_name d) (B "statsd.receive.c.count")) (y_out y)) = [VI 1].
Proof. cbv zeta. repeat split; vm_compute; reflexivity. Qed.
Print Assumptions C21_every_message_reported_refuted.
Example C21_case : exists s' l s2 l2,
  grun (flush demo_env (mp_cls demo_env demo_plugins) 10000 90) demo_state = (s', l, None) /\
  grun (flush demo_env (mp_cls demo_env demo_plugins) 10000 90) (receive_all demo_env demo_plugins [B "a:1|c"; B "b:1|c"] s') = (s2, l2, None).
Proof.
  destruct demo_flush as (s' & l & H). exists s', l.
  assert (Hr : reachable demo_env demo_plugins (receive_all demo_env demo_plugins [B "a:1|c"; B "b:1|c"] s')).
  { apply reachable_receive_all. eapply reachable_flush; [|exact demo_reachable|exact H]. lia. }
  destruct (completes (fun q => q) demo_env demo_plugins 10000 90 _ Hr ltac:(lia) ltac:(lia) demo_clock) as (s2 & l2 & H2).
  exists s2, l2. auto.
Qed.

(** C22 *)
Theorem C22_metric_names : forall (NN : Num) E plugins es key,
  key ∈ mp_metric_names (y_st (sys_run E plugins es sys_init)) <-> exists m, In m (lines es) /\ recorded plugins m key.
Proof. exact @names_exact. Qed.
Print Assumptions C22_metric_names.
Example C22_case : recorded (NN := demo_num) demo_plugins (B "t:5|ms") (B "t") /\ B "t" ∈ mp_metric_names demo_state /\ B "noise" ∉ mp_metric_names demo_state.
Proof.
  split; [|split].
  - right. left. exists (nlit (FDec false 5 0)), (B "5"), [B "ms"]. split; [line|number].
  - eapply bool_decide_eq_true_1. vm_compute. reflexivity.
  - eapply bool_decide_eq_true_1. vm_compute. reflexivity.
Qed.

(** C23: anything emitted, by any flush at any time *)
Theorem C23_emitted_names : forall (NN : Num) E plugins es, Forall sane es ->
  Forall (fun d => all_in name_chars (dp_name d) \/
                   exists key label, dp_name d = B "stats.SLI." ++ key ++ B ".count_" ++ label)
    (y_out (sys_run E plugins es sys_init)).
Proof. exact (fun NN E plugins es H => proj2 (names_ok E plugins es H)). Qed.
Print Assumptions C23_emitted_names.
Example C23_case : Forall sane [Recv (B "a b!:1|c"); Start 10000 90; Resume 0] /\
  map dp_name (y_out (sys_run demo_env demo_plugins [Recv (B "a b!:1|c"); Start 10000 90; Resume 0] sys_init)) = [B "stats.a_b"].
Proof. split; [repeat (constructor; [cbn; lia || exact I|]); constructor|vm_compute; reflexivity]. Qed.

(** C24 *)
Theorem C24_series_of_one_kind : forall k k' n,
  (counter_series k n -> counter_series k' n -> k = k') /\
  (forall p, timer_series p k n -> timer_series p k' n -> k = k') /\
  (gauge_series k n -> gauge_series k' n -> k = k').
Proof. exact (fun k k' n => conj (counter_series_inj k k' n) (conj (fun p => timer_series_inj p k k' n) (gauge_series_inj k k' n))). Qed.
Print Assumptions C24_series_of_one_kind.
Theorem C24_series_of_different_kinds : forall p k k' n,
  (timer_series p k n -> gauge_series k' n -> False) /\
  (counter_series k n -> timer_series p k' n -> starts (B "timers.") k) /\
  (counter_series k n -> gauge_series k' n -> starts (B "gauge.") k).
Proof. exact (fun p k k' n => conj (timer_gauge_disjoint p k k' n) (conj (counter_timer k p k' n) (counter_gauge k k' n))). Qed.
Print Assumptions C24_series_of_different_kinds.
Theorem C24_all_series_differ_refuted : exists m1 m2 s' l d1 d2,
  grun (flush demo_env (mp_cls demo_env []) 10000 90) (receive_all demo_env [] [m1; m2] mp_init) = (s', l, None) /\
  m1 = B "timers.x.count:5|c" /\ m2 = B "x:3|ms" /\
  l !! 0%nat = Some d1 /\ l !! 2%nat = Some d2 /\ dp_name d1 = dp_name d2 /\ dp_value d1 <> dp_value d2.
Proof.
  exists (B "timers.x.count:5|c"), (B "x:3|ms").
  match goal with |- context [grun ?g ?s] => destruct (grun g s) as [[s' l] r] eqn:Eg end. exists s', l.
  assert (H : match l, r with d1 :: _ :: d2 :: _, None => str_eqb (dp_name d1) (dp_name d2) &&
     match dp_value d1, dp_value d2 with VF _, VI _ => true | _, _ => false end | _, _ => false end = true).
  { apply (f_equal (fun '(_, l, r) => match l, r with d1 :: _ :: d2 :: _, None => str_eqb (dp_name d1) (dp_name d2) &&
     match dp_value d1, dp_value d2 with VF _, VI _ => true | _, _ => false end | _, _ => false end)) in Eg.
    rewrite <- Eg. vm_compute. reflexivity. }
  destruct l as [|d1 [|x [|d2 l]]], r; try discriminate H. apply andb_prop in H. destruct H as [H1 H2].
  exists d1, d2. split; [reflexivity|]. split; [reflexivity|]. split; [reflexivity|]. split; [reflexivity|]. split; [reflexivity|].
  split; [apply str_eqb_eq; exact H1|]. clear Eg. destruct (dp_value d1), (dp_value d2); discriminate.
Qed.
Print Assumptions C24_all_series_differ_refuted.
