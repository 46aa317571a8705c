(** One flush among any number of others and of lines arriving (C118).
    [follow es y i]: what the flush that is [i]-th of the unfinished ones sends while [es]
    happens, and what becomes of it; [at_moment y es n]: the processor when [n] of the events
    have happened; [taken table st a b report groups]: between the moments [a] and [b] every
    entry of the table is reported once, as it then is, and no entry is added. *)
From Verif Require Import Base StrFacts Num NumFacts Env Stats Glob Metrics Gen GenFacts Processor
  LineSpec LineFacts FloatFacts ProcFacts ProcSpec ReceiveFacts ReceiveFacts2 ReceiveFacts3 PlugFacts
  Sched FlushInv FlushOk SchedFacts StepFacts HistFacts TimerFacts XQFacts FlushSpec Disturb FlushSched FlushEnds Demo Props_Flush.
Open Scope Z_scope.

(** C118.  The flush begun after [es] comes to its end while [es'] happens, whatever lines
    arrive and whatever other flushes are begun, resumed and abandoned meanwhile.  What it has
    sent: every counter once, then every timer with durations, then every gauge received up to
    a moment, every meter, every plugin metric, and the summary with the right numbers. *)
Theorem C118_completed : forall (NN : Num) (E : env) plugins es i p es' out, 1000 <= i ->
  let y := sys_run E plugins (es ++ [Start i p]) sys_init in
  follow E plugins es' y (length (y_live (sys_run E plugins es sys_init))) = (out, Completed) ->
  exists ts a b c d e f cs tm gs ms ps kinds types dc dt dg dm dpl,
    let st := at_moment E plugins y es' in
    let nc := Z.of_nat (length cs) in
    let nt := Z.of_nat (length (List.filter nonempty tm)) in
    let ng := Z.of_nat (length gs) in
    let nm := Z.of_nat (length ms) in
    let np := Z.of_nat (length ps) in
    (f < length es')%nat /\ ntrunc (e_clock E (w_clk (p_w (st a)))) = Ok ts /\
    taken p_counter st a b (fun k v l => l = counter_lines (i / 1000) ts (k, v)) cs /\
    taken p_timer st b c (timer_report p ts) tm /\
    ((c <= d)%nat /\ picks (fun m '(v, key) => gauge_sample m key v) (lines (es ++ firstn c es')) gs /\
     picks (fun m '(v, key) => gauge_sample m key v) (lines (es ++ firstn d es')) gs) /\
    taken p_meter st d e (meter_taken ts) ms /\
    taken p_plug st e f (plug_taken E ts) ps /\
    kinds ≡ₚ [(B "counter", (nc, dc)); (B "timer", (nt, dt)); (B "gauge", (ng, dg));
              (B "meter", (nm, dm)); (B "plugin", (np, dpl))] /\
    Forall (named (B "statsd.receive.")) types /\
    out = concat cs ++ concat tm ++ map (gauge_line ts) gs ++ concat ms ++ concat ps ++
          DP (B "statsd.numStats") (VI (nc + nt + ng + nm + np)) ts ::
          flat_map (fun '(name, (n, x)) => summary_lines (B "flush") ts name n x) kinds ++ types.
Proof. exact @completed_flush. Qed.
Print Assumptions C118_completed.

(** So every counter and every gauge known when it began is among what it sent. *)
Theorem C118_none_left_out : forall (NN : Num) (E : env) plugins es i p es' out, 1000 <= i ->
  follow E plugins es' (sys_run E plugins (es ++ [Start i p]) sys_init) (length (y_live (sys_run E plugins es sys_init))) = (out, Completed) ->
  exists ts,
    (forall key m, In m (lines es) -> counter_touch m key ->
       exists v, In (DP (B "stats." ++ key) (VF (ndiv v (nofZ (i / 1000)))) ts) out /\ In (DP (B "stats_counts." ++ key) (VF v) ts) out) /\
    (forall key v m, In m (lines es) -> gauge_sample m key v -> In (DP (B "stats.gauge." ++ key ++ B ".value") (VF v) ts) out).
Proof. exact @none_left_out. Qed.
Print Assumptions C118_none_left_out.

(** What is sent for a timer are the right order statistics of what was stored. *)
Theorem C118_timers : forall sq p ts k v l, 26 <= p <= 100 -> Forall (fun x => x <> NaN) v ->
  timer_report (NN := XQ sq) p ts k v l -> timer_lines (NN := XQ sq) p ts (k, v) l.
Proof.
  intros sq p ts k v l Hp Hv [[-> ->]|(mean & upper & tupper & lower & Hs & Hne & ->)]; [left; auto|]. right. split; [exact Hne|].
  destruct (timer_stats_xq sq p v Hp Hne Hv) as (lo & me & up & tu & H1 & H2).
  pose proof (eq_trans (eq_sym H1) Hs) as He. injection He as -> -> -> ->. exists lower, mean, upper, tupper, (Z.of_nat (length v)). split; [exact H2|reflexivity].
Qed.
Print Assumptions C118_timers.

(** two flushes overlap; a counter, a timer and a new gauge arrive during the first, which
    comes to its end *)
Definition first_lines : list event := map Recv [B "a:1|c"; B "b:2|c"; B "t:5|ms"; B "g:2|g"; B "m:3|m"].
Definition busy : list event :=
  [Resume 0; Recv (B "a:7|c"); Resume 0; Start 10000 90; Resume 1; Recv (B "t:9|ms"); Recv (B "h:4|g"); Resume 0; Resume 1] ++ repeat (Resume 0) 45.
Example C118_case : exists out,
  follow demo_env demo_plugins busy (sys_run demo_env demo_plugins (first_lines ++ [Start 10000 90]) sys_init)
    (length (y_live (sys_run demo_env demo_plugins first_lines sys_init))) = (out, Completed) /\
  counter_touch (NN := demo_num) (B "b:2|c") (B "b") /\ gauge_sample (NN := demo_num) (B "g:2|g") (B "g") (nlit (FDec false 2 0)).
Proof.
  match goal with |- context [follow ?E ?P ?es ?y ?i] => destruct (follow E P es y i) as [out f] eqn:Ef end. exists out.
  apply (f_equal snd) in Ef. cbn [snd] in Ef. split; [|split].
  - f_equal. rewrite <- Ef. vm_compute. reflexivity.
  - eapply (ct_plain _ _ (B "2")); [line|number].
  - exists (B "2"), [B "g"]. split; [line|number].
Qed.
(** The claim that lines arriving do not break a flush is false: a gauge received while the
    gauges are being sent does. *)
Theorem C118_gauge_breaks_refuted : exists es', lines es' = [B "g:3|g"] /\
  let r := follow demo_env demo_plugins es' (sys_run demo_env demo_plugins ([Recv (B "g:2|g")] ++ [Start 10000 90]) sys_init) 0 in
  map dp_name (fst r) = [B "stats.gauge.g.value"] /\ snd r = Broken RuntimeError.
Proof. exists [Resume 0; Recv (B "g:3|g"); Resume 0]. split; [reflexivity|]. split; vm_compute; reflexivity. Qed.
Print Assumptions C118_gauge_breaks_refuted.

(** No flush goes on for ever: one that is resumed again and again comes to its end, is broken
    or is abandoned, whatever lines arrive between its steps and however many other flushes
    there are.  [firsts ev n]: the first [n] events of [ev]; [resumed_again E plugins ev y i]:
    for as long as it is unfinished the flush is resumed at some later moment. *)
Theorem C118_ends : forall (NN : Num) (E : env) plugins es i p (ev : nat -> event),
  let y := sys_run E plugins (es ++ [Start i p]) sys_init in
  let k := length (y_live (sys_run E plugins es sys_init)) in
  resumed_again E plugins ev y k ->
  exists n l f, follow E plugins (firsts ev n) y k = (l, f) /\ (f = Completed \/ f = Abandoned \/ exists x, f = Broken x).
Proof.
  intros NN E plugins es i p ev y k H. destruct (flush_ends E plugins es i p ev H) as (n & l & f & Hf & Ho). exists n, l, f. split; [exact Hf|].
  destruct f as [j| |x|]; [destruct Ho|left|right; right; exists x|right; left]; reflexivity.
Qed.
Print Assumptions C118_ends.
(** a line arrives before every step of the only flush *)
Definition line_and_step (n : nat) : event := if Nat.even n then Recv (B "a:1|c") else Resume 0.
Example C118_ends_case : resumed_again demo_env demo_plugins line_and_step
  (sys_run demo_env demo_plugins (first_lines ++ [Start 10000 90]) sys_init) (length (y_live (sys_run demo_env demo_plugins first_lines sys_init))).
Proof.
  change (length (y_live (sys_run demo_env demo_plugins first_lines sys_init))) with 0%nat.
  assert (H0 : forall es y l j, Forall (fun e => (exists m, e = Recv m) \/ e = Resume 0) es ->
    follow demo_env demo_plugins es y 0 = (l, Under_way j) -> j = 0%nat).
  { induction es as [|e es IH]; intros y l j Hes H; [injection H as _ <-; reflexivity|].
    inversion Hes as [|? ? He Hes']; subst. destruct He as [[m ->]| ->]; cbn [follow] in H; [eapply IH; eauto|].
    destruct (y_live y !! 0%nat); [|eapply IH; eauto]. cbn [Nat.eqb] in H. destruct (snd _) as [d g'| |x]; try discriminate.
    destruct (follow _ _ es _ 0) as [l1 f1] eqn:Ef. injection H as _ ->. eapply IH; eauto. }
  intros n. exists (2 * n + 1)%nat. split; [lia|]. intros l j H. apply H0 in H.
  - subst j. unfold line_and_step. rewrite Nat.add_1_r, Nat.even_succ, <- Nat.negb_even, Nat.even_mul. reflexivity.
  - unfold firsts. apply Forall_map, Forall_forall. intros x _. unfold line_and_step. destruct (Nat.even x); [left; eexists; reflexivity|right; reflexivity].
Qed.

(** And it comes to its end, having reported everything, if no new metric appears while it is
    unfinished and it is not abandoned (exact arithmetic; [same_names]: the same names in every
    table and as many gauges).  Known metrics may be updated and other flushes may go on. *)
Theorem C118_calm_completes : forall sq (E : env (NN := XQ sq)) plugins es i p ev,
  Forall sane es -> (forall n, sane (ev n)) -> 1000 <= i -> 26 <= p <= 100 ->
  (forall n, exists q, e_clock E n = Fin q) ->
  let y := sys_run E plugins (es ++ [Start i p]) sys_init in
  let k := length (y_live (sys_run E plugins es sys_init)) in
  resumed_again E plugins ev y k ->
  (forall n l j, follow E plugins (firsts ev n) y k = (l, Under_way j) ->
     same_names (y_st y) (at_moment E plugins y (firsts ev n) n) /\ ev n <> Drop j) ->
  exists n out, follow E plugins (firsts ev n) y k = (out, Completed).
Proof. exact calm_comes_to_end. Qed.
Print Assumptions C118_calm_completes.
(** the flush of [C118_ends_case] meets these hypotheses as well *)
Example C118_calm_case : let y := sys_run demo_env demo_plugins (first_lines ++ [Start 10000 90]) sys_init in
  Forall sane first_lines /\ (forall n, sane (line_and_step n)) /\
  forall n l j, follow demo_env demo_plugins (firsts line_and_step n) y 0 = (l, Under_way j) ->
    same_names (y_st y) (at_moment demo_env demo_plugins y (firsts line_and_step n) n) /\ line_and_step n <> Drop j.
Proof.
  intros y. split; [unfold first_lines; apply Forall_map, Forall_forall; intros x _; exact I|]. split.
  { intros n. unfold line_and_step. destruct (Nat.even n); exact I. }
  assert (Hend : snd (follow demo_env demo_plugins (firsts line_and_step 90) (sys_run demo_env demo_plugins (first_lines ++ [Start 10000 90]) sys_init) 0) = Completed)
    by (vm_compute; reflexivity).
  assert (Hall : forallb (fun n => same_namesb (y_st (sys_run demo_env demo_plugins (first_lines ++ [Start 10000 90]) sys_init))
      (at_moment demo_env demo_plugins (sys_run demo_env demo_plugins (first_lines ++ [Start 10000 90]) sys_init) (firsts line_and_step n) n)
    || match snd (follow demo_env demo_plugins (firsts line_and_step n) (sys_run demo_env demo_plugins (first_lines ++ [Start 10000 90]) sys_init) 0)
       with Completed => true | _ => false end) (seq 0 90) = true) by (vm_compute; reflexivity).
  intros n l j H. split; [|unfold line_and_step; destruct (Nat.even n); discriminate].
  destruct (Nat.lt_ge_cases n 90) as [Hn|Hn].
  - rewrite forallb_forall in Hall. specialize (Hall n). rewrite in_seq in Hall. specialize (Hall ltac:(lia)). apply orb_prop in Hall.
    destruct Hall as [Ha|Ha]; [apply same_namesb_sound; exact Ha|]. fold y in Ha. rewrite H in Ha. discriminate.
  - exfalso. fold y in Hend.
    assert (Hs : exists rest, firsts line_and_step n = firsts line_and_step 90 ++ rest).
    { exists (map line_and_step (seq 90 (n - 90))). unfold firsts. rewrite <- map_app. f_equal.
      replace n with (90 + (n - 90))%nat at 1 by lia. rewrite seq_app. reflexivity. }
    destruct Hs as [rest Hs]. rewrite Hs in H.
    destruct (follow demo_env demo_plugins (firsts line_and_step 90) y 0) as [l0 f0] eqn:E0.
    replace (snd (l0, f0)) with f0 in Hend by reflexivity. subst f0.
    pose proof (follow_over demo_env demo_plugins _ rest _ _ _ _ E0 I) as Ho. rewrite H in Ho. discriminate.
Qed.
