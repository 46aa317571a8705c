(** The parts of a flush, one property at a time, from the states a running service can reach. *)
From Verif Require Import Base Num Env Stats Glob Metrics Gen GenFacts Processor
  LineSpec ProcFacts ProcSpec ReceiveFacts ReceiveFacts2 ReceiveFacts3 Sched FlushInv FlushOk SchedFacts
  FlushRun FlushStages FlushComp FlushFail TimerFacts StepFacts HistFacts FlushSpec FlushParts.

Section derived.
Context `{NN : Num} (E : env) (plugins : list factory).
Notation C := (mp_cls E plugins).
Notation Run es := (sys_run E plugins es sys_init).

(** states of a service whose flush interval is at least a second *)
Definition reachable (s : mst) : Prop := exists es, Forall sane es /\ s = y_st (Run es).
Lemma reachable_inv s : reachable s -> Inv s.
Proof. intros (es & H & ->). apply names_ok. exact H. Qed.
Lemma reachable_receive s m : reachable s -> reachable (receive E plugins m s).
Proof.
  intros (es & H & ->). exists (es ++ [Recv m]). split; [apply Forall_app; split; [exact H|repeat constructor]|].
  unfold sys_run. rewrite fold_left_app. reflexivity.
Qed.
Lemma reachable_receive_all ms : forall s, reachable s -> reachable (receive_all E plugins ms s).
Proof. induction ms as [|m ms IH]; intros s H; [exact H|]. rewrite receive_all_cons. apply IH, reachable_receive, H. Qed.

Lemma grun_nil (g : gen mst) : forall s s', grun g s = (s', [], None) -> gnext g s = (s', Finished).
Proof.
  induction g as [|e|f IHf|ms k IHk] using gen_ind'; intros s s'; cbn [grun gnext].
  - intros [= ->]. reflexivity.
  - discriminate.
  - specialize (IHf s). destruct (f s) as [s1 g1]. cbn in IHf. apply IHf.
  - destruct (grun k s) as [[s1 l1] r] eqn:Ek. destruct ms; [|discriminate]. cbn. intros [= -> -> ->]. apply IHk. exact Ek.
Qed.
Lemma grun_cons (g : gen mst) : forall s s' d l, grun g s = (s', d :: l, None) ->
  exists s1 g1, gnext g s = (s1, Yielded d g1) /\ grun g1 s1 = (s', l, None).
Proof.
  induction g as [|e|f IHf|ms k IHk] using gen_ind'; intros s s' d l; cbn [grun gnext].
  - discriminate.
  - discriminate.
  - specialize (IHf s). destruct (f s) as [s1 g1]. cbn in IHf. apply IHf.
  - destruct (grun k s) as [[s1 l1] r] eqn:Ek. destruct ms as [|d0 ms]; cbn.
    + intros [= -> -> ->]. apply IHk. exact Ek.
    + intros [= -> -> <- ->]. eexists _, _. split; [reflexivity|]. cbn [grun]. rewrite Ek. reflexivity.
Qed.
(** running a flush to its end is one of the schedules *)
Lemma replay (g : gen mst) : forall y live s' l, y_live y = live ++ [g] -> grun g (y_st y) = (s', l, None) ->
  exists n, sys_run E plugins (repeat (Resume (length live)) n) y = Sys s' live (y_gone y) (y_out y ++ l) (y_exn y).
Proof.
  assert (Hn : forall y live g, y_live y = live ++ [g] -> y_live y !! length live = Some g).
  { intros y live g' ->. apply list_lookup_middle. reflexivity. }
  assert (Hd : forall live (g : gen mst), delete (length live) (live ++ [g]) = live).
  { intros live g'. rewrite delete_middle, app_nil_r. reflexivity. }
  assert (Hi : forall live (g g' : gen mst), <[length live := g']> (live ++ [g]) = live ++ [g']).
  { intros live g1 g2. rewrite <- (Nat.add_0_r (length live)) at 1. rewrite insert_app_r. reflexivity. }
  intros y live s' l Hl Hg.
  (* the number of steps is the number of items plus one *)
  assert (Hst : forall l g y, y_live y = live ++ [g] -> grun g (y_st y) = (s', l, None) ->
     sys_run E plugins (repeat (Resume (length live)) (S (length l))) y = Sys s' live (y_gone y) (y_out y ++ l) (y_exn y)).
  { clear l g y Hl Hg. induction l as [|d l IH]; intros g y Hl Hg.
    - cbn [length repeat sys_run fold_left sys_step]. rewrite (Hn y live g Hl), Hl.
      pose proof (grun_nil g (y_st y) s' Hg) as Hgn.
      rewrite Hgn, Hd, app_nil_r. reflexivity.
    - cbn [length]. change (repeat (Resume (length live)) (S (S (length l)))) with (Resume (length live) :: repeat (Resume (length live)) (S (length l))).
      cbn [sys_run fold_left]. fold (sys_run E plugins (repeat (Resume (length live)) (S (length l)))).
      cbn [sys_step]. rewrite (Hn y live g Hl).
      pose proof (grun_cons g (y_st y) s' d l Hg) as Hgn.
      destruct Hgn as (s1 & g1 & Hg1 & Hg2). rewrite Hg1, Hl, Hi.
      change (fold_left (sys_step E plugins) ?a ?b) with (sys_run E plugins a b).
      rewrite (IH g1); [|reflexivity|exact Hg2]. cbn [y_gone y_out y_exn]. rewrite <- app_assoc. reflexivity. }
  exists (S (length l)). apply (Hst l g y Hl Hg).
Qed.
Lemma reachable_flush i p s s' l : 1000 <= i -> reachable s -> grun (flush E C i p) s = (s', l, None) -> reachable s'.
Proof.
  intros Hi (es & H & ->) Hg. set (y := Run es) in *.
  destruct (replay (flush E C i p) (Sys (y_st y) (y_live y ++ [flush E C i p]) (y_gone y) (y_out y) (y_exn y)) (y_live y) s' l eq_refl Hg) as [n Hn].
  exists (es ++ Start i p :: repeat (Resume (length (y_live y))) n). split.
  - apply Forall_app. split; [exact H|]. constructor; [exact Hi|]. apply Forall_forall. intros e He.
    apply elem_of_list_In, repeat_spec in He. subst e. exact Logic.I.
  - unfold sys_run. rewrite fold_left_app. cbn [fold_left]. change (fold_left (sys_step E plugins) es sys_init) with y.
    change (fold_left (sys_step E plugins) ?a ?b) with (sys_run E plugins a b). cbn [sys_step]. rewrite Hn. reflexivity.
Qed.

Definition other_names (d : dp) : Prop :=
  Exists (fun p => named p d) [B "stats.timers."; B "stats.gauge."; B "stats.meter."; B "stats.SLI."; B "stats.pdistinct."; B "statsd."].

Lemma other_by p d : In p [B "stats.timers."; B "stats.gauge."; B "stats.meter."; B "stats.SLI."; B "stats.pdistinct."; B "statsd."] ->
  named p d -> other_names d.
Proof. intros H1 H2. apply Exists_exists. exists p. split; [apply elem_of_list_In; exact H1|exact H2]. Qed.
Ltac oth P := apply (other_by P); [unfold In; tauto|].

Lemma counters_flushed i p (s s' : mst) l : reachable s -> 1000 <= i ->
  grun (flush E C i p) s = (s', l, None) ->
  exists ts counters rest, ntrunc (e_clock E (w_clk (p_w s))) = Ok ts /\
    counters ≡ₚ map_to_list (p_counter s) /\
    l = flat_map (counter_lines (i / 1000) ts) counters ++ rest /\ Forall other_names rest /\
    p_counter s' = (fun _ => n0) <$> p_counter s.
Proof.
  intros Hr Hi H. destruct (flush_parts E plugins i p s s' l (reachable_inv s Hr) Hi H)
    as (ts & ck & tk & lm & lp & H1 & H2 & (H3 & H3') & H4 & H5 & H6 & (kinds & types & dc & dt & dg & dm & dpl & H7 & H8 & H9) & H10 & _).
  exists ts, ck. eexists. split; [exact H1|]. split; [exact H2|]. split; [exact H9|]. split; [|exact H10].
  rewrite !Forall_app, Forall_cons, !Forall_app.
  assert (Hs : forall what t n x ts, Forall other_names (summary_lines (NN := NN) what ts t n x)).
  { intros. unfold summary_lines. each; oth (B "statsd."); eexists; reflexivity. }
  repeat split.
  - apply Forall_flat_map, Forall_forall. intros kv _. eapply Forall_impl; [apply out_gt_named|].
    intros d Hd. oth (B "stats.timers."). exact Hd.
  - apply Forall_map. apply Forall_forall. intros vk _. oth (B "stats.gauge."). eexists. reflexivity.
  - eapply Forall_impl; [exact H5|]. intros d Hd. oth (B "stats.meter."). exact Hd.
  - eapply Forall_impl; [exact H6|]. intros d [Hd|Hd]; [oth (B "stats.SLI.")|oth (B "stats.pdistinct.")]; exact Hd.
  - oth (B "statsd."). eexists; reflexivity.
  - apply Forall_flat_map, Forall_forall. intros [name [n x]] _. apply Hs.
  - apply Forall_flat_map, Forall_forall. intros [name x] _. apply Hs.
Qed.

(** names behind the gauges in a flush *)
Lemma after_gauges (d : dp) : named (B "stats.meter.") d \/ named (B "stats.SLI.") d \/ named (B "stats.pdistinct.") d \/ named (B "statsd.") d ->
  ~ named (B "stats.gauge.") d /\ ~ named (B "stats.timers.") d.
Proof.
  intros H. split; intros [r Hr]; repeat (destruct H as [H|H]); destruct H as [r' Hr']; rewrite Hr in Hr'; discriminate.
Qed.
Lemma tail_names (lm lp l : list dp) nums ts kinds types btype :
  Forall (named (B "stats.meter.")) lm ->
  Forall (fun d => named (B "stats.SLI.") d \/ named (B "stats.pdistinct.") d) lp ->
  l = lm ++ lp ++ DP (B "statsd.numStats") nums ts ::
      flat_map (fun '(name, (n, x)) => summary_lines (B "flush") ts name n x) kinds ++
      flat_map (fun '(t, x) => summary_lines (B "receive") ts t (btype t) x) types ->
  Forall (fun d => ~ named (B "stats.gauge.") d /\ ~ named (B "stats.timers.") d) l.
Proof.
  intros H5 H6 ->. rewrite !Forall_app, Forall_cons, !Forall_app.
  assert (Hs : forall what t n x ts, Forall (fun d => ~ named (B "stats.gauge.") d /\ ~ named (B "stats.timers.") d) (summary_lines (NN := NN) what ts t n x)).
  { intros. unfold summary_lines. each; apply after_gauges; right; right; right; eexists; reflexivity. }
  repeat apply conj.
  - eapply Forall_impl; [exact H5|]. intros d Hd. apply after_gauges. auto.
  - eapply Forall_impl; [exact H6|]. intros d Hd. apply after_gauges. destruct Hd; auto.
  - intros [r Hr]. discriminate.
  - intros [r Hr]. discriminate.
  - apply Forall_flat_map, Forall_forall. intros [name [n x]] _. apply Hs.
  - apply Forall_flat_map, Forall_forall. intros [name x] _. apply Hs.
Qed.

(** every gauge sample ever received, in order, at every flush *)
Lemma gauges_flushed es i p s' l : Forall sane es -> 1000 <= i ->
  grun (flush E C i p) (y_st (Run es)) = (s', l, None) ->
  exists ts samples before after,
    ntrunc (e_clock E (w_clk (p_w (y_st (Run es))))) = Ok ts /\
    picks (fun m '(v, key) => gauge_sample m key v) (lines es) samples /\
    l = before ++ map (gauge_line ts) samples ++ after /\
    Forall (fun d => ~ named (B "stats.gauge.") d) after /\
    p_gauge s' = samples.
Proof.
  intros Hes Hi H. assert (Hr : reachable (y_st (Run es))) by (exists es; auto).
  destruct (flush_parts E plugins i p _ s' l (reachable_inv _ Hr) Hi H)
    as (ts & ck & tk & lm & lp & H1 & H2 & (H3 & H3') & H4 & H5 & H6 & (kinds & types & dc & dt & dg & dm & dpl & H7 & H8 & H9) & H10 & H11 & H12 & _).
  destruct (gauges_kept E plugins es) as (samples & Hp & Hg).
  exists ts, samples, (flat_map (counter_lines (i / 1000) ts) ck ++ flat_map (out_of (gt p ts)) tk). eexists.
  split; [exact H1|]. split; [exact Hp|]. split; [rewrite H9, <- app_assoc, Hg; reflexivity|].
  split; [|congruence]. eapply Forall_impl; [eapply (tail_names lm lp); [exact H5|exact H6|reflexivity]|]. intros d [Hd _]. exact Hd.
Qed.

(** the summary *)
Lemma summary_flushed i p (s s' : mst) l : reachable s -> 1000 <= i ->
  grun (flush E C i p) s = (s', l, None) ->
  exists ts body kinds types dc dt dg dm dpl,
    let nc := Z.of_nat (size (p_counter s)) in
    let nt := Z.of_nat (length (List.filter (fun kv => nonempty (snd kv)) (map_to_list (p_timer s)))) in
    let ng := Z.of_nat (length (p_gauge s)) in
    let nm := Z.of_nat (size (p_meter s)) in
    let np := Z.of_nat (size (p_plug s)) in
    ntrunc (e_clock E (w_clk (p_w s))) = Ok ts /\
    Forall (fun d => ~ named (B "statsd.") d) body /\
    kinds ≡ₚ [(B "counter", (nc, dc)); (B "timer", (nt, dt)); (B "gauge", (ng, dg));
              (B "meter", (nm, dm)); (B "plugin", (np, dpl))] /\
    types ≡ₚ map_to_list (p_ptime s) /\
    l = body ++ DP (B "statsd.numStats") (VI (nc + nt + ng + nm + np)) ts ::
          flat_map (fun '(name, (n, x)) => summary_lines (B "flush") ts name n x) kinds ++
          flat_map (fun '(t, x) => summary_lines (B "receive") ts t (default 0 (p_btype s !! t)) x) types.
Proof.
  intros Hr Hi H. destruct (flush_parts E plugins i p s s' l (reachable_inv s Hr) Hi H)
    as (ts & ck & tk & lm & lp & H1 & H2 & (H3 & H3') & H4 & H5 & H6 & (kinds & types & dc & dt & dg & dm & dpl & H7 & H8 & H9) & _).
  exists ts, (flat_map (counter_lines (i / 1000) ts) ck ++ flat_map (out_of (gt p ts)) tk ++
          map (gauge_line ts) (p_gauge s) ++ lm ++ lp), kinds, types, dc, dt, dg, dm, dpl.
  cbv zeta in *. split; [exact H1|]. split; [|split; [exact H7|]; split; [exact H8|]; rewrite H9, <- !app_assoc; reflexivity].
  assert (Hn : forall q d, named q d -> (forall r r', q ++ r <> B "statsd." ++ r') -> ~ named (NN := NN) (B "statsd.") d).
  { intros q d [r Hr'] Hq [r' Hr'']. rewrite Hr' in Hr''. exact (Hq r r' Hr''). }
  rewrite !Forall_app. repeat apply conj.
  - apply Forall_flat_map, Forall_forall. intros kv _. unfold counter_lines. each; intros [r Hr']; discriminate.
  - apply Forall_flat_map, Forall_forall. intros kv _. eapply Forall_impl; [apply out_gt_named|].
    intros d Hd. eapply Hn; [exact Hd|discriminate].
  - apply Forall_map, Forall_forall. intros vk _ [r Hr']. discriminate.
  - eapply Forall_impl; [exact H5|]. intros d Hd. eapply Hn; [exact Hd|discriminate].
  - eapply Forall_impl; [exact H6|]. intros d [Hd|Hd]; (eapply Hn; [exact Hd|discriminate]).
Qed.

(** what a flush leaves: nothing is known about received lines *)
Lemma stats_restart i p i2 p2 (s s' s2 : mst) l l2 ms : reachable s -> 1000 <= i -> 1000 <= i2 ->
  grun (flush E C i p) s = (s', l, None) ->
  grun (flush E C i2 p2) (receive_all E plugins ms s') = (s2, l2, None) ->
  p_ptime s' = ∅ /\ p_btype s' = ∅ /\
  exists ts before types,
    l2 = before ++ flat_map (fun '(t, (n, x)) => summary_lines (B "receive") ts t n x) types /\
    Forall (fun d => ~ named (B "statsd.receive.") d) before /\ NoDup (map fst types) /\
    forall t n, (exists x, In (t, (n, x)) types) <-> (counts_to E plugins (counted E plugins t) ms s' n /\ n <> 0).
Proof.
  intros Hr Hi Hi2 H H2. pose proof (reachable_flush i p s s' l Hi Hr H) as Hr'.
  destruct (flush_parts E plugins i p s s' l (reachable_inv s Hr) Hi H)
    as (_ & _ & _ & _ & _ & _ & _ & _ & _ & _ & _ & _ & _ & _ & _ & _ & _ & Hpt & Hbt).
  split; [exact Hpt|]. split; [exact Hbt|].
  pose proof (reachable_receive_all ms s' Hr') as Hr2. set (sm := receive_all E plugins ms s') in *.
  destruct (summary_flushed i2 p2 sm s2 l2 Hr2 Hi2 H2) as (ts & body & kinds & types & dc & dt & dg & dm & dpl & H3).
  cbv zeta in H3. destruct H3 as (_ & Hb & Hk & Ht & Hl).
  set (types' := map (fun '(t, x) => (t, (default 0 (p_btype sm !! t), x))) types).
  match type of Hl with _ = body ++ ?d :: ?a ++ ?b => exists ts, (body ++ d :: a), types' end.
  split; [|split; [|split]].
  - rewrite Hl, <- app_assoc. cbn [app]. do 3 f_equal. unfold types'. clear. induction types as [|[t x] types IH]; [reflexivity|].
    cbn [map flat_map]. rewrite IH. reflexivity.
  - apply Forall_app. split; [|apply Forall_cons; split].
    + eapply Forall_impl; [exact Hb|]. intros d Hd [r Hr0]. apply Hd. exists (B "receive." ++ r). exact Hr0.
    + intros [r Hr0]. discriminate.
    + apply Forall_flat_map, Forall_forall. intros [name [n x]] _. unfold summary_lines. each; intros [r Hr0]; discriminate.
  - assert (Hf : map fst types' = map fst types).
    { unfold types'. rewrite map_map. apply map_ext. intros [t x]. reflexivity. }
    rewrite Hf. change (map fst types) with (types.*1). rewrite Ht. apply NoDup_fst_map_to_list.
  - intros t n. destruct (btype_history E plugins ms s' t) as (n' & Hn & Hbn). fold sm in Hbn. rewrite Hbt, lookup_empty in Hbn.
    assert (Hdet : forall a b, counts_to E plugins (counted E plugins t) ms s' a -> counts_to E plugins (counted E plugins t) ms s' b -> a = b).
    { clear. intros a b H. revert b. induction H as [s|m ms s n Hp H IH|m ms s n Hp H IH]; intros b Hb; inversion Hb; subst; try contradiction; auto.
      f_equal. auto. }
    pose proof (inv_bt sm (reachable_inv sm Hr2) t) as Hib. split.
    + intros [x Hx]. unfold types' in Hx. apply in_map_iff in Hx. destruct Hx as ([t0 x0] & Heq & Hin). injection Heq as -> <- <-.
      assert (Hs : is_Some (p_ptime sm !! t)).
      { exists x0. apply elem_of_map_to_list. rewrite <- Ht. apply elem_of_list_In. exact Hin. }
      apply Hib in Hs. rewrite Hbn in *. destruct (n' =? 0) eqn:E0; [destruct Hs; discriminate|]. cbn. split; [exact Hn|lia].
    + intros [Hc Hne]. pose proof (Hdet _ _ Hn Hc) as ->. destruct (n =? 0) eqn:E0; [lia|].
      assert (Hs : is_Some (p_ptime sm !! t)) by (apply Hib; rewrite Hbn; eauto).
      destruct Hs as [x Hx]. exists x. unfold types'. apply in_map_iff. exists (t, x). split; [rewrite Hbn; reflexivity|].
      apply elem_of_list_In. rewrite Ht. apply elem_of_map_to_list. exact Hx.
Qed.
End derived.
