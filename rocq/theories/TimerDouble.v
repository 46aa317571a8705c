(** The statistics of timers: exact arithmetic and doubles. *)
From Coq Require Qcanon.
From Verif Require Import Base Num NumFacts Env Stats Glob Metrics Gen GenFacts Processor ProcSpec ReceiveFacts
  Sched FlushInv FlushOk SchedFacts TimerFacts XQFacts B64 WholeFacts FlushSpec FlushXQ TimerSched TimerDaemon Trim64.
From Coq Require Import Floats.SpecFloat.
Open Scope Z_scope.

Lemma summarises_xq sq most : summarises (XQ sq) (fun p => 26 <= p <= 100) (fun x : xq => x <> Num.NaN) most.
Proof. intros p ds Hp Hne Hr _. apply timer_stats_xq; assumption. Qed.

Definition double_percentile (p : Z) : Prop := 26 <= p /\ In p exact_percentiles.
Definition most_durations : Z := 2 ^ 40.
Lemma double_range p : double_percentile p -> 26 <= p <= 100.
Proof. intros [H1 H2]. split; [exact H1|]. cbn in H2. repeat (destruct H2 as [<-|H2]; [lia|]). destruct H2. Qed.
Lemma summarises_64 : summarises B64 double_percentile (fun x : f64 => x <> S754_nan) most_durations.
Proof.
  intros p ds Hp Hne Hr Hl.
  destruct (Z_le_gt_dec 2 (Z.of_nat (length ds))) as [H2|H2].
  - destruct (trimmed64_range p (Z.of_nat (length ds)) (double_range p Hp) ltac:(unfold most_durations in Hl; lia)) as (t & T1 & T2 & T3 & T4).
    apply (timer_stats_spec (NN := B64) (NO := B64_ord) p ds t Hne Hr). intros _.
    split; [exact T1|]. split; [apply T4, (proj2 Hp)|]. split; [exact T2|exact T3].
  - apply (timer_stats_spec (NN := B64) (NO := B64_ord) p ds 0 Hne Hr). intros H. destruct (Zlt_not_le _ _ (Z.gt_lt _ _ H2) H).
Qed.
Lemma total_64 p (ds : list f64) : 26 <= p <= 100 -> ds <> [] -> Z.of_nat (length ds) <= most_durations ->
  exists r, timer_stats (NN := B64) p ds = Ok r.
Proof.
  intros Hp Hne Hl. destruct (Z_le_gt_dec 2 (Z.of_nat (length ds))) as [H2|H2].
  - destruct (trimmed64_range p (Z.of_nat (length ds)) Hp ltac:(unfold most_durations in Hl; lia)) as (t & T1 & T2 & T3 & _).
    apply (timer_stats_total (NN := B64) p ds t Hne). intros _. auto.
  - apply (timer_stats_total (NN := B64) p ds 0 Hne). intros H. destruct (Zlt_not_le _ _ (Z.gt_lt _ _ H2) H).
Qed.
(** no batch is lost *)
Lemma kept_64 (E : env (NN := B64)) plugins key es received : (forall p, begun_with es p -> 26 <= p <= 100) ->
  picks (fun m => timer_sample (NN := B64) m key) (lines es) received -> Z.of_nat (length received) <= most_durations ->
  let y := sys_run E plugins es sys_init in
  exists batches groups rest,
    received = concat batches ++ default [] (p_timer (y_st y) !! key) /\
    Forall2 (fun b l => b <> [] /\ exists p ts, begun_with es p /\ summarised (NN := B64) key p ts b l) batches groups /\
    y_out y ++ flat_map pending (y_live y ++ y_gone y) ≡ₚ concat groups ++ rest /\
    Forall (alien (counted (lines es)) key) rest.
Proof.
  intros HP Hp Hl y. destruct (timers_any E plugins key es received Hp) as (bs & gs & rest & H1 & H2 & H3 & H4 & H5).
  exists bs, gs, rest. split; [exact H1|]. split; [|auto]. rewrite H1, app_length, Nat2Z.inj_add in Hl.
  assert (Hl' : Z.of_nat (length (concat bs)) <= most_durations) by (eapply Z.le_trans; [|exact Hl]; rewrite <- (Z.add_0_r (Z.of_nat (length (concat bs)))) at 1; apply Z.add_le_mono_l, Nat2Z.is_nonneg). clear - HP H2 H3 Hl'.
  induction H3 as [|b l bs gs (p & Hp & Hf) _ IH]; [constructor|]. apply Forall_cons in H2 as [Hb H2]. cbn [concat] in Hl'. rewrite app_length, Nat2Z.inj_add in Hl'.
  assert (L1 : Z.of_nat (length b) <= most_durations) by (eapply Z.le_trans; [|exact Hl']; rewrite <- (Z.add_0_r (Z.of_nat (length b))) at 1; apply Z.add_le_mono_l, Nat2Z.is_nonneg).
  assert (L2 : Z.of_nat (length (concat bs)) <= most_durations) by (eapply Z.le_trans; [|exact Hl']; rewrite <- (Z.add_0_l (Z.of_nat (length (concat bs)))) at 1; apply Z.add_le_mono_r, Nat2Z.is_nonneg).
  constructor; [|apply IH; [exact H2|exact L2]]. split; [exact Hb|]. exists p.
  destruct (total_64 p b (HP p Hp) Hb L1) as [r Hr]. destruct Hf as [(ts & Hs)|(_ & e & He & _)]; [exists ts; auto|congruence].
Qed.
(** all of the statistics of one duration, and the number of durations *)
Lemma rounded_down : trimmed (NN := B64) 30 45 = Ok 31 /\ ~ set_aside 30 45 31 /\ set_aside 30 45 32.
Proof. split; [vm_compute; reflexivity|]. unfold set_aside. lia. Qed.
