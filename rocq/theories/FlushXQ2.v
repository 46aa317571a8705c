(** Timers in a complete flush, exact numbers; flushes interleaved with harmless lines. *)
From Verif Require Import Base Num NumFacts Env Stats Glob Metrics Gen GenFacts Processor
  ProcFacts ProcSpec ReceiveFacts Sched FlushInv FlushOk FlushRun FlushStages FlushComp FlushFail TimerFacts XQFacts
  FlushSpec FlushParts FlushXQ FlushDerived Disturb.
From Coq Require Import QArith Qcanon.
Open Scope Z_scope.

Section xq.
Context (sq : Qc -> Qc).
Notation NN := (XQ sq).
Context (E : env (NN := NN)) (plugins : list (factory (NN := NN))).
Notation C := (mp_cls E plugins).

Lemma timers_flushed i p (s s' : mst) l : reachable E plugins s -> 1000 <= i -> 26 <= p <= 100 ->
  (forall k ds, p_timer s !! k = Some ds -> Forall (fun x => x <> NaN) ds) ->
  grun (flush E C i p) s = (s', l, None) ->
  exists ts counters timers blocks after,
    ntrunc (e_clock E (w_clk (p_w s))) = Ok ts /\
    timers ≡ₚ map_to_list (p_timer s) /\ Forall2 (timer_lines p ts) timers blocks /\
    l = flat_map (counter_lines (i / 1000) ts) counters ++ concat blocks ++ after /\
    Forall (fun d => ~ named (B "stats.timers.") d) after /\
    p_timer s' = (fun _ => []) <$> p_timer s.
Proof.
  intros Hr Hi Hp Hok H. destruct (flush_parts E plugins i p s s' l (reachable_inv E plugins s Hr) Hi H)
    as (ts & ck & tk & lm & lp & H1 & H2 & (H3 & H3') & H4 & H5 & H6 & (kinds & types & dc & dt & dg & dm & dpl & H7 & H8 & H9) & H10 & H11 & _).
  destruct (timer_blocks sq p ts tk Hp) as (blocks & Hb1 & Hb2).
  { apply Forall_forall. intros [k ds] Hk. apply (Hok k). apply elem_of_map_to_list. rewrite <- H3. exact Hk. }
  exists ts, ck, tk, blocks. eexists. split; [exact H1|]. split; [exact H3|]. split; [exact Hb1|].
  split; [rewrite H9, Hb2; reflexivity|]. split; [|exact H11].
  apply Forall_app. split.
  - apply Forall_map, Forall_forall. intros vk _ [r Hr']. discriminate.
  - eapply Forall_impl; [eapply (tail_names lm lp); [exact H5|exact H6|reflexivity]|]. intros d [_ Hd]. exact Hd.
Qed.

Lemma completes i p (s : mst) : reachable E plugins s -> 1000 <= i -> 26 <= p <= 100 ->
  (forall n, exists q, e_clock E n = Fin q) ->
  exists s' l, grun (flush E C i p) s = (s', l, None).
Proof.
  intros Hr Hi Hp Hc. destruct (Hc (w_clk (p_w s))) as [q Hq].
  apply (flush_completes sq E plugins i p s (Qctrunc q)); auto.
  - apply reachable_inv with E plugins. exact Hr.
  - rewrite Hq. reflexivity.
Qed.
Lemma calm_completes i p (s : mst) batches : reachable E plugins s -> 1000 <= i -> 26 <= p <= 100 ->
  (forall n, exists q, e_clock E n = Fin q) ->
  calm E plugins (flush E C i p) s batches ->
  forall e, snd (drive E plugins (flush E C i p) s batches) <> Failed e.
Proof.
  intros Hr Hi Hp Hc Hcalm. apply calm_flush_ok; auto.
  - intros ds Hds. apply (timer_total sq p ds Hp Hds).
  - intros m ts. apply meter_total.
  - apply reachable_inv with E plugins. exact Hr.
  - intros n. destruct (Hc n) as [q Hq]. exists (Qctrunc q). rewrite Hq. reflexivity.
Qed.
End xq.
