(** Flushing with exact numbers: nothing can raise for percentiles 26..100. *)
From Verif Require Import Base Num NumFacts Env Stats Glob Metrics Gen GenFacts Processor
  ProcFacts ProcSpec ReceiveFacts Sched FlushInv FlushOk FlushRun FlushStages FlushComp FlushFail TimerFacts XQFacts FlushSpec FlushParts.
From Coq Require Import QArith Qcanon.
Open Scope Z_scope.

Lemma slice_take {A} (k : Z) (l : list A) : 0 <= k -> slice_to k l = take (Z.to_nat k) l.
Proof. intros H. unfold slice_to. destruct (_ <? 0) eqn:Eb; [lia|reflexivity]. Qed.

Section generic.
Context `{NN : Num}.
Lemma timer_stats_total percent (ds : list Num.num) t : ds <> [] ->
  (2 <= Z.of_nat (length ds) -> trimmed percent (Z.of_nat (length ds)) = Ok t /\ 0 <= t < Z.of_nat (length ds) /\
     neqb (nofZ (Z.of_nat (length ds) - t)) n0 = false) ->
  exists r, timer_stats percent ds = Ok r.
Proof.
  intros Hne Ht. unfold timer_stats. rewrite nsort_length. pose proof (nsort_length ds) as Hl.
  set (l := nsort ds) in *.
  assert (Hlen : (1 <= length ds)%nat) by (destruct ds; [congruence|cbn; lia]).
  destruct (l !! 0%nat) as [lower|] eqn:E0; [|apply lookup_ge_None in E0; lia].
  destruct (last l) as [upper|] eqn:El.
  2:{ rewrite last_lookup_nth in El. apply lookup_ge_None in El. lia. }
  destruct (Z.of_nat (length ds) >? 1) eqn:Ec; [|eauto].
  destruct (Ht ltac:(lia)) as (Htr & Hr & Hz). rewrite Htr.
  rewrite slice_take by lia.
  destruct (last (take _ l)) as [tu|] eqn:Elt.
  2:{ rewrite last_lookup_nth in Elt. apply lookup_ge_None in Elt. rewrite take_length in Elt. lia. }
  unfold pydiv. rewrite Hz. eauto.
Qed.
Lemma all_aside_raises percent (ds : list Num.num) : (2 <= length ds)%nat ->
  trimmed percent (Z.of_nat (length ds)) = Ok (Z.of_nat (length ds)) -> timer_stats percent ds = Exn IndexError.
Proof.
  intros Hn Ht. unfold timer_stats. rewrite nsort_length. pose proof (nsort_length ds) as Hl.
  set (l := nsort ds) in *.
  destruct (l !! 0%nat) as [lower|] eqn:E0; [|reflexivity].
  destruct (last l) as [upper|] eqn:El; [|reflexivity].
  destruct (Z.of_nat (length ds) >? 1) eqn:Ec; [|lia]. rewrite Ht.
  replace (Z.of_nat (length ds) - Z.of_nat (length ds)) with 0 by lia. rewrite slice_take by lia. reflexivity.
Qed.
End generic.

Section xq.
Context (sq : Qc -> Qc).
Notation NN := (XQ sq).

Lemma timer_total percent (ds : list xq) : 26 <= percent <= 100 -> ds <> [] ->
  exists t, timer_stats (NN := NN) percent ds = Ok t.
Proof.
  intros Hp Hne. destruct (set_aside_exists percent (Z.of_nat (length ds))) as [t Ht].
  apply (timer_stats_total (NN := NN) percent ds t Hne). intros Hn.
  pose proof (set_aside_range percent _ t Hp Hn Ht) as Hr.
  split; [apply (trimmed_xq sq percent _ t Ht); lia|]. split; [exact Hr|]. apply nofZ_nonzero. lia.
Qed.
Lemma low_percent_raises percent (a b : xq) : 0 <= percent <= 25 ->
  timer_stats (NN := NN) percent [a; b] = Exn IndexError.
Proof.
  intros Hp. apply (all_aside_raises (NN := NN)); [cbn; lia|]. apply trimmed_xq; [unfold set_aside|..]; cbn [length]; lia.
Qed.

Lemma xsub_zero (z : Z) (b : xq) : xeqb (xsub (Fin (QcZ z)) b) (Fin (QcZ 0)) = true -> xeqb (Fin (QcZ z)) b = true.
Proof.
  destruct b as [q| |]; cbn; try discriminate. rewrite !Qc_eqb_eq. intros H.
  rewrite QcZ_0 in H. apply (f_equal (fun x => (x + q)%Qc)) in H.
  rewrite <- Qcplus_assoc, (Qcplus_comm (- q) q), Qcplus_opp_r, Qcplus_0_r, Qcplus_0_l in H. exact H.
Qed.
Lemma meter_total (m : meter (NN := NN)) ts : exists ms, snd (meter_report m ts) = Ok ms.
Proof.
  unfold meter_report, pydiv. change (@nofZ NN ts) with (Fin (QcZ ts)). change (@neqb NN) with xeqb. change (@nsub NN) with xsub.
  change (@n0 NN) with (Fin (QcZ 0)).
  destruct (xeqb (Fin (QcZ ts)) (me_poll m)) eqn:E1; [cbn; eauto|].
  destruct (xeqb (xsub (Fin (QcZ ts)) (me_poll m)) (Fin (QcZ 0))) eqn:E2; [apply xsub_zero in E2; congruence|cbn; eauto].
Qed.

Context (E : env (NN := NN)) (plugins : list (factory (NN := NN))).
Lemma flush_completes i p (s : mst) ts : Inv s -> 1000 <= i -> 26 <= p <= 100 ->
  ntrunc (e_clock E (w_clk (p_w s))) = Ok ts ->
  exists s' l, grun (flush E (mp_cls E plugins) i p) s = (s', l, None).
Proof.
  intros Hi H1 H2 Hc. apply flush_ok; [apply (inv_bt s Hi)|].
  intros e [H|k v H _ _|k ds _ H3 H4|t k m _ _ H|t k q _ Hq Hf].
  - congruence.
  - pose proof (Z.div_mod i 1000 ltac:(lia)). pose proof (Z.mod_pos_bound i 1000 ltac:(lia)). lia.
  - destruct (timer_total p ds H2 H3) as [t Ht]. congruence.
  - destruct (meter_total m t) as [ms Hm]. congruence.
  - exact (plug_never_fails E s k q t e Hi Hq Hf).
Qed.

(** each timer's part of a flush *)
Lemma timer_blocks p ts (tk : list (str * list xq)) : 26 <= p <= 100 ->
  Forall (fun kv => Forall (fun x => x <> NaN) (snd kv)) tk ->
  exists blocks, Forall2 (timer_lines (NN := NN) p ts) tk blocks /\
    flat_map (out_of (gt (NN := NN) p ts)) tk = concat blocks.
Proof.
  intros Hp. induction 1 as [|[k ds] tk Hds _ (blocks & IH1 & IH2)]; [exists []; split; [constructor|reflexivity]|].
  cbn [snd] in Hds. exists (out_of (gt (NN := NN) p ts) (k, ds) :: blocks). cbn [flat_map concat]. rewrite IH2. split; [|reflexivity].
  constructor; [|exact IH1]. unfold timer_lines, out_of, gt. cbn [fst snd].
  destruct ds as [|d ds]; [left; auto|]. right. split; [discriminate|].
  destruct (timer_stats_xq sq p (d :: ds) Hp ltac:(discriminate) Hds) as (lo & me & up & tu & H1 & H2).
  rewrite H1. exists lo, me, up, tu, (Z.of_nat (length (d :: ds))). split; [exact H2|reflexivity].
Qed.
End xq.
