(** Timer reporters: the histogram behind a timer whose updates are interleaved
    with other uses of the random numbers is that of some run on its own. *)
From Verif Require Import Base Num NumFacts Env Stats Glob Metrics TimerFacts SampleFacts.

Section hreach.
Context `{NN : Num} (E : env).
Notation num := (@Num.num NN).
(** histograms over a reservoir of [size] after recording [l] since the last
    clear, each update in any state of the random numbers *)
Inductive hreach (size : nat) : list num -> hist -> Prop :=
| hr_clear h : length (us_values (h_sample h)) = size -> hreach size [] (h_clear h)
| hr_update l h v w : hreach size l h -> hreach size (l ++ [v]) (fst (h_update E h v w)).

Lemma us_update_len u v w : length (us_values (fst (us_update E u v w))) = length (us_values u).
Proof.
  unfold us_update. destruct (_ <=? _); [apply insert_length|]. unfold randint.
  destruct (_ <? _); cbn; [apply insert_length|reflexivity].
Qed.
Lemma hreach_len size l h : hreach size l h -> length (us_values (h_sample h)) = size.
Proof.
  induction 1 as [h H|l h v w _ IH]; [cbn; rewrite replicate_length; exact H|].
  destruct (h_update_fields E h v w) as (_ & _ & _ & -> & _). rewrite us_update_len. exact IH.
Qed.

(** [E] with one of its random numbers replaced *)
Definition with_draw (F : env) (n : nat) (r : Z) : env :=
  @Env NN (e_clock F) (fun i => if (i =? n)%nat then r else e_randint F i) (e_table F) (e_ord F) (e_ord_perm F).
Lemma us_update_mono F u v w : (w_rnd w <= w_rnd (snd (us_update F u v w)))%nat.
Proof. unfold us_update. destruct (_ <=? _); [cbn; lia|]. unfold randint. destruct (_ <? _); cbn; lia. Qed.
Lemma h_update_mono F h v w : (w_rnd w <= w_rnd (snd (h_update F h v w)))%nat.
Proof.
  unfold h_update. pose proof (us_update_mono F (h_sample h) v w). destruct (us_update F (h_sample h) v w). exact H.
Qed.
Lemma hrun_mono F ops : forall h w, (w_rnd w <= w_rnd (snd (hrun F ops h w)))%nat.
Proof.
  induction ops as [|[v|] ops IH]; intros h w; cbn [hrun]; [cbn; lia| |apply IH].
  pose proof (h_update_mono F h v w). destruct (h_update F h v w) as [h' w']. cbn [snd] in *. specialize (IH h' w'). lia.
Qed.
Lemma us_update_agree F G u v w : (forall i, (i < w_rnd (snd (us_update F u v w)))%nat -> e_randint F i = e_randint G i) ->
  us_update G u v w = us_update F u v w.
Proof.
  unfold us_update. destruct (_ <=? _); [reflexivity|]. unfold randint. intros H.
  rewrite (H (w_rnd w)); [reflexivity|]. destruct (_ <? _); cbn; lia.
Qed.
Lemma h_update_agree F G h v w : (forall i, (i < w_rnd (snd (h_update F h v w)))%nat -> e_randint F i = e_randint G i) ->
  h_update G h v w = h_update F h v w.
Proof.
  unfold h_update. intros H. rewrite (us_update_agree F G); [reflexivity|].
  intros i Hi. apply H. destruct (us_update F (h_sample h) v w). exact Hi.
Qed.
Lemma hrun_agree F G ops : forall h w, (forall i, (i < w_rnd (snd (hrun F ops h w)))%nat -> e_randint F i = e_randint G i) ->
  hrun G ops h w = hrun F ops h w.
Proof.
  induction ops as [|[v|] ops IH]; intros h w H; cbn [hrun] in *; [reflexivity| |apply IH; exact H].
  rewrite (h_update_agree F G).
  - destruct (h_update F h v w) as [h' w']. apply IH. exact H.
  - intros i Hi. apply H. destruct (h_update F h v w) as [h' w']. cbn [snd] in Hi. pose proof (hrun_mono F ops h' w'). lia.
Qed.
Lemma hrun_app F ops ops' : forall h w, hrun F (ops ++ ops') h w = hrun F ops' (fst (hrun F ops h w)) (snd (hrun F ops h w)).
Proof.
  induction ops as [|[v|] ops IH]; intros h w; cbn [hrun app]; [reflexivity| |apply IH].
  destruct (h_update F h v w). apply IH.
Qed.
Lemma us_update_same F G u v w w' : e_randint F (w_rnd w) = e_randint G (w_rnd w') ->
  fst (us_update F u v w) = fst (us_update G u v w').
Proof.
  intros H. unfold us_update. destruct (_ <=? _); [reflexivity|]. unfold randint. rewrite H. destruct (_ <? _); reflexivity.
Qed.
Lemma h_update_same F G h v w w' : e_randint F (w_rnd w) = e_randint G (w_rnd w') ->
  fst (h_update F h v w) = fst (h_update G h v w').
Proof.
  intros H. unfold h_update. pose proof (us_update_same F G (h_sample h) v w w' H).
  destruct (us_update F (h_sample h) v w), (us_update G (h_sample h) v w'). cbn [fst] in *. subst. reflexivity.
Qed.
Lemma hreach_run size l h : hreach size l h ->
  exists F ops, h = fst (hrun F ops (h_new (us_new size)) world0) /\ recorded ops = l.
Proof.
  induction 1 as [h H|l h v w Hh (F & ops & -> & Hr)].
  - exists E, []. split; [|reflexivity]. cbn [hrun fst]. unfold h_new, h_clear, us_clear. cbn [h_sample us_new us_values].
    rewrite H, replicate_length. reflexivity.
  - set (w1 := snd (hrun F ops (h_new (us_new size)) world0)).
    set (G := with_draw F (w_rnd w1) (e_randint E (w_rnd w))).
    exists G, (ops ++ [HUpdate v]). split.
    + rewrite hrun_app. rewrite (hrun_agree F G ops (h_new (us_new size)) world0).
      * fold w1. cbn [hrun]. rewrite (h_update_same E G _ v w w1).
        -- destruct (h_update G _ v w1). reflexivity.
        -- cbn. rewrite Nat.eqb_refl. reflexivity.
      * intros i Hi. cbn. destruct (Nat.eqb_spec i (w_rnd w1)); [unfold w1 in *; lia|reflexivity].
    + unfold recorded in *. rewrite fold_left_app. cbn. rewrite Hr. reflexivity.
Qed.

(** timers *)
Definition kept (d : num) : bool := nleb n0 d.
(** [t] is a timer called [key] that has received [all], of which [since] since
    it was last reported (or created), at time [last] *)
Definition timer_after (key prefix : str) (all since : list num) (last : num) (t : timer) : Prop :=
  ti_name t = key /\ ti_prefix t = dotted prefix /\ ti_count t = Z.of_nat (length all) /\ ti_last t = last /\
  hreach reservoir_1028 (List.filter kept since) (ti_hist t).
Lemma timer_after_new key prefix w : timer_after key prefix [] [] (fst (now E w)) (fst (timer_new E key prefix w)).
Proof.
  unfold timer_new, now, timer_after. cbn [fst timer_clear ti_name ti_prefix ti_count ti_last ti_hist].
  repeat split. apply hr_clear. apply replicate_length.
Qed.
Lemma timer_after_update key prefix all since last t d w : timer_after key prefix all since last t ->
  timer_after key prefix (all ++ [d]) (since ++ [d]) last (fst (timer_update E t d w)).
Proof.
  intros (H1 & H2 & H3 & H4 & H5). unfold timer_after, timer_update. fold (kept d). rewrite List.filter_app. cbn [List.filter].
  destruct (kept d) eqn:Ek.
  - pose proof (hr_update _ _ _ d w H5) as Hu. destruct (h_update E (ti_hist t) d w) as [h w']. cbn [fst] in *.
    cbn. rewrite app_length. repeat split; auto. cbn. lia.
  - cbn [fst ti_name ti_prefix ti_count ti_last ti_hist]. rewrite app_length, app_nil_r. repeat split; auto. cbn. lia.
Qed.
Lemma timer_after_clear key prefix all since last t x : timer_after key prefix all since last t ->
  timer_after key prefix all [] x (timer_clear t x).
Proof.
  intros (H1 & H2 & H3 & H4 & H5). unfold timer_after. cbn. repeat split; auto. apply hr_clear. apply (hreach_len _ _ _ H5).
Qed.
Lemma timer_report_fst t ts : fst (timer_report t ts) = t \/ fst (timer_report t ts) = timer_clear t (nofZ ts).
Proof.
  unfold timer_report. destruct (h_percentiles _ _) as [ps|]; [|auto]. destruct (h_stddev _); [|auto].
  destruct (ps !! 4%nat); [|auto]. destruct (ps !! 5%nat); [|auto]. destruct (timer_rate t ts); auto.
Qed.
Lemma timer_report_ok t ts ms : snd (timer_report t ts) = Ok ms -> fst (timer_report t ts) = timer_clear t (nofZ ts).
Proof.
  unfold timer_report. destruct (h_percentiles _ _) as [ps|]; [|discriminate]. destruct (h_stddev _); [|discriminate].
  destruct (ps !! 4%nat); [|discriminate]. destruct (ps !! 5%nat); [|discriminate]. destruct (timer_rate t ts); [auto|discriminate].
Qed.
End hreach.
