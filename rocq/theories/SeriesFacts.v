(** Which emitted series can coincide (C24). *)
From Verif Require Import Base StrFacts Num Metrics TimerFacts FlushSpec.

Lemma last_dot (a b x y : str) : ~ In "."%char x -> ~ In "."%char y ->
  a ++ "."%char :: x = b ++ "."%char :: y -> a = b /\ x = y.
Proof.
  intros Hx Hy. revert b. induction a as [|c a IH]; intros b H.
  - destruct b as [|d b]; cbn in H; [injection H as ->; auto|].
    injection H as <- ->. exfalso. apply Hx. apply in_or_app. right. left. reflexivity.
  - destruct b as [|d b]; cbn in H.
    + injection H as -> <-. exfalso. apply Hy. apply in_or_app. right. left. reflexivity.
    + injection H as -> H. destruct (IH b H) as [-> ->]. auto.
Qed.
Lemma digits_no_dot f n : ~ In "."%char (digits_fuel f n).
Proof.
  revert n. induction f as [|f IH]; intros n; cbn [digits_fuel]; [intros []|].
  assert (Hd : forall d, (d < 10)%N -> ~ In "."%char [digit_char d]).
  { intros d Hd. assert (Hc : exists i, (i < 10)%nat /\ d = N.of_nat i) by (exists (N.to_nat d); lia).
    destruct Hc as (i & Hi & ->).
    do 10 (destruct i as [|i]; [intros [H|[]]; vm_compute in H; discriminate|]). lia. }
  destruct (n <? 10)%N eqn:Hn.
  - apply Hd. apply N.ltb_lt. exact Hn.
  - intros H. apply in_app_or in H. destruct H as [H|H]; [exact (IH _ H)|]. revert H. apply Hd. apply N.mod_lt. lia.
Qed.
Lemma show_no_dot z : ~ In "."%char (show_Z z).
Proof.
  unfold show_Z, show_N. destruct z as [|p|p]; try apply digits_no_dot.
  intros [H|H]; [discriminate|exact (digits_no_dot _ _ H)].
Qed.

(** the part of a timer suffix behind its dot *)
Definition timer_tails (p : Z) : list str := [B "count"; B "lower"; B "mean"; B "upper"; B "upper_" ++ show_Z p].
Lemma timer_tail p k n : timer_series p k n ->
  exists x, In x (timer_tails p) /\ ~ In "."%char x /\ n = B "stats.timers." ++ k ++ "."%char :: x.
Proof.
  intros (suffix & Hin & ->).
  assert (H : forall x, suffix = "."%char :: x -> In x (timer_tails p) -> ~ In "."%char x ->
     exists x, In x (timer_tails p) /\ ~ In "."%char x /\
       B "stats.timers." ++ k ++ suffix = B "stats.timers." ++ k ++ "."%char :: x).
  { intros x -> H1 H2. exists x. auto. }
  assert (Hnd : forall (x : str), forallb (fun c => negb (eqc c ".")) x = true -> ~ In "."%char x).
  { intros x Hx Hi. rewrite forallb_forall in Hx. specialize (Hx _ Hi). discriminate. }
  destruct Hin as [<-|[<-|[<-|[<-|[<-|[]]]]]].
  - apply (H (B "count")); [reflexivity|left; reflexivity|apply Hnd; reflexivity].
  - apply (H (B "lower")); [reflexivity|right; left; reflexivity|apply Hnd; reflexivity].
  - apply (H (B "mean")); [reflexivity|right; right; left; reflexivity|apply Hnd; reflexivity].
  - apply (H (B "upper")); [reflexivity|right; right; right; left; reflexivity|apply Hnd; reflexivity].
  - apply (H (B "upper_" ++ show_Z p)); [reflexivity|right; right; right; right; left; reflexivity|].
    intros Hi. apply in_app_or in Hi. destruct Hi as [Hi|Hi]; [revert Hi; apply Hnd; reflexivity|exact (show_no_dot p Hi)].
Qed.

Lemma counter_series_inj k k' n : counter_series k n -> counter_series k' n -> k = k'.
Proof.
  intros [->| ->] [H|H]; [|discriminate|discriminate|]; apply app_inv_head in H; exact H.
Qed.
Lemma timer_series_inj p k k' n : timer_series p k n -> timer_series p k' n -> k = k'.
Proof.
  intros H H'. apply timer_tail in H, H'. destruct H as (x & _ & Hx & ->), H' as (y & _ & Hy & H).
  apply app_inv_head in H. eapply last_dot in H; [|exact Hx|exact Hy]. apply H.
Qed.
Lemma gauge_series_inj k k' n : gauge_series k n -> gauge_series k' n -> k = k'.
Proof. intros -> H. apply app_inv_head in H. apply app_inv_tail in H. exact H. Qed.
Lemma timer_gauge_disjoint p k k' n : timer_series p k n -> gauge_series k' n -> False.
Proof. intros (suffix & _ & ->) H. discriminate. Qed.
Lemma counter_timer k p k' n : counter_series k n -> timer_series p k' n -> starts (B "timers.") k.
Proof.
  intros H (suffix & _ & ->). destruct H as [H|H]; [|discriminate].
  change (B "stats.timers.") with (B "stats." ++ B "timers.") in H. rewrite <- app_assoc in H.
  apply app_inv_head in H. subst k. eexists. reflexivity.
Qed.
Lemma counter_gauge k k' n : counter_series k n -> gauge_series k' n -> starts (B "gauge.") k.
Proof.
  intros H ->. destruct H as [H|H]; [|discriminate].
  change (B "stats.gauge.") with (B "stats." ++ B "gauge.") in H. rewrite <- app_assoc in H.
  apply app_inv_head in H. subst k. eexists. reflexivity.
Qed.
