(** No flush goes on for ever, whatever happens between its steps. *)
From Verif Require Import Base StrFacts Num Env Stats Glob Metrics Gen GenFacts Processor
  ProcFacts ProcSpec ReceiveFacts ReceiveFacts2 ReceiveFacts3 PlugFacts Sched FlushInv FlushOk SchedFacts FlushRun FlushStages
  FlushComp FlushFail TimerFacts XQFacts FlushSpec FlushXQ FlushDerived Disturb FlushXQ2 FlushSched.

(** ** What the theorem speaks about *)
Section spec.
Context `{NN : Num}.
(** the first [n] of an unending sequence of events *)
Definition firsts (ev : nat -> event) (n : nat) : list event := map ev (seq 0 n).
(** the flush that is [i]-th of the unfinished ones of [y] is resumed again and again for as
    long as it is unfinished *)
Definition resumed_again (E : env) (plugins : list factory) (ev : nat -> event) (y : sys) (i : nat) : Prop :=
  forall n, exists m, (n <= m)%nat /\ forall l j, follow E plugins (firsts ev m) y i = (l, Under_way j) -> ev m = Resume j.
(** the flush is no longer going on *)
Definition over (f : fate) : Prop := match f with Under_way _ => False | _ => True end.
End spec.

(** ** Proofs *)
Section left.
Context `{NN : Num} {T : Type}.
(** [g'] is what is left of [g] after one step, in some state *)
Definition succ_of (g' g : gen T) : Prop := exists s d, snd (gnext g s) = Yielded d g'.

Lemma succ_wf g : Acc succ_of g.
Proof using Type.
  induction g as [|e|f IH|ms k IH] using gen_ind'.
  - constructor. intros g' (s & d & H). discriminate.
  - constructor. intros g' (s & d & H). discriminate.
  - constructor. intros g' (s & d & H). cbn in H. pose proof (IH s) as Ha. destruct (f s) as [s' g1]. cbn in Ha, H.
    apply Ha. exists s', d. exact H.
  - induction ms as [|d0 ms IHms].
    + constructor. intros g' (s & d & H). cbn in H. apply IH. exists s, d. exact H.
    + constructor. intros g' (s & d & H). cbn in H. injection H as <- <-. exact IHms.
Qed.

End left.

Section ends.
Context `{NN : Num} (E : env) (plugins : list factory).
Local Notation sys_step := (sys_step E plugins).
Local Notation sys_run := (sys_run E plugins).
Local Notation follow := (follow E plugins).

Lemma follow_cut es : forall es' y i l j, follow es y i = (l, Under_way j) ->
  follow (es ++ es') y i = let '(l', f) := follow es' (sys_run es y) j in (l ++ l', f).
Proof using Type.
  induction es as [|e es IH]; intros es' y i l j H.
  - cbn in H. injection H as <- <-. cbn. destruct (follow es' y i). reflexivity.
  - cbn [app FlushSched.follow] in H |- *. cbn [Sched.sys_run fold_left].
    assert (Hon : forall i l, follow es (sys_step y e) i = (l, Under_way j) -> follow (es ++ es') (sys_step y e) i =
      let '(l', f) := follow es' (sys_run es (sys_step y e)) j in (l ++ l', f)) by (intros; apply IH; assumption).
    destruct e as [m|a b|q|q]; try (apply Hon; exact H).
    + destruct (y_live y !! q) as [g|]; [|apply Hon; exact H].
      destruct (snd (gnext g (y_st y))) as [d g'| |x]; destruct (q =? i)%nat; try discriminate; try (apply Hon; exact H).
      destruct (follow es (sys_step y (Resume q)) i) as [l1 f1] eqn:Ef. injection H as <- ->.
      rewrite (Hon i l1 Ef). destruct (follow es' _ j). reflexivity.
    + destruct (y_live y !! q) as [g|]; [|apply Hon; exact H].
      destruct (q =? i)%nat; [discriminate|apply Hon; exact H].
Qed.

Lemma follow_one e y i g : y_live y !! i = Some g -> exists l f, follow [e] y i = (l, f) /\
  match f with
  | Under_way j => exists g', y_live (sys_step y e) !! j = Some g' /\ ((exists d, snd (gnext g (y_st y)) = Yielded d g') \/ (g' = g /\ e <> Resume i))
  | Completed => True
  | Broken x => snd (gnext g (y_st y)) = Raised x
  | Abandoned => e = Drop i
  end.
Proof using Type.
  intros Hg.
  assert (Hpast : forall j, j <> i -> y_live (sys_step y e) = delete j (y_live y) -> y_live (sys_step y e) !! (if (j <? i)%nat then (i - 1)%nat else i) = Some g).
  { intros j Hne ->. destruct (j <? i)%nat eqn:Ej.
    - apply Nat.ltb_lt in Ej. rewrite lookup_delete_ge by lia. replace (S (i - 1)) with i by lia. exact Hg.
    - apply Nat.ltb_ge in Ej. rewrite lookup_delete_lt by lia. exact Hg. }
  cbn [FlushSched.follow]. destruct e as [m|a b|q|q].
  - exists [], (Under_way i). split; [reflexivity|]. exists g. split; [exact Hg|right; split; [reflexivity|discriminate]].
  - exists [], (Under_way i). split; [reflexivity|]. exists g. split; [cbn; apply lookup_app_l_Some; exact Hg|right; split; [reflexivity|discriminate]].
  - destruct (y_live y !! q) as [g1|] eqn:Eq.
    2:{ exists [], (Under_way i). split; [reflexivity|]. exists g. split; [cbn; rewrite Eq; exact Hg|].
        right. split; [reflexivity|]. intros He. injection He as ->. congruence. }
    destruct (gnext g1 (y_st y)) as [s' o] eqn:En. cbn [snd]. destruct o as [d g'| |x]; destruct (Nat.eqb_spec q i) as [Eqi|Eqi].
    + subst q. rewrite Hg in Eq. injection Eq as <-. exists [d], (Under_way i). split; [reflexivity|]. exists g'. split.
      * cbn. rewrite Hg, En. cbn. apply list_lookup_insert. apply lookup_lt_Some in Hg. exact Hg.
      * left. exists d. rewrite En. reflexivity.
    + exists [], (Under_way i). split; [reflexivity|]. exists g. split; [|right; split; [reflexivity|congruence]].
      cbn. rewrite Eq, En. cbn. rewrite list_lookup_insert_ne by auto. exact Hg.
    + exists [], Completed. split; [reflexivity|exact I].
    + eexists _, (Under_way _). split; [reflexivity|]. exists g. split; [|right; split; [reflexivity|congruence]].
      apply (Hpast q Eqi). cbn. rewrite Eq, En. reflexivity.
    + subst q. rewrite Hg in Eq. injection Eq as <-. exists [], (Broken x). split; [reflexivity|rewrite En; reflexivity].
    + eexists _, (Under_way _). split; [reflexivity|]. exists g. split; [|right; split; [reflexivity|congruence]].
      apply (Hpast q Eqi). cbn. rewrite Eq, En. reflexivity.
  - destruct (y_live y !! q) as [g1|] eqn:Eq.
    2:{ exists [], (Under_way i). split; [reflexivity|]. exists g. split; [cbn; rewrite Eq; exact Hg|right; split; [reflexivity|discriminate]]. }
    destruct (Nat.eqb_spec q i) as [Eqi|Eqi].
    + exists [], Abandoned. split; [reflexivity|congruence].
    + eexists _, (Under_way _). split; [reflexivity|]. exists g. split; [|right; split; [reflexivity|discriminate]].
      apply (Hpast q Eqi). cbn. rewrite Eq. reflexivity.
Qed.

Lemma firsts_S ev n : firsts ev (S n) = firsts ev n ++ [ev n].
Proof using Type. unfold firsts. rewrite seq_S, map_app. reflexivity. Qed.

Lemma ends_from ev y i : resumed_again E plugins ev y i -> forall g, Acc succ_of g -> forall n l j,
  follow (firsts ev n) y i = (l, Under_way j) -> y_live (sys_run (firsts ev n) y) !! j = Some g ->
  exists n' l' f, follow (firsts ev n') y i = (l', f) /\ over f.
Proof using Type.
  intros Hfair g Hacc. induction Hacc as [g _ IH]. intros n l j Hf Hg.
  destruct (Hfair n) as (m & Hm & Hres).
  remember (m - n)%nat as k eqn:Ek. revert n l j Hf Hg Hm Ek.
  induction k as [|k IHk]; intros n l j Hf Hg Hm Ek.
  - assert (n = m) as -> by lia. pose proof (Hres l j Hf) as Hev.
    destruct (follow_one (ev m) _ j g Hg) as (l1 & f1 & H1 & Hc).
    pose proof (follow_cut _ [ev m] _ _ _ _ Hf) as Hcut. rewrite H1, <- firsts_S in Hcut.
    destruct f1 as [j1| |x|]; try (exists (S m), (l ++ l1); eexists; split; [exact Hcut|exact I]).
    destruct Hc as (g1 & Hg1 & [[d Hs]|[_ Hne]]); [|congruence].
    assert (Hsucc : succ_of g1 g) by (eexists _, d; exact Hs). clear Hs. rename Hsucc into Hs.
    apply (IH g1 Hs (S m) _ j1 Hcut). rewrite firsts_S. unfold Sched.sys_run in Hg1 |- *. rewrite fold_left_app. exact Hg1.
  - destruct (follow_one (ev n) _ j g Hg) as (l1 & f1 & H1 & Hc).
    pose proof (follow_cut _ [ev n] _ _ _ _ Hf) as Hcut. rewrite H1, <- firsts_S in Hcut.
    destruct f1 as [j1| |x|]; try (exists (S n), (l ++ l1); eexists; split; [exact Hcut|exact I]).
    assert (Hlive : y_live (sys_run (firsts ev (S n)) y) = y_live (sys_step (sys_run (firsts ev n) y) (ev n))).
    { rewrite firsts_S. unfold Sched.sys_run. rewrite fold_left_app. reflexivity. }
    destruct Hc as (g1 & Hg1 & [[d Hs]|[-> _]]).
    + assert (Hsucc : succ_of g1 g) by (eexists _, d; exact Hs). clear Hs. rename Hsucc into Hs.
      apply (IH g1 Hs (S n) _ j1 Hcut). rewrite Hlive. exact Hg1.
    + apply (IHk (S n) _ j1 Hcut); [rewrite Hlive; exact Hg1|lia|lia].
Qed.

Lemma flush_ends es i p ev :
  let y := sys_run (es ++ [Start i p]) sys_init in
  let k := length (y_live (sys_run es sys_init)) in
  resumed_again E plugins ev y k ->
  exists n l f, follow (firsts ev n) y k = (l, f) /\ over f.
Proof using Type.
  intros y k Hfair. apply (ends_from ev y k Hfair (flush E (mp_cls E plugins) i p) (succ_wf _) 0 [] k); [reflexivity|].
  cbn. unfold y, k, Sched.sys_run. rewrite fold_left_app. cbn. rewrite lookup_app_r by lia. rewrite Nat.sub_diag. reflexivity.
Qed.

Lemma follow_over es : forall es' y i l f, follow es y i = (l, f) -> over f -> follow (es ++ es') y i = (l, f).
Proof using Type.
  induction es as [|e es IH]; intros es' y i l f H Ho; [injection H as <- <-; destruct Ho|].
  cbn [app FlushSched.follow] in H |- *.
  assert (Hon : forall i l, follow es (sys_step y e) i = (l, f) -> follow (es ++ es') (sys_step y e) i = (l, f)) by (intros; apply IH; assumption).
  destruct e as [m|a b|q|q]; try (apply Hon; exact H).
  - destruct (y_live y !! q) as [g|]; [|apply Hon; exact H].
    destruct (snd (gnext g (y_st y))) as [d g'| |x]; destruct (q =? i)%nat; try exact H; try (apply Hon; exact H).
    destruct (follow es (sys_step y (Resume q)) i) as [l1 f1] eqn:Ef. injection H as <- ->.
    rewrite (Hon i l1 Ef). reflexivity.
  - destruct (y_live y !! q) as [g|]; [|apply Hon; exact H].
    destruct (q =? i)%nat; [exact H|apply Hon; exact H].
Qed.

(** while [I] holds whenever it is resumed, and it is not abandoned, a quiet flush is not broken *)
Lemma quiet_follow (I : mst -> Prop) ev y i g : y_live y !! i = Some g -> quiet I g ->
  (forall n l j, follow (firsts ev n) y i = (l, Under_way j) -> I (y_st (sys_run (firsts ev n) y)) /\ ev n <> Drop j) ->
  forall n l f, follow (firsts ev n) y i = (l, f) ->
  match f with
  | Under_way j => exists g', y_live (sys_run (firsts ev n) y) !! j = Some g' /\ quiet I g'
  | Completed => True
  | _ => False
  end.
Proof using Type.
  intros Hg Hq Hcalm n. induction n as [|n IH]; intros l f Hf.
  - injection Hf as <- <-. exists g. split; [exact Hg|exact Hq].
  - destruct (follow (firsts ev n) y i) as [l0 f0] eqn:E0. specialize (IH _ _ eq_refl). rewrite firsts_S in Hf |- *.
    destruct f0 as [j| |x|]; [|rewrite (follow_over _ _ _ _ _ _ E0) in Hf by exact Logic.I; injection Hf as <- <-; exact Logic.I|destruct IH|destruct IH].
    destruct IH as (g1 & Hg1 & Hq1). destruct (Hcalm n l0 j E0) as [HI HD].
    destruct (follow_one (ev n) _ j g1 Hg1) as (l1 & f1 & H1 & Hc).
    rewrite (follow_cut _ _ _ _ _ _ E0), H1 in Hf. injection Hf as <- <-.
    pose proof (gnext_quiet I g1 (y_st (sys_run (firsts ev n) y)) _ _ HI Hq1 (surjective_pairing _)) as Hn.
    destruct f1 as [j1| |x|]; [|exact Logic.I|rewrite Hc in Hn; exact Hn|contradiction].
    destruct Hc as (g2 & Hg2 & Hw). exists g2. unfold Sched.sys_run in Hg2 |- *. rewrite fold_left_app. split; [exact Hg2|].
    destruct Hw as [[d Hd]|[-> _]]; [rewrite Hd in Hn; apply Hn|exact Hq1].
Qed.
End ends.

From Coq Require Import QArith Qcanon.
Open Scope Z_scope.
Section xq.
Context (sq : Qc -> Qc).
Notation NN := (XQ sq).
Context (E : env (NN := NN)) (plugins : list (factory (NN := NN))).
Lemma calm_comes_to_end es i p ev : Forall sane es -> (forall n, sane (ev n)) -> 1000 <= i -> 26 <= p <= 100 ->
  (forall n, exists q, e_clock E n = Fin q) ->
  let y := sys_run E plugins (es ++ [Start i p]) sys_init in
  let k := length (y_live (sys_run E plugins es sys_init)) in
  resumed_again E plugins ev y k ->
  (forall n l j, follow E plugins (firsts ev n) y k = (l, Under_way j) -> same_names (y_st y) (at_moment E plugins y (firsts ev n) n) /\ ev n <> Drop j) ->
  exists n out, follow E plugins (firsts ev n) y k = (out, Completed).
Proof.
  intros Hes Hev Hi Hp Hclk y k Hfair Hcalm.
  assert (Hat : forall n, at_moment E plugins y (firsts ev n) n = y_st (sys_run E plugins (firsts ev n) y)).
  { intros n. unfold at_moment. rewrite take_ge; [reflexivity|]. unfold firsts. rewrite map_length, seq_length. lia. }
  assert (Hlive : y_live y !! k = Some (flush E (mp_cls E plugins) i p)).
  { unfold y, k, sys_run. rewrite fold_left_app. cbn. rewrite lookup_app_r by apply Nat.le_refl. rewrite Nat.sub_diag. reflexivity. }
  assert (Hquiet : quiet (calm_state (y_st y)) (flush E (mp_cls E plugins) i p)).
  { intros s1 Hs1. unfold now. cbn [fst snd]. split; [right; exact Hs1|].
    destruct (Hclk (w_clk (p_w s1))) as [q ->]. cbn [ntrunc]. apply body_quiet; [|intros m ts; apply meter_total|exact Hi].
    intros ds Hds. apply (timer_total sq p ds Hp Hds). }
  destruct (flush_ends E plugins es i p ev Hfair) as (n & l & f & Hf & Ho).
  change (follow E plugins (firsts ev n) y k = (l, f)) in Hf. exists n, l.
  pose proof (quiet_follow E plugins (calm_state (y_st y)) ev y k _ Hlive Hquiet) as H.
  assert (Hc : forall n l j, follow E plugins (firsts ev n) y k = (l, Under_way j) -> calm_state (y_st y) (y_st (sys_run E plugins (firsts ev n) y)) /\ ev n <> Drop j).
  { intros n1 l1 j1 H1. destruct (Hcalm n1 l1 j1 H1) as [Hn Hd]. rewrite Hat in Hn. split; [|exact Hd]. split; [exact Hn|].
    assert (Hinv : Inv (y_st (sys_run E plugins (firsts ev n1) y))).
    { unfold y. unfold sys_run. rewrite <- fold_left_app. apply names_ok. rewrite !Forall_app. split; [split; [exact Hes|constructor; [exact Hi|constructor]]|].
      unfold firsts. apply Forall_map, Forall_forall. intros x _. apply Hev. }
    split; [apply (inv_bt _ Hinv)|]. intros key q Hk. apply (inv_p _ Hinv) in Hk. destruct Hk as [_ Hk]. destruct q; cbn in *; tauto. }
  specialize (H Hc n l f Hf). destruct f; try contradiction. exact Hf.
Qed.
End xq.
