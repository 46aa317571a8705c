(** Consequences of the facts about samples, histograms and moving averages. *)
From Verif Require Import Base Bisect Num NumFacts Env Stats TimerFacts XQFacts TimerXQ SampleFacts EwmaFacts VarianceFacts PercFacts BinFacts.
From Coq Require Import QArith Qcanon.
Open Scope Z_scope.
Notation length := List.length.

Definition xq_dec sq : EqDecision (@Num.num (XQ sq)).
Proof. intros x y. change (@Num.num (XQ sq)) with xq in *. unfold Decision. repeat decide equality; apply Qc_eq_dec. Defined.

Section xq.
Context (sq : Qc -> Qc).

Lemma ewma_between alpha interval ops lo hi : interval <> QcZ 0 -> (0 <= alpha)%Qc -> (alpha <= 1)%Qc ->
  snd (intervals ops (QcZ 0) []) <> [] ->
  Forall (fun c => lo <= c / interval /\ c / interval <= hi)%Qc (snd (intervals ops (QcZ 0) [])) ->
  exists r, ew_rate (erun sq ops (ewma_new (NN := XQ sq) (Fin alpha) (Fin interval))) = Fin r /\ (lo <= r /\ r <= hi)%Qc.
Proof.
  intros Hi H0 H1 Hne Hall. pose proof (ewma_history sq alpha interval ops Hi) as H.
  destruct (intervals ops (QcZ 0) []) as [cur done]. cbn [snd] in *. destruct H as [H _].
  eexists. split; [exact H|]. apply weighted_bounds; auto.
  - destruct done; [contradiction|discriminate].
  - apply Forall_map. exact Hall.
Qed.

(** updates between two ticks add up *)
Lemma intervals_updates ns ops : intervals (map EUpdate ns ++ ETick :: ops) (QcZ 0) [] = intervals ops (QcZ 0) [qsum ns].
Proof.
  assert (H : forall cur, intervals (map EUpdate ns ++ ETick :: ops) cur [] = intervals ops (QcZ 0) [(cur + qsum ns)%Qc]).
  { induction ns as [|n ns IH]; intros cur; cbn [map app intervals qsum fold_right].
    - do 2 f_equal. change (QcZ 0) with 0%Qc. ring.
    - rewrite IH. do 2 f_equal. unfold qsum. ring. }
  rewrite H. do 2 f_equal. change (QcZ 0) with 0%Qc. ring.
Qed.

Lemma percentiles_between (E : env (NN := XQ sq)) ops size w qs ps : (0 < size)%nat ->
  recorded (NN := XQ sq) ops = fins qs -> qs <> [] ->
  let h := fst (hrun (NN := XQ sq) E ops (h_new (us_new size)) w) in
  exists kept lo hi rs, us_get (h_sample h) = fins kept /\ lowest kept lo /\ highest kept hi /\
    h_percentiles h (fins ps) = Ok (fins rs) /\ Forall (fun r => lo <= r /\ r <= hi)%Qc rs /\
    forall i j p p' r r', ps !! i = Some p -> ps !! j = Some p' -> rs !! i = Some r -> rs !! j = Some r' ->
      (p <= p')%Qc -> (r <= r')%Qc.
Proof.
  intros Hsz Hr Hne h. destruct (percentiles_exact sq E ops size w qs ps Hsz Hr) as [_ H].
  destruct (H Hne) as (kept & l & rs & H1 & H2 & H3 & H4 & H5 & H6). fold h in H1, H5.
  assert (Hl : l <> []). { intros ->. apply Permutation_nil in H3. contradiction. }
  destruct (l !! 0%nat) as [lo|] eqn:E0; [|destruct l; [contradiction|discriminate]].
  destruct (last l) as [hi|] eqn:E1; [|apply last_None in E1; contradiction].
  exists kept, lo, hi, rs. split; [exact H1|].
  assert (Hin : forall x, x ∈ kept -> (lo <= x /\ x <= hi)%Qc).
  { intros x Hx. rewrite <- H3 in Hx. apply elem_of_list_lookup in Hx as [i Hi].
    pose proof (lookup_lt_Some _ _ _ Hi). rewrite last_lookup in E1.
    split; [exact (rising_lookup l 0 i lo x H4 ltac:(lia) E0 Hi)|exact (rising_lookup l i (Init.Nat.pred (length l)) x hi H4 ltac:(lia) Hi E1)]. }
  split; [split; [rewrite <- H3; eapply elem_of_list_lookup_2; exact E0|intros x Hx; apply Hin; exact Hx]|].
  split; [split; [rewrite <- H3; rewrite last_lookup in E1; eapply elem_of_list_lookup_2; exact E1|intros x Hx; apply Hin; exact Hx]|].
  split; [exact H5|]. split.
  - apply Forall_forall. intros r Hin'. apply elem_of_list_lookup in Hin' as [i Hi].
    destruct (Forall2_lookup_r _ _ _ _ _ H6 Hi) as (p & _ & Hp). eapply at_position_bounds; eauto.
  - intros i j p p' r r' Hi Hj Hri Hrj Hpp.
    pose proof (Forall2_lookup_lr _ _ _ _ _ _ H6 Hi Hri) as A.
    pose proof (Forall2_lookup_lr _ _ _ _ _ _ H6 Hj Hrj) as A'.
    cbn beta in A, A'. eapply at_position_mono; [exact A|exact A'|exact H4|].
    apply Qcmult_le_compat_r; [exact Hpp|]; rewrite <- QcZ_0; apply QcZ_le; lia.
Qed.

Lemma sq_dev_nonneg c l : (0 <= sq_dev c l)%Qc.
Proof.
  unfold sq_dev, qsum. induction l as [|x l IH]; cbn [map fold_right]; [apply Qcle_refl|].
  assert (H : (0 <= (x - c) * (x - c))%Qc) by (generalize (x - c)%Qc; clear; intros y; qc_nra). set (a := ((x - c) * (x - c))%Qc) in *.
  set (b := fold_right Qcplus (QcZ 0) (map (fun x0 => ((x0 - c) * (x0 - c))%Qc) l)) in *. clearbody a b. qc_lra.
Qed.
Lemma sample_variance_nonneg l : (0 <= sample_variance l)%Qc.
Proof.
  unfold sample_variance. destruct (Z.leb_spec (Z.of_nat (length l)) 1); [apply Qcle_refl|].
  pose proof (sq_dev_nonneg (average l) l) as Hs. set (d := sq_dev (average l) l) in *.
  assert (Hp : (0 < QcZ (Z.of_nat (length l) - 1))%Qc) by (rewrite <- QcZ_0; apply QcZ_lt; lia).
  set (n := QcZ (Z.of_nat (length l) - 1)) in *. clearbody d n.
  assert (Hn : n <> 0%Qc) by (intros ->; apply (Qclt_not_eq _ _ Hp eq_refl)).
  assert (Hd : (d / n * n = d)%Qc) by (field; exact Hn).
  set (q := (d / n)%Qc) in *. clearbody q. clear - Hp Hs Hd. 
  destruct (Qclt_le_dec q 0) as [Hq|Hq]; [|exact Hq]. exfalso. qc_nra.
Qed.

Lemma report_fails `{NN : Num} h : exists e, h_report h = Exn e.
Proof.
  unfold h_report. destruct (h_percentiles _ _) as [ps|e]; [|exists e; reflexivity].
  destruct (h_stddev h) as [sd|e]; [|exists e; reflexivity]. exists TypeError. reflexivity.
Qed.
Lemma report_type_error (E : env (NN := XQ sq)) ops size w qs : (0 < size)%nat ->
  recorded (NN := XQ sq) ops = fins qs -> never_minus_one qs ->
  h_report (fst (hrun (NN := XQ sq) E ops (h_new (us_new size)) w)) = Exn TypeError.
Proof.
  intros Hsz Hr Hn. pose proof (variance_exact sq E ops (us_new size) w qs Hr Hn) as [Hv _].
  unfold h_report.
  match goal with |- context [h_percentiles _ ?l] =>
    assert (Hps : exists ps, l = fins ps) end.
  { eexists [_; _; _; _; _; _]. reflexivity. }
  destruct Hps as [ps ->].
  destruct (percentiles_exact sq E ops size w qs ps Hsz Hr) as [P1 P2].
  set (h := fst (hrun E ops (h_new (us_new size)) w)) in *.
  assert (Hp : exists rs, h_percentiles h (fins ps) = Ok rs).
  { destruct qs as [|q qs]; [eexists; apply P1; reflexivity|]. destruct P2 as (? & ? & ? & _ & _ & _ & _ & P2 & _); [discriminate|].
    eexists. exact P2. }
  destruct Hp as [rs ->].
  assert (Hsd : exists sd, h_stddev h = Ok sd).
  { unfold h_stddev. destruct (h_count h >? 0); [|eexists; reflexivity]. rewrite Hv. cbn [nsqrt XQ xsqrt].
    unfold Qcneg. destruct (Qc_ltb (sample_variance qs) (QcZ 0)) eqn:El; [|eexists; reflexivity].
    apply Qc_ltb_lt in El. rewrite QcZ_0 in El. pose proof (sample_variance_nonneg qs). exfalso. eapply Qclt_not_le; eauto. }
  destruct Hsd as [sd ->]. reflexivity.
Qed.

Lemma variance_wrong (E : env (NN := XQ sq)) s w :
  h_variance (fst (hrun (NN := XQ sq) E [HUpdate (NN := XQ sq) (Fin (QcZ (-1))); HUpdate (NN := XQ sq) (Fin (QcZ 1))] (h_new s) w)) = Fin (QcZ 0) /\
  sample_variance [QcZ (-1); QcZ 1] = QcZ 2.
Proof.
  split; [|apply Qc_is_canon; reflexivity].
  cbn [hrun]. unfold h_update. destruct (us_update E (h_sample (h_new s)) _ w) as [s1 w1]. cbn [h_sample].
  destruct (us_update E s1 _ w1) as [s2 w2]. cbn [fst]. unfold h_variance. cbn. reflexivity.
Qed.
End xq.
