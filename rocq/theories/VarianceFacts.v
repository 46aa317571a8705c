(** The running variance of histograms is the sample variance (exact
    arithmetic) unless a running mean hits the sentinel -1. *)
From Verif Require Import Base Num NumFacts Env Stats TimerFacts SampleFacts.
From Coq Require Import QArith Qcanon Lqa.
Open Scope Z_scope.

(** ** Specification *)
Definition qsum (l : list Qc) : Qc := fold_right Qcplus (QcZ 0) l.
Definition qlen (l : list Qc) : Qc := QcZ (Z.of_nat (length l)).
Definition average (l : list Qc) : Qc := (qsum l / qlen l)%Qc.
Definition sq_dev (c : Qc) (l : list Qc) : Qc := qsum (map (fun x => (x - c) * (x - c))%Qc l).
(** the unbiased estimate of the variance *)
Definition sample_variance (l : list Qc) : Qc :=
  if (Z.of_nat (length l) <=? 1)%Z then QcZ 0
  else (sq_dev (average l) l / QcZ (Z.of_nat (length l) - 1))%Qc.
(** no proper non-empty prefix has average -1 *)
Definition never_minus_one (l : list Qc) : Prop :=
  forall k, (0 < k < length l)%nat -> average (firstn k l) <> QcZ (-1).

Lemma qsum_app l k : qsum (l ++ k) = (qsum l + qsum k)%Qc.
Proof. unfold qsum. induction l as [|x l IH]; cbn; [rewrite QcZ_0; ring|]. rewrite IH. ring. Qed.
Lemma sq_dev_alt c l : sq_dev c l = (qsum (map (fun x => x * x) l) - (1 + 1) * c * qsum l + qlen l * (c * c))%Qc.
Proof.
  unfold sq_dev, qsum, qlen. induction l as [|x l IH].
  - cbn [map fold_right length]. change (Z.of_nat 0) with 0. rewrite QcZ_0.
    ring.
  - cbn [map fold_right length]. rewrite IH. rewrite Nat2Z.inj_succ. unfold Z.succ. rewrite QcZ_add, QcZ_1. ring.
Qed.
Lemma qlen_nz l : l <> [] -> qlen l <> 0%Qc.
Proof. intros H E. unfold qlen in E. rewrite <- QcZ_0 in E. apply QcZ_inj in E. destruct l; [contradiction|cbn in E; lia]. Qed.
Lemma qlen_snoc l v : qlen (l ++ [v]) = (qlen l + 1)%Qc.
Proof. unfold qlen. rewrite app_length. cbn [length]. rewrite Nat2Z.inj_add. rewrite QcZ_add. change (Z.of_nat 1) with 1. rewrite QcZ_1. reflexivity. Qed.
Lemma average_one q : average [q] = q.
Proof. unfold average, qlen. cbn [qsum fold_right length]. change (Z.of_nat 1) with 1. rewrite QcZ_0, QcZ_1. field. discriminate. Qed.
Lemma nonneg_mean l : Forall (fun x => 0 <= x)%Qc l -> (0 <= qsum l)%Qc.
Proof. induction 1 as [|x l Hx H IH]; [cbn; rewrite QcZ_0; apply Qcle_refl|]. change (0 <= x + qsum l)%Qc. set (z := qsum l) in *. clearbody z. clear H. qc_lra. Qed.
Lemma nonneg_never l : Forall (fun x => 0 <= x)%Qc l -> never_minus_one l.
Proof.
  intros H k Hk Habs.
  assert (Hp : Forall (fun x => 0 <= x)%Qc (firstn k l)) by (apply Forall_take; exact H).
  apply nonneg_mean in Hp. unfold average in Habs.
  assert (Hl : qlen (firstn k l) <> 0%Qc). { apply qlen_nz. destruct k; [lia|]. destruct l; [cbn in Hk; lia|discriminate]. }
  assert (Hm : (qsum (firstn k l) = QcZ (-1) * qlen (firstn k l))%Qc).
  { rewrite <- Habs. field. exact Hl. }
  assert (Hq : (0 < qlen (firstn k l))%Qc).
  { unfold qlen. rewrite <- QcZ_0. apply QcZ_lt. destruct k; [lia|]. destruct l; [cbn in Hk; lia|cbn; lia]. }
  rewrite Hm in Hp. change (QcZ (-1)) with (QcZ (- (1))) in Hp. rewrite QcZ_opp, QcZ_1 in Hp. 
  set (z := qlen _) in *. clearbody z. clear - Hp Hq. qc_lra.
Qed.

Section xq.
Context (sq : Qc -> Qc) (E : env (NN := XQ sq)).
Notation Hist_ := (hist (NN := XQ sq)).

Definition fins (l : list Qc) : list xq := map Fin l.
Lemma fins_snoc l qs (v : xq) : l ++ [v] = fins qs -> exists qs' q, qs = qs' ++ [q] /\ l = fins qs' /\ v = Fin q.
Proof.
  intros H. induction qs as [|q qs' _] using rev_ind.
  - destruct l; discriminate.
  - exists qs', q. split; [reflexivity|]. unfold fins in H. rewrite map_app in H. cbn in H.
    apply app_inj_tail in H. exact H.
Qed.

Definition var_inv (l : list xq) (h : Hist_) : Prop :=
  h_count h = Z.of_nat (length l) /\
  forall qs, l = fins qs -> never_minus_one qs ->
    h_sum h = Fin (qsum qs) /\
    h_var h = match qs with [] => (Fin (QcZ (-1)), Fin (QcZ 0)) | _ => (Fin (average qs), Fin (sq_dev (average qs) qs)) end.

Lemma never_prefix qs q : never_minus_one (qs ++ [q]) -> never_minus_one qs.
Proof.
  intros H k Hk. specialize (H k). rewrite app_length in H. rewrite firstn_app in H.
  replace (k - length qs)%nat with 0%nat in H by lia. cbn in H. rewrite app_nil_r in H. apply H. lia.
Qed.
Lemma var_step l h v w : var_inv l h -> var_inv (l ++ [v]) (fst (h_update (NN := XQ sq) E h v w)).
Proof.
  intros [Hc Hv]. destruct (h_update_fields E h v w) as (H1 & H2 & H3 & _).
  split; [rewrite H1, Hc, app_length; cbn; lia|].
  intros qs Hqs Hn. apply fins_snoc in Hqs as (qs' & q & -> & -> & ->).
  destruct (Hv qs' eq_refl (never_prefix _ _ Hn)) as [Hs Hvar]. rewrite H2, H3, Hs, Hvar, Hc.
  assert (Hlen : length (fins qs') = length qs') by apply map_length. rewrite Hlen.
  split; [cbn; f_equal; rewrite qsum_app; cbn; rewrite QcZ_0; ring|].
  destruct qs' as [|x qs'].
  - cbn [app]. unfold update_variance. cbn [fst snd]. change (neqb (Num := XQ sq) (Fin (QcZ (-1))) (minus_one (NN := XQ sq))) with true.
    cbv iota. f_equal; f_equal.
    + symmetry. apply average_one.
    + rewrite average_one. unfold sq_dev. cbn [map qsum fold_right]. change (n0 (NN := XQ sq)) with (Fin (QcZ 0)). f_equal. rewrite QcZ_0. ring.
  - set (l := x :: qs') in *.
    assert (Hm1 : average l <> QcZ (-1)).
    { specialize (Hn (length l)). rewrite app_length, firstn_app, Nat.sub_diag, firstn_all in Hn. cbn [firstn] in Hn. rewrite app_nil_r in Hn. apply Hn. cbn. lia. }
    unfold update_variance. cbn [fst snd].
    assert (Heq : neqb (Num := XQ sq) (Fin (average l)) (minus_one (NN := XQ sq)) = false).
    { cbn. destruct (Qc_eqb _ _) eqn:Ee; [apply Qc_eqb_eq in Ee; contradiction|reflexivity]. }
    rewrite Heq.
    assert (HL : QcZ (Z.of_nat (length l) + 1) = (qlen l + 1)%Qc) by (unfold qlen; rewrite QcZ_add, QcZ_1; reflexivity).
    cbn [nadd nsub nmul ndiv nofZ XQ xadd xsub xopp xmul xdiv]. rewrite HL.
    assert (Hnz : qlen l <> 0%Qc) by (apply qlen_nz; discriminate).
    assert (Hnz1 : (qlen l + 1)%Qc <> 0%Qc).
    { rewrite <- HL. rewrite <- QcZ_0. intros Hz. apply QcZ_inj in Hz. lia. }
    assert (Hmean : (average l + (q + - average l) / (qlen l + 1))%Qc = average (l ++ [q])).
    { unfold average. rewrite qsum_app, qlen_snoc. cbn [qsum fold_right]. rewrite QcZ_0. field. split; assumption. }
    rewrite Hmean. destruct (l ++ [q]) as [|y k] eqn:Ek; [destruct l; discriminate|]. rewrite <- Ek. f_equal. f_equal.
    rewrite <- Ek in Hmean. rewrite <- Hmean. rewrite !sq_dev_alt. rewrite map_app, !qsum_app, qlen_snoc. cbn [map qsum fold_right]. rewrite QcZ_0.
    unfold average.
    generalize (qsum l), (qsum (map (fun x0 => x0 * x0)%Qc l)). intros a b. clear - Hnz Hnz1. generalize dependent (qlen l). intros n Hnz Hnz1.
    field. split; assumption.
Qed.

Lemma variance_exact ops s w qs : recorded (NN := XQ sq) ops = fins qs -> never_minus_one qs ->
  h_variance (fst (hrun (NN := XQ sq) E ops (h_new s) w)) = Fin (sample_variance qs) /\
  h_mean (fst (hrun (NN := XQ sq) E ops (h_new s) w)) = Fin (match qs with [] => QcZ 0 | _ => average qs end).
Proof.
  intros Hr Hn. pose proof (hrun_new (NN := XQ sq) E var_inv) as H.
  assert (H0 : forall h, var_inv [] (h_clear h)).
  { intros h. split; [reflexivity|]. intros k Hk _. destruct k; [|discriminate]. split; reflexivity. }
  specialize (H H0 (fun l h v w0 => var_step l h v w0) ops s w). destruct H as [Hc Hv].
  destruct (Hv qs Hr Hn) as [Hs Hvar].
  assert (Hlen : length (recorded (NN := XQ sq) ops) = length qs) by (rewrite Hr; apply map_length).
  pose proof (eq_trans Hc (f_equal Z.of_nat Hlen)) as Hc'. clear Hc. rename Hc' into Hc. split.
  - unfold h_variance, sample_variance. rewrite Hc. destruct (Z.leb_spec (Z.of_nat (length qs)) 1); [reflexivity|].
    rewrite Hvar. destruct qs as [|q qs]; [cbn in *; lia|]. reflexivity.
  - unfold h_mean. rewrite Hc, Hs. destruct qs as [|q qs]; [reflexivity|].
    destruct (Z.gtb_spec (Z.of_nat (length (q :: qs))) 0); [|cbn in *; lia]. reflexivity.
Qed.
End xq.
