(** A meter object over any history of marks and reports (C18, C19). *)
From Verif Require Import Base Num NumFacts Metrics XQFacts FlushXQ HistFacts.
From Coq Require Import QArith Qcanon.
Open Scope Z_scope.

Section history.
Context `{NN : Num}.
(** what is done to a meter: mark(value), report(timestamp) *)
Inductive mop := Mark (v : Num.num) | Report (ts : Z).
Definition mstep (m : meter) (o : mop) : meter :=
  match o with Mark v => meter_mark m v | Report ts => fst (meter_report m ts) end.
Definition mrun (ops : list mop) (m : meter) : meter := fold_left mstep ops m.

(** the specification: everything marked; the time of the last report; what was
    marked since the last report that emitted something *)
Definition marks (ops : list mop) : list Num.num :=
  flat_map (fun o => match o with Mark v => [v] | Report _ => [] end) ops.
Definition polled (created : Num.num) (ops : list mop) : Num.num :=
  fold_left (fun t o => match o with Report ts => nofZ ts | Mark _ => t end) ops created.
(** a report emits unless the time equals that of the previous one *)
Definition emits (created : Num.num) (before : list mop) (ts : Z) : bool := negb (neqb (nofZ ts) (polled created before)).
Inductive since (created : Num.num) : list mop -> list Num.num -> Prop :=
| since_start ops : (forall a ts b, ops = a ++ Report ts :: b -> emits created a ts = false) ->
    since created ops (marks ops)
| since_last a ts b : emits created a ts = true ->
    (forall c ts' d, b = c ++ Report ts' :: d -> emits created (a ++ Report ts :: c) ts' = false) ->
    since created (a ++ Report ts :: b) (marks b).
End history.

Section facts.
Context `{NN : Num} {NX : NumExact NN} (Hdiv : forall (m : meter) ts, exists ms, snd (meter_report m ts) = Ok ms).
Context (name prefix : str) (created : Num.num).
Definition fresh_meter : meter := Meter name prefix n0 n0 created.
Notation run ops := (mrun ops fresh_meter).

Lemma mrun_snoc ops o m : mrun (ops ++ [o]) m = mstep (mrun ops m) o.
Proof. unfold mrun. rewrite fold_left_app. reflexivity. Qed.
Lemma marks_snoc ops o : marks (ops ++ [o]) = marks ops ++ match o with Mark v => [v] | _ => [] end.
Proof. unfold marks. rewrite flat_map_app. cbn [flat_map]. rewrite app_nil_r. reflexivity. Qed.
Lemma nsum_snoc l v : nsum (l ++ [v]) = nadd (nsum l) v.
Proof. unfold nsum. rewrite fold_left_app. reflexivity. Qed.
Lemma run_names ops : me_name (run ops) = name /\ me_prefix (run ops) = prefix.
Proof.
  induction ops as [|o ops [IH1 IH2]] using rev_ind; [auto|]. rewrite mrun_snoc. destruct o as [v|ts]; cbn [mstep meter_mark me_name me_prefix]; [auto|].
  unfold meter_report. destruct (neqb _ _); [auto|]. destruct (pydiv _ _); auto.
Qed.
Lemma run_poll ops : me_poll (run ops) = polled created ops.
Proof.
  induction ops as [|o ops IH] using rev_ind; [reflexivity|]. rewrite mrun_snoc. unfold polled. rewrite fold_left_app. cbn [fold_left].
  destruct o as [v|ts]; cbn [mstep meter_mark me_poll]; [exact IH|].
  unfold meter_report. destruct (neqb _ _); [reflexivity|]. destruct (pydiv _ _); reflexivity.
Qed.
Lemma run_marked ops : marked (run ops) = nsum (marks ops).
Proof using NX.
  induction ops as [|o ops IH] using rev_ind; [unfold marked; cbn; apply nadd_0_l|]. rewrite mrun_snoc, marks_snoc.
  destruct o as [v|ts]; cbn [mstep].
  - rewrite marked_mark, IH, nsum_snoc. reflexivity.
  - rewrite marked_report, IH, app_nil_r. reflexivity.
Qed.

Lemma snoc_split {A} (l : list A) x a y b : l ++ [x] = a ++ y :: b -> (a = l /\ x = y /\ b = []) \/ exists b', b = b' ++ [x] /\ l = a ++ y :: b'.
Proof.
  intros H. destruct (exists_last (l := y :: b) ltac:(discriminate)) as (b' & z & Hb).
  rewrite Hb, app_assoc in H. apply app_inj_tail in H. destruct H as [H ->].
  destruct b' as [|w b']; cbn in Hb.
  - injection Hb as -> ->. left. rewrite app_nil_r in H. auto.
  - injection Hb as <- ->. right. exists b'. auto.
Qed.
Lemma since_mark ops l v : since created ops l -> since created (ops ++ [Mark v]) (l ++ [v]).
Proof.
  intros [ops' H|a ts b H1 H2].
  - replace (marks ops' ++ [v]) with (marks (ops' ++ [Mark v])) by apply marks_snoc. constructor.
    intros a ts b Hab. apply snoc_split in Hab. destruct Hab as [(_ & Hab & _)|(b' & _ & Hab)]; [discriminate|]. eauto.
  - replace (marks b ++ [v]) with (marks (b ++ [Mark v])) by apply marks_snoc. rewrite <- app_assoc. cbn [app].
    apply since_last; [exact H1|]. intros c ts' d Hab. apply snoc_split in Hab. destruct Hab as [(_ & Hab & _)|(b' & _ & Hab)]; [discriminate|]. eauto.
Qed.
Lemma since_quiet ops l ts : emits created ops ts = false -> since created ops l -> since created (ops ++ [Report ts]) l.
Proof.
  intros He Hs. revert He. destruct Hs as [ops' H|a ts0 b H1 H2]; intros He.
  - replace (marks ops') with (marks (ops' ++ [Report ts])) by (rewrite marks_snoc; apply app_nil_r). constructor.
    intros a0 ts' b0 Hab. apply snoc_split in Hab. destruct Hab as [(-> & [= <-] & _)|(b' & _ & Hab)]; [exact He|]. eauto.
  - replace (marks b) with (marks (b ++ [Report ts])) by (rewrite marks_snoc; apply app_nil_r). rewrite <- app_assoc. cbn [app].
    apply since_last; [exact H1|]. intros c ts' d Hab. apply snoc_split in Hab. destruct Hab as [(-> & [= <-] & _)|(b' & _ & Hab)]; [exact He|]. eauto.
Qed.
Lemma since_emit ops ts : emits created ops ts = true -> since created (ops ++ [Report ts]) [].
Proof. intros He. apply (since_last created ops ts []); [exact He|]. intros c ts' d H. destruct c; discriminate. Qed.

Lemma run_value ops : exists l, since created ops l /\ me_value (run ops) = nsum l.
Proof using Hdiv.
  induction ops as [|o ops (l & IH1 & IH2)] using rev_ind.
  - exists []. split; [|reflexivity]. apply (since_start created []). intros a ts b H. destruct a; discriminate.
  - rewrite mrun_snoc. destruct o as [v|ts]; cbn [mstep].
    + exists (l ++ [v]). split; [apply since_mark; exact IH1|]. cbn [meter_mark me_value]. rewrite IH2, nsum_snoc. reflexivity.
    + destruct (emits created ops ts) eqn:He.
      * exists []. split; [apply since_emit; exact He|]. unfold emits in He. rewrite <- run_poll in He.
        destruct (Hdiv (run ops) ts) as [ms Hms]. revert Hms. unfold meter_report.
        destruct (neqb (nofZ ts) (me_poll (run ops))); [discriminate|]. destruct (pydiv _ _); [reflexivity|discriminate].
      * exists l. split; [apply since_quiet; assumption|]. unfold emits in He. rewrite <- run_poll in He.
        unfold meter_report. destruct (neqb (nofZ ts) (me_poll (run ops))); [exact IH2|discriminate].
Qed.

Lemma meter_history ops ts : exists l, since created ops l /\
  snd (meter_report (run ops) ts) = Ok
    (if emits created ops ts then
       [DP (prefix ++ name ++ B ".count") (VF (nround 6 (nsum (marks ops)))) ts;
        DP (prefix ++ name ++ B ".rate") (VF (nround 6 (ndiv (nsum l) (nsub (nofZ ts) (polled created ops))))) ts]
     else []).
Proof using Hdiv NX.
  destruct (run_value ops) as (l & H1 & H2). exists l. split; [exact H1|].
  destruct (run_names ops) as [Hn Hp]. pose proof (run_marked ops) as Hm. unfold marked in Hm.
  destruct (Hdiv (run ops) ts) as [ms Hms]. unfold emits. rewrite <- run_poll. revert Hms. unfold meter_report.
  destruct (neqb (nofZ ts) (me_poll (run ops))); [reflexivity|]. unfold pydiv.
  destruct (neqb _ n0); [discriminate|]. intros _. cbn [negb snd]. rewrite Hn, Hp, Hm, H2. reflexivity.
Qed.
End facts.

(** ** the sign of the rate *)
Section sign.
Context (sq : Qc -> Qc).
Definition nonneg (x : xq) : Prop := xleb (Fin (QcZ 0)) x = true.
Lemma nonneg_iff x : nonneg x <-> x = Inf false \/ exists q, x = Fin q /\ (0 <= q)%Qc.
Proof.
  unfold nonneg, xleb. rewrite QcZ_0. destruct x as [q|b|]; cbn.
  - rewrite orb_true_iff, Qc_ltb_lt, Qc_eqb_eq. split.
    + intros H. right. exists q. split; [reflexivity|]. destruct H as [H| <-]; [apply Qclt_le_weak; exact H|apply Qcle_refl].
    + intros [H|(q' & [= <-] & H)]; [discriminate|]. destruct (Qcle_lt_or_eq _ _ H); auto.
  - destruct b; cbn; split; try discriminate; auto; intros [H|(q' & H & _)]; discriminate.
  - split; [discriminate|]. intros [H|(q' & H & _)]; discriminate.
Qed.
Lemma nonneg_add a b : nonneg a -> nonneg b -> nonneg (xadd a b).
Proof.
  rewrite !nonneg_iff. intros [->|(p & -> & Hp)] [->|(q & -> & Hq)]; cbn; auto. right. eexists. split; [reflexivity|].
  replace 0%Qc with (0 + 0)%Qc by apply Qcplus_0_l. apply Qcplus_le_compat; assumption.
Qed.
Lemma nonneg_sum l : Forall nonneg l -> nonneg (nsum (NN := XQ sq) l).
Proof.
  unfold nsum. change (@n0 (XQ sq)) with (Fin (QcZ 0)). assert (H0 : nonneg (Fin (QcZ 0))) by reflexivity.
  revert H0. generalize (Fin (QcZ 0)). intros a Ha Hl. revert a Ha. induction Hl as [|x l Hx Hl IH]; intros a Ha; [exact Ha|].
  cbn [fold_left]. apply IH. apply nonneg_add; assumption.
Qed.
Lemma QcZ_pos z : 0 < z -> (0 < QcZ z)%Qc.
Proof. intros H. rewrite <- QcZ_0. apply QcZ_lt. exact H. Qed.
Lemma Qcinv_pos q : (0 < q)%Qc -> (0 < / q)%Qc.
Proof.
  intros H. apply Qcnot_le_lt. intros H1.
  assert (Hz : (/ q * q <= 0 * q)%Qc) by (apply Qcmult_le_compat_r; [exact H1|apply Qclt_le_weak; exact H]).
  rewrite Qcmult_0_l, Qcmult_comm, Qcmult_inv_r in Hz.
  - discriminate Hz || (apply Qcle_not_lt in Hz; apply Hz; reflexivity).
  - intros ->. apply Qclt_not_le in H. apply H. apply Qcle_refl.
Qed.
Lemma Qcpow10_pos n : (0 < Qcpow10 n)%Qc.
Proof.
  unfold Qcpow10. destruct (0 <=? n) eqn:Hn; [|apply Qcinv_pos]; apply QcZ_pos; apply Z.pow_pos_nonneg; lia.
Qed.
Lemma Qcmul_nonneg a b : (0 <= a)%Qc -> (0 <= b)%Qc -> (0 <= a * b)%Qc.
Proof. intros Ha Hb. rewrite <- (Qcmult_0_l b). apply Qcmult_le_compat_r; assumption. Qed.
Lemma round_nonneg n x : nonneg x -> nonneg (xround n x).
Proof.
  rewrite !nonneg_iff. intros [->|(q & -> & Hq)]; cbn; [auto|]. right. eexists. split; [reflexivity|].
  assert (H1 : (0 <= q * Qcpow10 n)%Qc) by (apply Qcmul_nonneg; [exact Hq|apply Qclt_le_weak, Qcpow10_pos]).
  apply Qcmul_nonneg; [|apply Qclt_le_weak, Qcpow10_pos].
  rewrite <- QcZ_0. apply QcZ_le. unfold Qcround0, Qcneg.
  rewrite QcZ_0. destruct (Qc_ltb (q * Qcpow10 n) 0) eqn:Ez; [apply Qc_ltb_lt in Ez; apply Qclt_not_le in Ez; contradiction|].
  set (y := (q * Qcpow10 n)%Qc) in *.
  destruct (proj1 (Qcfloor_spec (y + Q2Qc (1 # 2))%Qc _) eq_refl) as [_ Hf].
  assert (H2 : (QcZ 0 < QcZ (Qcfloor (y + Q2Qc (1 # 2)) + 1))%Qc).
  { eapply Qcle_lt_trans; [|exact Hf]. rewrite QcZ_0. replace 0%Qc with (0 + 0)%Qc by apply Qcplus_0_l.
    apply Qcplus_le_compat; [exact H1|]. discriminate. }
  rewrite QcZ_lt in H2. apply Z.lt_succ_r. exact H2.
Qed.
Lemma div_nonneg x q : nonneg x -> (0 < q)%Qc -> nonneg (xdiv x (Fin q)).
Proof.
  rewrite !nonneg_iff. intros [->|(p & -> & Hp)] Hq; cbn.
  - left. f_equal. unfold Qcneg. rewrite QcZ_0, (proj2 (Qc_ltb_ge q 0%Qc)); [reflexivity|apply Qclt_le_weak; exact Hq].
  - right. eexists. split; [reflexivity|]. apply Qcmul_nonneg; [exact Hp|]. apply Qclt_le_weak, Qcinv_pos, Hq.
Qed.

Lemma since_marks created ops l : since (NN := XQ sq) created ops l -> forall v, In v l -> In v (marks (NN := XQ sq) ops).
Proof.
  intros [ops' _|a ts b _ _] v Hv; [exact Hv|]. unfold marks in *. rewrite flat_map_app. apply in_or_app. right. exact Hv.
Qed.
(** time of the previous report before the new one, values not negative: so is the rate *)
Lemma rate_nonneg name prefix q0 ops ts c r :
  let created := Fin q0 : Num.num (Num := XQ sq) in
  Forall nonneg (marks (NN := XQ sq) ops) ->
  xleb (polled (NN := XQ sq) created ops) (Fin (QcZ ts)) = true ->
  snd (meter_report (mrun (NN := XQ sq) ops (fresh_meter name prefix created)) ts) = Ok [c; r] ->
  exists x, dp_value r = VF x /\ nonneg x.
Proof.
  intros created Hm Ht H.
  destruct (meter_history (NN := XQ sq) (NX := XQ_exact sq) (meter_total sq) name prefix created ops ts) as (l & Hl & Hr).
  rewrite Hr in H. destruct (emits created ops ts) eqn:He; [|discriminate]. injection H as <- <-.
  eexists. split; [reflexivity|].
  assert (Hsum : nonneg (nsum (NN := XQ sq) l)).
  { apply nonneg_sum. apply Forall_forall. intros v Hv. rewrite Forall_forall in Hm. 
    apply Hm. apply elem_of_list_In. apply (since_marks created ops l Hl). apply elem_of_list_In. exact Hv. }
  apply round_nonneg.
  assert (Hfin : exists q, polled (NN := XQ sq) created ops = Fin q).
  { unfold polled. assert (Hc : exists q, created = Fin q) by (exists q0; reflexivity). revert Hc. generalize created.
    clear. induction ops as [|o ops IH]; intros t Ht; [exact Ht|]. cbn [fold_left]. apply IH. destruct o; [exact Ht|]. eexists. reflexivity. }
  destruct Hfin as [q Hq]. rewrite Hq in *. unfold emits in He. rewrite Hq in He.
  change (xleb (Fin q) (Fin (QcZ ts)) = true) in Ht. change (negb (xeqb (Fin (QcZ ts)) (Fin q)) = true) in He.
  change (nonneg (xdiv (nsum (NN := XQ sq) l) (Fin (QcZ ts + - q)%Qc))). apply div_nonneg; [exact Hsum|].
  unfold xleb in Ht. cbn in Ht, He. apply orb_true_iff in Ht. apply negb_true_iff in He.
  destruct Ht as [Ht|Ht].
  - apply Qc_ltb_lt in Ht. apply Qclt_minus_iff in Ht. exact Ht.
  - apply Qc_eqb_eq in Ht. subst q. rewrite (proj2 (Qc_eqb_eq _ _) eq_refl) in He. discriminate.
Qed.
End sign.
