(** The configurable processor with exact numbers: what its timers report, and
    when a flush can raise. *)
From Verif Require Import Base StrFacts Num NumFacts Env Stats Glob Metrics Gen GenFacts Processor Configurable
  LineSpec LineFacts FloatFacts ProcFacts ProcSpec ReceiveFacts ReceiveFacts2 Sched StepFacts CSched ConfFacts
  FlushRun FlushStages FlushComp FlushFail TimerFacts XQFacts FlushXQ SampleFacts VarianceFacts PercFacts BinFacts StatsDerived
  TimerHist ConfFlush ConfInv.
From Coq Require Import QArith Qcanon.
Open Scope Z_scope.

(** ** Specification of a timer's report *)
(** the percentiles come from a sample of the durations: all of them up to 1028 *)
Definition from_sample (qs : list Qc) (p : Qc) (r : Qc) : Prop :=
  exists kept l, l ≡ₚ kept /\ rising l /\ picked (NN := XQ (fun q => q)) (fins qs) (fins kept) /\
    length kept = Nat.min (length qs) reservoir_1028 /\
    ((length qs <= reservoir_1028)%nat -> kept = qs) /\
    at_position l (p * QcZ (Z.of_nat (length kept) + 1))%Qc r.
(** [qs]: the durations; [total]: how many there have ever been, negative ones included *)
Record timer_summary (sq : Qc -> Qc) (qs : list Qc) (total : Z) (elapsed : Qc)
  (p999 p99 count mx mean mn rate sd : Qc) : Prop := {
  ts_p : qs <> [] -> from_sample qs (Q2Qc (999 # 1000)) p999 /\ from_sample qs (Q2Qc (99 # 100)) p99;
  ts_count : count = QcZ total;
  ts_max : qs <> [] -> highest qs mx;
  ts_min : qs <> [] -> lowest qs mn;
  ts_mean : qs <> [] -> mean = average qs;
  ts_rate : rate = (if Qc_eq_dec elapsed 0 then 0 else qlen qs / elapsed)%Qc;
  ts_sd : qs <> [] -> sd = sq (sample_variance qs);
  ts_none : qs = [] -> p999 = 0%Qc /\ p99 = 0%Qc /\ mx = 0%Qc /\ mean = 0%Qc /\ mn = 0%Qc /\ rate = 0%Qc /\ sd = 0%Qc }.
(** the eight items, each rounded to six decimals *)
Definition timer_group (sq : Qc -> Qc) (name : str) (ts : Z) (p999 p99 count mx mean mn rate sd : Qc) : list (dp (NN := XQ sq)) :=
  map (fun '(suffix, v) => DP (NN := XQ sq) (name ++ suffix) (VF (NN := XQ sq) (xround 6 (Fin v))) ts)
    [(B ".999percentile", p999); (B ".99percentile", p99); (B ".count", count); (B ".max", mx); (B ".mean", mean);
     (B ".min", mn); (B ".rate", rate); (B ".stddev", sd)].

Section xq.
Context (sq : Qc -> Qc) (E : env (NN := XQ sq)).
Notation NN := (XQ sq).
Notation num := (@Num.num NN).

Lemma percentile_total (values : list num) p : values <> [] -> exists r, percentile_of (NN := NN) values (Fin p) = Ok r.
Proof.
  intros Hne. set (n := length values).
  assert (Hn : (0 < n)%nat) by (subst n; destruct values; [contradiction|cbn; lia]).
  set (l := replicate n (QcZ 0)).
  assert (Hl : length (fins l) = n) by (unfold fins, l; rewrite map_length, replicate_length; reflexivity).
  destruct (percentile_spec sq l p) as (r & Hr & _). { unfold l. destruct n; [lia|discriminate]. }
  rewrite (percentile_of_len (NN := NN) _ _ _ (f_equal Z.of_nat Hl)) in Hr.
  rewrite (percentile_of_len (NN := NN) values _ (Z.of_nat n) eq_refl). cbn zeta in *.
  destruct (nltb _ _).
  - destruct values as [|v values]; [contradiction|]. cbn. eauto.
  - destruct (nleb _ _).
    + destruct (last values) as [v|] eqn:Ev; [eauto|]. apply last_None in Ev. contradiction.
    + destruct (ntrunc _) as [i|e]; [|discriminate].
      assert (HL : forall j, is_Some (fins l !! j) -> is_Some (values !! j)).
      { intros j Hj. apply lookup_lt_is_Some. apply lookup_lt_is_Some in Hj. rewrite Hl in Hj. exact Hj. }
      assert (Hr' : is_Some (fins l !! Z.to_nat (i - 1)) /\ is_Some (fins l !! Z.to_nat i)).
      { change (@Num.num (XQ sq)) with xq in *. destruct (fins l !! Z.to_nat (i - 1)); [|discriminate].
        destruct (fins l !! Z.to_nat i); [|discriminate]. eauto. }
      destruct Hr' as [H1 H2]. apply HL in H1 as [a Ha]. apply HL in H2 as [b Hb]. rewrite Ha, Hb. eauto.
Qed.
Lemma hreach_inv size l h : hreach (NN := NN) E size l h -> h_count h = Z.of_nat (length l) /\ us_inv (NN := NN) size l (h_sample h).
Proof.
  intros H. apply hreach_run in H as (F & ops & -> & <-). split; [apply hist_count|]. apply hist_sample. apply replicate_length.
Qed.
(** the sum of squares is NaN or not negative, so its root never raises *)
Definition s_ok (s : num) : Prop := s = NaN \/ exists q, s = Fin q /\ (0 <= q)%Qc.
Lemma s_step c (ms : num * num) v : 1 <= c -> s_ok (snd ms) -> s_ok (snd (update_variance (NN := NN) c ms v)).
Proof.
  intros Hc Hs. destruct ms as [m s]. cbn [snd] in Hs. unfold update_variance. cbn [fst snd].
  destruct (neqb m _); [right; exists (QcZ 0); split; [reflexivity|rewrite QcZ_0; apply Qcle_refl]|].
  destruct Hs as [->|(q & -> & Hq)].
  { left. reflexivity. }
  cbn [nadd nsub nmul ndiv nofZ XQ].
  assert (Hcq : (0 < QcZ c)%Qc) by (rewrite <- QcZ_0; apply QcZ_lt; lia).
  assert (Hc1 : (1 <= QcZ c)%Qc) by (rewrite <- QcZ_1; apply QcZ_le; lia).
  assert (Hneg : Qcneg (QcZ c) = false) by (unfold Qcneg; apply Qc_ltb_ge; rewrite QcZ_0; apply Qclt_le_weak; exact Hcq).
  destruct m as [m|b|], v as [v|b'|]; try (left; reflexivity).
  - right. cbn [snd xadd xsub xopp xmul xdiv]. eexists. split; [reflexivity|].
    set (d := (v + - m)%Qc). assert (Hnz : QcZ c <> 0%Qc) by (intros Hz; rewrite Hz in Hcq; exact (Qclt_not_eq _ _ Hcq eq_refl)).
    assert (Hd : (v + - (m + d / QcZ c) = d * ((QcZ c - 1) / QcZ c))%Qc) by (unfold d; field; exact Hnz).
    rewrite Hd. assert (Hr : (0 <= (QcZ c - 1) / QcZ c)%Qc).
    { unfold Qcdiv. assert (Hi : (0 < / QcZ c)%Qc).
      { unfold Qclt in *. change (this 0%Qc) with 0%Q in *. cbn [this Qcinv Q2Qc]. rewrite Qred_correct. apply Qinv_lt_0_compat. exact Hcq. }
      set (i := (/ QcZ c)%Qc) in *. set (z := QcZ c) in *. clearbody i z. clear - Hi Hc1. qc_nra. }
    set (r := ((QcZ c - 1) / QcZ c)%Qc) in *. clearbody r d. clear - Hr Hq. 
    assert (Hdd : (0 <= d * d)%Qc) by qc_nra. assert (H : (d * (d * r) = d * d * r)%Qc) by ring. rewrite H.
    set (e := (d * d)%Qc) in *. clearbody e. qc_nra.
  - left. cbn. rewrite Hneg. destruct b'; reflexivity.
  - left. cbn. rewrite Hneg. destruct b; reflexivity.
  - left. destruct b, b'; cbn; rewrite ?Hneg; reflexivity.
Qed.
Lemma hreach_s size l h : hreach (NN := NN) E size l h -> s_ok (snd (h_var h)) /\ 0 <= h_count h.
Proof.
  induction 1 as [h _|l h v w Hh [IH Hc]].
  - split; [|cbn; lia]. right. exists (QcZ 0). split; [reflexivity|rewrite QcZ_0; apply Qcle_refl].
  - destruct (h_update_fields (NN := NN) E h v w) as (H1 & _ & H3 & _). rewrite H3, H1. split; [|lia]. apply s_step; [lia|exact IH].
Qed.
Lemma stddev_total size l h : hreach (NN := NN) E size l h -> exists r, h_stddev h = Ok r.
Proof.
  intros H. destruct (hreach_s _ _ _ H) as [Hs Hc]. unfold h_stddev. destruct (h_count h >? 0); [|eauto].
  unfold h_variance. destruct (Z.leb_spec (h_count h) 1) as [|Hgt].
  { cbn. unfold Qcneg. rewrite (proj2 (Qc_ltb_ge _ _)) by apply Qcle_refl. eauto. }
  destruct Hs as [->|(q & -> & Hq)]; [cbn; eauto|]. cbn.
  assert (Hn : Qcneg (q / QcZ (h_count h - 1))%Qc = false); [|rewrite Hn; eauto].
  unfold Qcneg. apply Qc_ltb_ge. rewrite QcZ_0. unfold Qcdiv.
  assert (Hcq : (0 < QcZ (h_count h - 1))%Qc) by (rewrite <- QcZ_0; apply QcZ_lt; lia).
  assert (Hi : (0 < / QcZ (h_count h - 1))%Qc).
  { unfold Qclt in *. change (this 0%Qc) with 0%Q in *. cbn [this Qcinv Q2Qc]. rewrite Qred_correct. apply Qinv_lt_0_compat. exact Hcq. }
  set (i := (/ QcZ _)%Qc) in *. clearbody i. clear - Hi Hq. qc_nra.
Qed.
Lemma percentiles_total size l h ps : (0 < size)%nat -> hreach (NN := NN) E size l h ->
  exists rs, h_percentiles (NN := NN) h (fins ps) = Ok rs /\ length rs = length ps.
Proof.
  intros Hsz H. destruct (hreach_inv _ _ _ H) as [Hc Hi]. unfold h_percentiles. rewrite Hc.
  destruct (Z.gtb_spec (Z.of_nat (length l)) 0) as [Hg|_].
  2:{ eexists. split; [reflexivity|]. unfold fins. rewrite !map_length. reflexivity. }
  pose proof (us_get_length (NN := NN) _ _ _ Hi) as Hl.
  set (vs := nsort (NN := NN) (us_get (h_sample h))).
  assert (Hv : vs <> []).
  { intros Habs. pose proof (nsort_length (NN := NN) (us_get (h_sample h))) as Hn. fold vs in Hn. rewrite Habs in Hn. rewrite Hl in Hn. change (@Num.num (XQ sq)) with xq in *. cbn [length] in Hn. lia. }
  clearbody vs. clear - Hv. induction ps as [|p ps (rs & IH & IHl)]; [exists []; split; reflexivity|].
  destruct (percentile_total vs p Hv) as [r Hr]. exists (r :: rs).
  cbn [fins map map_res]. change (map Fin ps) with (fins ps). rewrite Hr, IH. split; [reflexivity|]. cbn [length]. f_equal. exact IHl.
Qed.
Lemma six_fins : [lit (NN := NN) 5 (-1); lit (NN := NN) 75 (-2); lit (NN := NN) 95 (-2); lit (NN := NN) 98 (-2); lit (NN := NN) 99 (-2); lit (NN := NN) 999 (-3)] =
  fins [Q2Qc (1 # 2); Q2Qc (3 # 4); Q2Qc (95 # 100); Q2Qc (98 # 100); Q2Qc (99 # 100); Q2Qc (999 # 1000)].
Proof. cbn [lit nlit XQ xlit fins map]. repeat (apply (f_equal2 (@cons xq)); [apply (f_equal Fin); apply Qc_is_canon; reflexivity|]). reflexivity. Qed.
Lemma rate_total (t : timer (NN := NN)) ts : exists r, timer_rate (NN := NN) t ts = Ok r.
Proof. unfold timer_rate, pydiv. cbv zeta. destruct (neqb _ _); eauto. Qed.
Lemma reservoir_pos : (0 < reservoir_1028)%nat.
Proof. unfold reservoir_1028. lia. Qed.
Lemma timer_total key prefix all since last (t : timer (NN := NN)) ts : timer_after E key prefix all since last t ->
  exists ms, snd (timer_report (NN := NN) t ts) = Ok ms.
Proof.
  intros (_ & _ & _ & _ & Hh). unfold timer_report. rewrite six_fins.
  match goal with |- context [fins ?ps] => destruct (percentiles_total _ _ _ ps reservoir_pos Hh) as (rs & Hr & Hl) end.
  cbn [length] in Hl. rewrite Hr. destruct (stddev_total _ _ _ Hh) as [sd ->]. destruct (rate_total t ts) as [r ->].
  do 6 (destruct rs as [|? rs]; [discriminate|]). cbn. eauto.
Qed.

(** what it reports *)
Lemma nleb_nonneg (x : num) : kept (NN := NN) x = true -> x <> NaN.
Proof. intros H ->. discriminate. Qed.
Lemma kept_fins qs : List.filter (kept (NN := NN)) (fins qs) = fins (List.filter (fun q => Qc_leb 0 q) qs).
Proof.
  induction qs as [|q qs IH]; [reflexivity|]. cbn [fins map List.filter]. change (map Fin qs) with (fins qs).
  assert (Hk : kept (NN := NN) (Fin q) = Qc_leb 0 q).
  { unfold kept. cbn. unfold xleb. cbn. unfold Qc_ltb, Qc_eqb, Qc_leb. change (QcZ 0) with 0%Qc. destruct (0 ?= q)%Qc; reflexivity. }
  rewrite Hk. rewrite IH. destruct (Qc_leb 0 q); reflexivity.
Qed.
Lemma greatest_highest qs (m : num) : greatest (NN := NN) (fins qs) m -> exists q, m = Fin q /\ highest qs q.
Proof.
  intros [H1 H2]. apply elem_of_list_fmap in H1 as (q & -> & Hq). exists q. split; [reflexivity|]. split; [exact Hq|].
  intros x Hx. specialize (H2 (Fin x) (elem_of_list_fmap_1 Fin qs x Hx)). cbn in H2. apply Qc_ltb_ge in H2. exact H2.
Qed.
Lemma least_lowest qs (m : num) : least (NN := NN) (fins qs) m -> exists q, m = Fin q /\ lowest qs q.
Proof.
  intros [H1 H2]. apply elem_of_list_fmap in H1 as (q & -> & Hq). exists q. split; [reflexivity|]. split; [exact Hq|].
  intros x Hx. specialize (H2 (Fin x) (elem_of_list_fmap_1 Fin qs x Hx)). cbn in H2. apply Qc_ltb_ge in H2. exact H2.
Qed.
Lemma fins_inj a b : fins a = fins b -> a = b.
Proof.
  revert b. induction a as [|x a IH]; intros [|y b] He; try discriminate; [reflexivity|].
  injection He as -> He. f_equal. apply IH. exact He.
Qed.
Lemma sqrt_ok q : (0 <= q)%Qc -> xsqrt sq (Fin q) = Ok (Fin (sq q)).
Proof. intros H. cbn. unfold Qcneg. rewrite (proj2 (Qc_ltb_ge _ _)); [reflexivity|]. rewrite QcZ_0. exact H. Qed.
Lemma timer_exact key prefix all since t0 (t : timer (NN := NN)) ts ds : timer_after E key prefix all since (Fin t0) t ->
  since = fins ds ->
  let qs := List.filter (fun q => Qc_leb 0 q) ds in
  exists p999 p99 count mx mean mn rate sd,
    timer_summary sq qs (Z.of_nat (length all)) (QcZ ts - t0)%Qc p999 p99 count mx mean mn rate sd /\
    snd (timer_report (NN := NN) t ts) = Ok (timer_group sq (under prefix key) ts p999 p99 count mx mean mn rate sd).
Proof.
  intros (Hn & Hp & Hc & Hl & Hh) -> qs. rewrite kept_fins in Hh. fold qs in Hh.
  assert (Hnn : Forall (fun x => 0 <= x)%Qc qs).
  { apply Forall_forall. intros x Hx. apply elem_of_list_In in Hx. apply List.filter_In in Hx as [_ Hx]. apply Qc_leb_le. exact Hx. }
  clearbody qs. destruct (hreach_inv _ _ _ Hh) as [Hcnt Hsam].
  assert (Hlen : length (fins qs) = length qs) by apply map_length.
  pose proof (eq_trans Hcnt (f_equal Z.of_nat Hlen)) as Hcnt2. clear Hcnt. rename Hcnt2 into Hcnt.
  apply hreach_run in Hh as (F & ops & Hh & Hrec).
  pose proof (variance_exact sq F ops (us_new reservoir_1028) world0 qs Hrec (nonneg_never qs Hnn)) as [Hvar Hmean].
  pose proof (percentiles_exact sq F ops reservoir_1028 world0 qs) as Hperc.
  specialize (Hperc [Q2Qc (1 # 2); Q2Qc (3 # 4); Q2Qc (95 # 100); Q2Qc (98 # 100); Q2Qc (99 # 100); Q2Qc (999 # 1000)] reservoir_pos Hrec).
  pose proof (hist_extrema (NN := NN) F (XQ_ord sq) ops (us_new reservoir_1028) world0) as Hext.
  rewrite Hrec in Hext. specialize (Hext (fins_ok sq qs)). cbn zeta in Hperc.
  rewrite <- Hh in Hvar, Hmean, Hperc, Hext. unfold timer_report. rewrite six_fins.
  assert (Hrate : timer_rate (NN := NN) t ts = Ok (Fin (if Qc_eq_dec (QcZ ts - t0) 0 then 0 else qlen qs / (QcZ ts - t0)))%Qc).
  { unfold timer_rate, pydiv. rewrite Hl, Hcnt. cbn [nsub nofZ XQ xsub xopp xadd neqb xeqb n0 ndiv xdiv].
    change (QcZ ts + - t0)%Qc with (QcZ ts - t0)%Qc. change (QcZ 0) with 0%Qc.
    destruct (Qc_eq_dec (QcZ ts - t0) 0) as [He|He].
    - rewrite (proj2 (Qc_eqb_eq _ _) He). reflexivity.
    - destruct (Qc_eqb (QcZ ts - t0) 0) eqn:Ee; [apply Qc_eqb_eq in Ee; contradiction|]. reflexivity. }
  assert (Hsd : h_stddev (ti_hist t) = Ok (Fin (match qs with [] => 0%Qc | _ => sq (sample_variance qs) end))).
  { unfold h_stddev. rewrite Hcnt, Hvar. destruct qs as [|q qs]; [reflexivity|].
    destruct (Z.gtb_spec (Z.of_nat (length (q :: qs))) 0) as [_|Hz]; [|cbn in Hz; lia]. apply sqrt_ok. apply (sample_variance_nonneg sq). }
  rewrite Hsd, Hrate, Hn, Hp, Hmean, Hc. destruct Hperc as [P1 P2]. destruct Hext as [X1 X2].
  destruct qs as [|q qs].
  - rewrite (P1 eq_refl). destruct (X2 eq_refl) as [-> ->]. cbn [fins map]. cbn [lookup list_lookup].
    exists 0%Qc, 0%Qc, (QcZ (Z.of_nat (length all))), 0%Qc, 0%Qc, 0%Qc.
    exists (if Qc_eq_dec (QcZ ts - t0) 0 then 0 else qlen [] / (QcZ ts - t0))%Qc, 0%Qc. split.
    + split; try (intros Habs; contradiction); try reflexivity. intros _. repeat split.
      destruct (Qc_eq_dec _ _); [reflexivity|]. change (qlen []) with 0%Qc. unfold Qcdiv. ring.
    + cbn [snd]. unfold timer_group. cbn [map]. rewrite !dotted_under. reflexivity.
  - set (k := q :: qs) in *. assert (Hne : k <> []) by discriminate.
    destruct (P2 Hne) as (kp & l & rs & K1 & K2 & K3 & K4 & K5 & K6). rewrite K5.
    destruct (X1 ltac:(discriminate)) as [G L]. apply greatest_highest in G as (mx & -> & G). apply least_lowest in L as (mn & -> & L).
    do 6 (match goal with H : Forall2 _ (_ :: _) ?l |- _ => inversion H as [|? ? ? ? ?A ?Hrest]; subst; clear H end).
    match goal with H : Forall2 _ [] ?l |- _ => inversion H; subst; clear H end. cbn [fins map]. cbn [lookup list_lookup].
    match goal with A1 : at_position l (Q2Qc (999 # 1000) * _)%Qc ?y1, A2 : at_position l (Q2Qc (99 # 100) * _)%Qc ?y2 |- _ =>
      exists y1, y2, (QcZ (Z.of_nat (length all))), mx, (average k), mn;
      exists (if Qc_eq_dec (QcZ ts - t0) 0 then 0 else qlen k / (QcZ ts - t0))%Qc, (sq (sample_variance k));
      split; [|cbn [snd]; unfold timer_group; cbn [map]; rewrite !dotted_under; reflexivity];
      assert (Hs : forall p r, at_position l (p * QcZ (Z.of_nat (length kp) + 1))%Qc r -> from_sample k p r)
    end.
    { intros p r Hap. exists kp, l. split; [exact K3|]. split; [exact K4|].
      pose proof (us_get_length (NN := NN) _ _ _ Hsam) as Hgl. destruct Hsam as (_ & _ & Hpk & Hall).
      rewrite K1 in Hpk, Hgl, Hall. split; [exact Hpk|].
      assert (Hkl : length kp = Nat.min (length k) reservoir_1028).
      { transitivity (length (fins kp)); [symmetry; apply map_length|]. etransitivity; [exact Hgl|]. f_equal. exact Hlen. }
      split; [exact Hkl|]. split; [|exact Hap].
      intros Hle. assert (He : fins kp = fins k). { apply Hall. change (length (fins k) <= reservoir_1028)%nat. rewrite Hlen. exact Hle. }
      apply fins_inj. exact He. }
    split; auto; try reflexivity; try contradiction.
Qed.
End xq.
