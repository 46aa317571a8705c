(** Histogram bins, exact arithmetic. *)
From Verif Require Import Base Num NumFacts Env Stats TimerFacts XQFacts SampleFacts VarianceFacts PercFacts.
From Coq Require Import QArith Qcanon Qround Lqa.
Open Scope Z_scope.

(** ** Specification: [n] bins of equal width cover [lo, hi]; each contains its
    left end, the last one also [hi] *)
Definition in_bin (lo hi : Qc) (n j : Z) (v : Qc) : bool :=
  let y := ((v - lo) / (hi - lo) * QcZ n)%Qc in
  (Qc_leb (QcZ j) y && Qc_ltb y (QcZ (j + 1))) || (Qc_eqb v hi && (j =? n - 1)).
Definition lowest (l : list Qc) (m : Qc) : Prop := m ∈ l /\ forall x, x ∈ l -> (m <= x)%Qc.
Definition highest (l : list Qc) (m : Qc) : Prop := m ∈ l /\ forall x, x ∈ l -> (x <= m)%Qc.
Definition zsum (l : list Z) : Z := fold_right Z.add 0 l.
Definition counts (l : list Z) : list xq := map (fun z => Fin (QcZ z)) l.

Lemma Qc_leb_le a b : Qc_leb a b = true <-> (a <= b)%Qc.
Proof. unfold Qc_leb. rewrite Qcle_alt. destruct (a ?= b)%Qc; split; congruence. Qed.

Section xq.
Context (sq : Qc -> Qc).

Lemma pymax_fold l a : exists m, fold_left (pymax (NN := XQ sq)) (fins l) (Fin a) = Fin m /\ highest (a :: l) m.
Proof.
  revert a. induction l as [|x l IH]; intros a; cbn [fins map fold_left].
  - exists a. split; [reflexivity|]. split; [left|]. intros x Hx. apply elem_of_list_singleton in Hx as ->. apply Qcle_refl.
  - change (map Fin l) with (fins l). unfold pymax at 2. cbn [nltb XQ xltb].
    destruct (Qc_ltb a x) eqn:E.
    + destruct (IH x) as (m & Hm & H1 & H2). exists m. split; [exact Hm|]. split; [right; exact H1|].
      intros y Hy. apply elem_of_cons in Hy as [->|Hy]; [|apply H2; exact Hy].
      apply Qc_ltb_lt in E. eapply Qcle_trans; [apply Qclt_le_weak; exact E|]. apply H2. left.
    + destruct (IH a) as (m & Hm & H1 & H2). exists m. split; [exact Hm|]. apply Qc_ltb_ge in E. split.
      * apply elem_of_cons in H1 as [->|H1]; [left|right; right; exact H1].
      * intros y Hy. apply elem_of_cons in Hy as [->|Hy]; [apply H2; left|].
        apply elem_of_cons in Hy as [->|Hy]; [eapply Qcle_trans; [exact E|]; apply H2; left|apply H2; right; exact Hy].
Qed.
Lemma pymin_fold l a : exists m, fold_left (pymin (NN := XQ sq)) (fins l) (Fin a) = Fin m /\ lowest (a :: l) m.
Proof.
  revert a. induction l as [|x l IH]; intros a; cbn [fins map fold_left].
  - exists a. split; [reflexivity|]. split; [left|]. intros x Hx. apply elem_of_list_singleton in Hx as ->. apply Qcle_refl.
  - change (map Fin l) with (fins l). unfold pymin at 2. cbn [nltb XQ xltb].
    destruct (Qc_ltb x a) eqn:E.
    + destruct (IH x) as (m & Hm & H1 & H2). exists m. split; [exact Hm|]. split; [right; exact H1|].
      intros y Hy. apply elem_of_cons in Hy as [->|Hy]; [|apply H2; exact Hy].
      apply Qc_ltb_lt in E. eapply Qcle_trans; [|apply Qclt_le_weak; exact E]. apply H2. left.
    + destruct (IH a) as (m & Hm & H1 & H2). exists m. split; [exact Hm|]. apply Qc_ltb_ge in E. split.
      * apply elem_of_cons in H1 as [->|H1]; [left|right; right; exact H1].
      * intros y Hy. apply elem_of_cons in Hy as [->|Hy]; [apply H2; left|].
        apply elem_of_cons in Hy as [->|Hy]; [eapply Qcle_trans; [|exact E]; apply H2; left|apply H2; right; exact Hy].
Qed.

(** the index computed for a value *)
Definition idx (lo hi : Qc) (n : Z) (v : Qc) : Z :=
  let p := Qctrunc ((v - lo) / (hi - lo) * QcZ n)%Qc in if p =? n then p - 1 else p.
Lemma idx_spec lo hi n v : (lo < hi)%Qc -> (lo <= v)%Qc -> (v <= hi)%Qc -> 0 < n ->
  0 <= idx lo hi n v < n /\ forall j, 0 <= j < n -> in_bin lo hi n j v = (j =? idx lo hi n v).
Proof.
  intros Hlh Hl Hh Hn. unfold idx, in_bin. set (y := ((v - lo) / (hi - lo) * QcZ n)%Qc).
  assert (Hd : (0 < hi - lo)%Qc) by qc_lra.
  assert (Hd0 : (hi - lo)%Qc <> 0%Qc) by (intros Hz; rewrite Hz in Hd; apply (Qclt_not_eq _ _ Hd eq_refl)).
  assert (Hn0 : (0 < QcZ n)%Qc) by (rewrite <- QcZ_0; apply QcZ_lt; exact Hn).
  assert (Hy : (y * (hi - lo) = (v - lo) * QcZ n)%Qc) by (unfold y; field; exact Hd0).
  clearbody y.
  assert (Hy0 : (0 <= y)%Qc).
  { set (N := QcZ n) in *. set (D := (hi - lo)%Qc) in *.
    assert (HV : (0 <= v - lo)%Qc) by qc_lra. set (V := (v - lo)%Qc) in *. clearbody N D V. clear - Hy HV Hd Hn0.
    apply Qcnot_lt_le. intros Habs. assert (HP : (0 <= V * N)%Qc) by qc_nra. rewrite <- Hy in HP. qc_nra. }
  assert (Hyn : (y <= QcZ n)%Qc).
  { set (N := QcZ n) in *. assert (HV : (v - lo <= hi - lo)%Qc) by qc_lra. set (D := (hi - lo)%Qc) in *.
    set (V := (v - lo)%Qc) in *. clearbody N D V. clear - Hy HV Hd Hn0.
    apply Qcnot_lt_le. intros Habs. assert (HP : (V * N <= D * N)%Qc) by qc_nra. rewrite <- Hy in HP. qc_nra. }
  assert (Hend : v = hi <-> y = QcZ n).
  { split.
    - intros ->. assert (HH : (y * (hi - lo) = QcZ n * (hi - lo))%Qc) by (rewrite Hy; ring).
      replace y with (y * (hi - lo) / (hi - lo))%Qc by (field; exact Hd0). rewrite HH. field. exact Hd0.
    - intros ->. assert (HH : ((hi - lo) * QcZ n = (v - lo) * QcZ n)%Qc) by (rewrite <- Hy; ring).
      assert (HN : QcZ n <> 0%Qc) by (intros Hz; rewrite Hz in Hn0; apply (Qclt_not_eq _ _ Hn0 eq_refl)).
      assert (H3 : (hi - lo = v - lo)%Qc).
      { replace (hi - lo)%Qc with ((hi - lo) * QcZ n / QcZ n)%Qc by (field; exact HN). rewrite HH. field. exact HN. }
      replace v with (v - lo + lo)%Qc by ring. rewrite <- H3. ring. }
  rewrite Qctrunc_floor by exact Hy0.
  destruct (proj1 (Qcfloor_spec y (Qcfloor y)) eq_refl) as [F1 F2]. set (p := Qcfloor y) in *. clearbody p.
  assert (Hp0 : 0 <= p).
  { assert (HH : (QcZ 0 < QcZ (p + 1))%Qc) by (rewrite QcZ_0; eapply Qcle_lt_trans; eauto). apply (proj1 (QcZ_lt _ _)) in HH. lia. }
  assert (Hpn : p <= n).
  { assert (HH : (QcZ p <= QcZ n)%Qc) by (eapply Qcle_trans; eauto). apply (proj1 (QcZ_le _ _)) in HH. exact HH. }
  assert (Hpe : p = n <-> y = QcZ n).
  { split.
    - intros ->. apply Qcle_antisym; assumption.
    - intros ->. assert (HH : (QcZ n < QcZ (p + 1))%Qc) by exact F2. apply (proj1 (QcZ_lt _ _)) in HH. lia. }
  assert (Hfl : forall j, (QcZ j <= y)%Qc /\ (y < QcZ (j + 1))%Qc <-> j = p).
  { intros j. split; [|intros ->; auto]. intros [J1 J2].
    assert (HA : (QcZ j < QcZ (p + 1))%Qc) by (eapply Qcle_lt_trans; eauto).
    assert (HB : (QcZ p < QcZ (j + 1))%Qc) by (eapply Qcle_lt_trans; eauto).
    apply (proj1 (QcZ_lt _ _)) in HA. apply (proj1 (QcZ_lt _ _)) in HB. lia. }
  split; [destruct (Z.eqb_spec p n); lia|]. intros j Hj.
  assert (Hfirst : Qc_leb (QcZ j) y && Qc_ltb y (QcZ (j + 1)) = (j =? p)).
  { destruct (Z.eqb_spec j p) as [->|Hne].
    - rewrite (proj2 (Qc_leb_le _ _) F1), (proj2 (Qc_ltb_lt _ _) F2). reflexivity.
    - destruct (Qc_leb (QcZ j) y) eqn:E1; [|reflexivity]. destruct (Qc_ltb y (QcZ (j + 1))) eqn:E2; [|reflexivity].
      exfalso. apply Hne. apply Hfl. split; [apply Qc_leb_le; exact E1|apply Qc_ltb_lt; exact E2]. }
  rewrite Hfirst.
  destruct (Qc_eqb v hi) eqn:Ev.
  - apply Qc_eqb_eq in Ev. apply Hend in Ev. apply Hpe in Ev. subst p. rewrite Z.eqb_refl.
    cbn [andb]. destruct (Z.eqb_spec j n); [lia|]. reflexivity.
  - cbn [andb]. rewrite orb_false_r. destruct (Z.eqb_spec p n) as [->|]; [|reflexivity].
    exfalso. rewrite (proj2 (Qc_eqb_eq _ _)) in Ev; [discriminate|]. apply Hend, Hpe. reflexivity.
Qed.

Definition bump (zs : list Z) (i : Z) : list Z := alter (fun z => z + 1) (Z.to_nat i) zs.
Lemma zsum_bump zs i : 0 <= i < Z.of_nat (length zs) -> zsum (bump zs i) = zsum zs + 1.
Proof.
  intros Hi. unfold bump. remember (Z.to_nat i) as k. assert (Hk : (k < length zs)%nat) by lia. clear - Hk.
  revert k Hk. induction zs as [|z zs IH]; intros k Hk; [cbn in Hk; lia|].
  destruct k as [|k]; [cbn; lia|]. cbn in Hk.
  change (z + zsum (alter (fun z => z + 1) k zs) = z + zsum zs + 1). rewrite (IH k) by lia. lia.
Qed.
Lemma bump_length zs i : length (bump zs i) = length zs.
Proof. apply alter_length. Qed.

Lemma bins_ok lo hi n vs zs : (lo < hi)%Qc -> 0 < n -> Z.of_nat (length zs) = n ->
  Forall (fun v => lo <= v /\ v <= hi)%Qc vs ->
  exists zs', bin_values (NN := XQ sq) (fins vs) (Fin lo) (Fin (hi - lo)%Qc) n (counts zs) = Ok (counts zs') /\
    length zs' = length zs /\ zsum zs' = zsum zs + Z.of_nat (length vs) /\
    forall j z, 0 <= j < n -> zs !! Z.to_nat j = Some z ->
      zs' !! Z.to_nat j = Some (z + Z.of_nat (length (filter (fun v => in_bin lo hi n j v = true) vs))).
Proof.
  intros Hlh Hn Hz Hvs. revert zs Hz. induction Hvs as [|v vs [Hv1 Hv2] Hvs IH]; intros zs Hz.
  - exists zs. cbn. repeat split; auto; [lia|]. intros j z Hj ->. f_equal. lia.
  - destruct (idx_spec lo hi n v Hlh Hv1 Hv2 Hn) as [Hr Hbin].
    destruct (IH (bump zs (idx lo hi n v))) as (zs' & H1 & H2 & H3 & H4); [rewrite bump_length; exact Hz|].
    exists zs'. rewrite bump_length in H2. rewrite zsum_bump in H3 by lia.
    split; [|split; [exact H2|split; [rewrite H3; cbn [length]; lia|]]].
    + rewrite <- H1. clear H1 H2 H3 H4 IH. cbn [fins map bin_values]. change (map Fin vs) with (fins vs).
      assert (Hd : Qc_eqb (hi - lo) (QcZ 0) = false).
      { destruct (Qc_eqb (hi - lo) (QcZ 0)) eqn:Ee; [|reflexivity]. exfalso. apply Qc_eqb_eq in Ee. rewrite QcZ_0 in Ee.
        clear - Ee Hlh. qc_lra. }
      assert (Hp : pydiv (NN := XQ sq) (nsub (Num := XQ sq) (Fin v) (Fin lo)) (Fin (hi - lo)%Qc) = Ok (Fin ((v - lo) / (hi - lo))%Qc)).
      { unfold pydiv. cbn [neqb n0 nofZ XQ xeqb]. rewrite Hd. reflexivity. }
      rewrite Hp. cbn [nmul nofZ ntrunc XQ xmul xtrunc]. fold (idx lo hi n v).
      unfold idx in *. set (p := Qctrunc _) in *. set (i := if p =? n then p - 1 else p) in *.
      assert (Hi0 : (i <? 0) = false) by (apply Z.ltb_ge; lia). rewrite Hi0.
      assert (Hi1 : (0 <=? i) = true) by (apply Z.leb_le; lia). rewrite Hi1.
      assert (Hlk : exists z, zs !! Z.to_nat i = Some z) by (apply lookup_lt_is_Some_2; lia).
      destruct Hlk as [z Hlk].
      assert (Hc : counts zs !! Z.to_nat i = Some (Fin (QcZ z))) by (unfold counts; rewrite list_lookup_fmap, Hlk; reflexivity).
      match goal with |- context [@lookup ?K ?A ?M ?I (Z.to_nat i) ?v] => change (@lookup K A M I (Z.to_nat i) v = Some (Fin (QcZ z))) in Hc end.
      rewrite Hc. f_equal.
      change (nadd (Num := XQ sq) (Fin (QcZ z)) (n1 (NN := XQ sq))) with (Fin (QcZ z + QcZ 1)%Qc). rewrite <- QcZ_add.
      unfold counts, bump. apply list_eq. intros k. rewrite list_lookup_fmap.
      destruct (decide (k = Z.to_nat i)) as [->|Hk].
      * rewrite list_lookup_alter, Hlk. cbn. apply list_lookup_insert. rewrite fmap_length. eapply lookup_lt_Some; exact Hlk.
      * rewrite list_lookup_alter_ne by auto. etransitivity; [apply list_lookup_insert_ne; auto|]. rewrite list_lookup_fmap. reflexivity.
    + intros j z Hj Hjz. rewrite filter_cons. rewrite Hbin by exact Hj.
      destruct (Z.eqb_spec j (idx lo hi n v)) as [->|Hne].
      * rewrite (H4 _ (z + 1) Hj) by (unfold bump; rewrite list_lookup_alter, Hjz; reflexivity).
        destruct (decide (true = true)); [|congruence]. f_equal. cbn [length]. lia.
      * rewrite (H4 _ z Hj) by (unfold bump; rewrite list_lookup_alter_ne by lia; exact Hjz).
        destruct (decide (false = true)); [congruence|]. reflexivity.
Qed.

(** the histogram method, after any history *)
Lemma histogram_exact (E : env (NN := XQ sq)) ops size w qs : (0 < size)%nat ->
  recorded (NN := XQ sq) ops = fins qs ->
  let h := fst (hrun (NN := XQ sq) E ops (h_new (us_new size)) w) in
  (qs = [] -> h_histogram h = Ok (counts (replicate 10 0))) /\
  (qs <> [] -> exists kept lo hi, us_get (h_sample h) = fins kept /\ kept <> [] /\ lowest kept lo /\ highest kept hi /\
    (lo = hi -> h_histogram h = Exn ZeroDivisionError) /\
    (lo <> hi -> exists zs n, h_histogram h = Ok (counts zs) /\ n = 1 + Z.log2_up (Z.of_nat (length qs)) /\
       Z.of_nat (length zs) = n /\ zsum zs = Z.of_nat (length kept) /\
       forall j, 0 <= j < n -> zs !! Z.to_nat j = Some (Z.of_nat (length (filter (fun v => in_bin lo hi n j v = true) kept))))).
Proof.
  intros Hsz Hr h. pose proof (hist_count (NN := XQ sq) E ops (us_new size) w) as Hc.
  pose proof (hist_sample (NN := XQ sq) E ops (us_new size) w size (replicate_length _ _)) as Hi.
  fold h in Hc, Hi. assert (Hlen : length (recorded (NN := XQ sq) ops) = length qs) by (rewrite Hr; apply map_length).
  pose proof (eq_trans Hc (f_equal Z.of_nat Hlen)) as Hc'. split.
  - intros ->. unfold h_histogram. rewrite Hc'. reflexivity.
  - intros Hne. pose proof (us_get_length (NN := XQ sq) size _ _ Hi) as Hgl. destruct Hi as (_ & _ & Hpk & _).
    rewrite Hr in Hpk. destruct (picked_fins sq _ _ Hpk) as [kept Hk].
    assert (Hq0 : length qs <> 0%nat) by (destruct qs; [contradiction|discriminate]).
    assert (Hkl : length kept <> 0%nat).
    { assert (HH : length kept = Nat.min (length qs) size).
      { rewrite <- Hlen. rewrite <- Hgl. rewrite Hk. symmetry. apply map_length. }
      clear - HH Hq0 Hsz. lia. }
    destruct kept as [|a kept]; [cbn in Hkl; lia|].
    destruct (pymax_fold kept a) as (hi & Hmax & Hhi). destruct (pymin_fold kept a) as (lo & Hmin & Hlo).
    exists (a :: kept), lo, hi. split; [exact Hk|]. split; [discriminate|]. split; [exact Hlo|]. split; [exact Hhi|].
    assert (Hh : h_histogram h = bin_values (NN := XQ sq) (fins (a :: kept)) (Fin lo) (Fin (hi - lo)%Qc)
                   (1 + Z.log2_up (Z.of_nat (length qs))) (replicate (Z.to_nat (1 + Z.log2_up (Z.of_nat (length qs)))) (Fin (QcZ 0)))).
    { unfold h_histogram. rewrite Hc'. destruct (Z.gtb_spec (Z.of_nat (length qs)) 0); [|lia]. cbn [negb].
      rewrite Hk. cbn [fins map list_max list_min]. change (map Fin kept) with (fins kept). rewrite Hmax, Hmin. reflexivity. }
    split.
    + intros ->. rewrite Hh. cbn [fins map bin_values]. unfold pydiv. cbn [neqb n0 nofZ XQ xeqb].
      replace (hi - hi)%Qc with (QcZ 0) by (rewrite QcZ_0; ring). rewrite (proj2 (Qc_eqb_eq _ _) eq_refl). reflexivity.
    + intros Hneq. set (n := 1 + Z.log2_up (Z.of_nat (length qs))) in *.
      assert (Hn : 0 < n) by (unfold n; pose proof (Z.log2_up_nonneg (Z.of_nat (length qs))); lia).
      assert (Hlt : (lo < hi)%Qc).
      { destruct Hlo as [Hlo1 Hlo2], Hhi as [Hhi1 Hhi2]. destruct (Qcle_lt_or_eq _ _ (Hlo2 _ Hhi1)) as [HH|HH]; [exact HH|contradiction]. }
      destruct (bins_ok lo hi n (a :: kept) (replicate (Z.to_nat n) 0) Hlt Hn) as (zs & H1 & H2 & H3 & H4).
      { rewrite replicate_length. lia. }
      { apply Forall_forall. intros v Hv. split; [apply Hlo; exact Hv|apply Hhi; exact Hv]. }
      exists zs, n. rewrite Hh. split; [|split; [reflexivity|split; [rewrite H2, replicate_length; lia|split]]].
      * rewrite <- H1. f_equal. unfold counts. rewrite fmap_replicate. reflexivity.
      * rewrite H3. assert (HZ : zsum (replicate (Z.to_nat n) 0) = 0) by (generalize (Z.to_nat n); intros k; induction k; cbn; [reflexivity|unfold zsum in *; lia]).
        rewrite HZ. reflexivity.
      * intros j Hj. rewrite (H4 j 0 Hj) by (apply lookup_replicate_2; lia). reflexivity.
Qed.
End xq.
